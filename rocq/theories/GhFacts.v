(** What careful programs rely on, from the invariant. *)

From Coq Require Import List Bool Arith Lia Permutation.
From Verif Require Import GhModel GhSpec GhTree GhInv GhOps GhStore.
Import ListNotations.

(** ** Trees and what is listed *)

Lemma child ob t fl g q : repr ob t fl -> NoDup (ids t) -> ob (root t) = Some g -> In q (listed g) ->
  exists c, root c = q /\ repr ob c [] /\ incl (ids c) (ids t) /\ ~ In (root t) (ids c).
Proof.
  intros R D E J. inversion R as [p fl' E'|p b ss cs hh fl' E' Hs Hh Hn Hc]; subst; cbn [root] in *;
    rewrite E' in E; injection E as <-; cbn [listed] in J; [contradiction|].
  cbn [ids] in D. apply NoDup_cons_iff in D as [D _].
  apply in_app_or in J as [J|J]; [|apply in_app_or in J as [J|J]].
  - exists (L q). split; [reflexivity|]. split; [constructor; auto|]. cbn [ids]. split.
    + intros x [<-|[]]. right. apply in_or_app; now left.
    + intros [->|[]]. apply D. apply in_or_app; now left.
  - apply in_map_iff in J as (c & <- & J). exists c. split; [reflexivity|]. split; [auto|]. split.
    + intros x X. right. rewrite !in_app_iff. right; left. eapply in_flat_ids; eassumption.
    + intros X. apply D. rewrite !in_app_iff. right; left. eapply in_flat_ids; eassumption.
  - exists (L q). split; [reflexivity|]. split; [constructor; auto|]. cbn [ids]. split.
    + intros x [<-|[]]. right. rewrite !in_app_iff; auto.
    + intros [->|[]]. apply D. rewrite !in_app_iff; auto.
Qed.

Lemma sub_at ob t fl : repr ob t fl -> NoDup (ids t) -> forall r, In r (ids t) ->
  exists t' fl', root t' = r /\ repr ob t' fl' /\ NoDup (ids t') /\ incl (ids t') (ids t) /\ (t' = t \/ ~ In (root t) (ids t')).
Proof.
  induction 1 as [p fl E|p b ss cs hh fl E Hs Hh Hn Hc IH]; intros D r J.
  - exists (L p), fl. destruct J as [<-|[]]. split; [reflexivity|]. split; [now constructor|]. split; [assumption|].
    split; [apply incl_refl|now left].
  - cbn [ids] in D, J. pose proof D as D0. apply NoDup_cons_iff in D as [Dp D]. destruct J as [<-|J].
    { exists (N p b ss cs hh), fl. split; [reflexivity|]. split; [now constructor|]. split; [assumption|].
      split; [apply incl_refl|now left]. }
    apply in_app_or in J as [J|J]; [|apply in_app_or in J as [J|J]].
    + exists (L r), []. split; [reflexivity|]. split; [constructor; auto|]. cbn [ids root].
      split; [repeat constructor; intros []|]. split.
      * intros x [<-|[]]. right. apply in_or_app; now left.
      * right. intros [->|[]]. apply Dp. apply in_or_app; now left.
    + apply in_flat_map in J as (c & Jc & J).
      assert (Dc : NoDup (ids c)).
      { apply (NoDup_flat cs); [|assumption]. apply NoDup_app_r in D. now apply NoDup_app_l in D. }
      destruct (IH c Jc Dc r J) as (t' & fl' & T1 & T2 & T3 & T4 & _). exists t', fl'.
      split; [assumption|]. split; [assumption|]. split; [assumption|].
      assert (X : incl (ids t') (ss ++ flat_map ids cs ++ hh)).
      { intros x K. rewrite !in_app_iff. right; left. eapply in_flat_ids; [eassumption|]. auto. }
      split; [intros x K; right; auto|]. right. intros K. apply Dp, X, K.
    + exists (L r), []. split; [reflexivity|]. split; [constructor; auto|]. cbn [ids root].
      split; [repeat constructor; intros []|]. split.
      * intros x [<-|[]]. right. rewrite !in_app_iff; auto.
      * right. intros [->|[]]. apply Dp. rewrite !in_app_iff; auto.
Qed.

Lemma tree_lists ob t fl r g q : repr ob t fl -> NoDup (ids t) -> In r (ids t) -> ob r = Some g -> In q (listed g) ->
  In q (ids t) /\ q <> root t.
Proof.
  intros R D J E K. destruct (sub_at _ _ _ R D r J) as (t' & fl' & <- & R' & D' & I' & O').
  destruct (child _ _ _ _ _ R' D' E K) as (c & <- & Rc & Ic & Nc). split; [apply I', Ic, root_in|].
  intros X. destruct O' as [->|O']; [apply Nc; rewrite <- X; apply root_in|].
  apply O'. rewrite <- X. apply Ic, root_in.
Qed.

Lemma inside_in s p x : inside s p x -> forall t fl, repr (obj s) t fl -> NoDup (ids t) -> root t = p -> In x (ids t).
Proof.
  induction 1 as [p|p q r (g & E & K) _ IH]; intros t fl R D <-; [apply root_in|].
  destruct (child _ _ _ _ _ R D E K) as (c & <- & Rc & Ic & Nc). apply Ic. apply (IH c []); [assumption| |reflexivity].
  destruct (sub_at _ _ _ R D (root c) (Ic _ (root_in c))) as (t' & fl' & T1 & T2 & T3 & _).
  clear - R D Rc Ic E K Nc.
  inversion R as [p fl' E'|p b ss cs hh fl' E' Hs Hh Hn Hc]; subst; cbn [root] in *; rewrite E' in E; injection E as <-; cbn [listed] in K; [contradiction|].
  destruct Rc as [q fl0 E0|q b0 ss0 cs0 hh0 fl0 E0 Hs0 Hh0 Hn0 Hc0].
  - repeat constructor. intros [].
  - cbn [root] in K. apply in_app_or in K as [K|K]; [rewrite (Hs _ K) in E0; discriminate|].
    apply in_app_or in K as [K|K]; [|rewrite (Hh _ K) in E0; discriminate].
    apply in_map_iff in K as (c' & Ec & K). 
    assert (Dc' : NoDup (ids c')).
    { apply (NoDup_flat cs); [|assumption]. cbn [ids] in D. apply NoDup_cons_iff in D as [_ D]. apply NoDup_app_r in D. now apply NoDup_app_l in D. }
    (* the two trees at this place agree *)
    assert (U : forall t1 f1, repr (obj s) t1 f1 -> forall t2 f2, repr (obj s) t2 f2 -> root t1 = root t2 -> t1 = t2).
    { clear. induction 1 as [p fl E|p b ss cs hh fl E Hs Hh Hn Hc IH]; intros t2 f2 R2 Er; inversion R2 as [p' fl' E'|p' b' ss' cs' hh' fl' E' Hs' Hh' Hn' Hc']; subst; cbn [root] in Er; subst;
        rewrite E in E'; try discriminate; [reflexivity|]. injection E' as <- <- <- Em <-. f_equal.
      clear E R2 Hs Hh Hn Hs' Hh' Hn'. revert cs' Em Hc'. induction cs as [|c r IHl]; intros [|c' r'] Em Hc'; try discriminate; [reflexivity|].
      cbn [map] in Em. injection Em as E1 E2. f_equal.
      - apply (IH c (or_introl eq_refl) c' []); [apply Hc'; now left|assumption].
      - apply IHl; try assumption; intros; [apply Hc|apply (IH c0) with (f2 := f2)|apply Hc']; try (now right); assumption. }
    assert (Eq : c' = N q b0 ss0 cs0 hh0).
    { eapply U; [apply Hc, K| |exact Ec]. constructor; eassumption. }
    now rewrite <- Eq.
Qed.

Lemma in_inside s t fl : repr (obj s) t fl -> forall x, In x (ids t) -> inside s (root t) x.
Proof.
  induction 1 as [p fl E|p b ss cs hh fl E Hs Hh Hn Hc IH]; intros x J; cbn [ids root] in *.
  - destruct J as [<-|[]]. constructor.
  - assert (Ls : forall q, In q (ss ++ map root cs ++ hh) -> lists s p q) by (intros q K; eexists; split; [exact E|exact K]).
    destruct J as [<-|J]; [constructor|]. apply in_app_or in J as [J|J]; [|apply in_app_or in J as [J|J]].
    + apply (in_listed s p x x); [apply Ls, in_or_app; now left|constructor].
    + apply in_flat_map in J as (c & Jc & J). apply (in_listed s p (root c) x); [|auto].
      apply Ls. rewrite !in_app_iff. right; left. now apply in_map.
    + apply (in_listed s p x x); [apply Ls; rewrite !in_app_iff; auto|constructor].
Qed.

Lemma in_held s t fl x : repr (obj s) t fl -> In x (ids t) -> x <> root t -> held s x.
Proof.
  intros R J NE. pose proof (in_inside _ _ _ R x J) as I. revert NE. generalize (root t) I. clear.
  intros p I. induction I as [p|p q r Lq _ IH]; intros NE; [congruence|].
  destruct (Nat.eq_dec r q) as [->|NE']; [now exists p|auto].
Qed.

Lemma tree_types ob t fl : repr ob t fl -> forall r b f ss cs hh, In r (ids t) -> ob r = Some (Out b f ss cs hh) ->
  (forall q, In q (ss ++ hh) -> exists f', ob q = Some (Seg f')) /\
  (forall q, In q cs -> exists b' f' ss' cs' hh', ob q = Some (Out b' f' ss' cs' hh')).
Proof.
  induction 1 as [p fl E|p b ss cs hh fl E Hs Hh Hn Hc IH]; intros r b' f ss' cs' hh' J K; cbn [ids] in J.
  - destruct J as [<-|[]]. congruence.
  - destruct J as [<-|J].
    + rewrite E in K. injection K as <- <- <- <- <-. split.
      * intros q Q. apply in_app_or in Q as [Q|Q]; eauto.
      * intros q Q. apply in_map_iff in Q as (c & <- & Q). pose proof (Hc c Q) as R. pose proof (Hn c Q) as Nc.
        destruct R; [discriminate|]. cbn [root]. eauto 8.
    + apply in_app_or in J as [J|J]; [rewrite (Hs _ J) in K; discriminate|].
      apply in_app_or in J as [J|J]; [|rewrite (Hh _ J) in K; discriminate].
      apply in_flat_map in J as (c & Jc & J). eapply IH; eassumption.
Qed.

Lemma roots_nodup (cs : list gt) : NoDup (flat_map ids cs) -> NoDup (map root cs).
Proof.
  induction cs as [|c r IH]; cbn; intros D; constructor.
  - intros J. apply in_map_iff in J as (d & E & J). apply (NoDup_app_out _ _ (root c) D (root_in c)).
    rewrite <- E. eapply in_flat_ids; [eassumption|apply root_in].
  - apply IH. now apply NoDup_app_r in D.
Qed.
Lemma roots_in (cs : list gt) q : In q (map root cs) -> In q (flat_map ids cs).
Proof. intros J. apply in_map_iff in J as (c & <- & J). eapply in_flat_ids; [eassumption|apply root_in]. Qed.

Lemma tree_once ob t fl : repr ob t fl -> NoDup (ids t) -> forall r g, In r (ids t) -> ob r = Some g -> NoDup (listed g).
Proof.
  intros R D r g J E. destruct (sub_at _ _ _ R D r J) as (t' & fl' & <- & R' & D' & _).
  destruct R' as [p f E'|p b ss cs hh f E' _ _ _ _]; cbn [root] in E; rewrite E' in E; injection E as <-; cbn [listed]; [constructor|].
  cbn [ids] in D'. apply NoDup_cons_iff in D' as [_ D']. assert (D2 := NoDup_app_r _ _ D').
  apply NoDup_app_mk; [now apply NoDup_app_l in D'| |].
  - apply NoDup_app_mk; [apply roots_nodup; now apply NoDup_app_l in D2|now apply NoDup_app_r in D2|].
    intros q Q. apply (NoDup_app_out _ _ q D2). now apply roots_in.
  - intros q Q Q'. apply (NoDup_app_out _ _ q D' Q). rewrite in_app_iff in Q'. rewrite in_app_iff.
    destruct Q'; auto using roots_in.
Qed.

Lemma flat_disjoint (cs : list gt) c c' q : NoDup (flat_map ids cs) -> In c cs -> In c' cs -> In q (ids c) -> In q (ids c') -> c = c'.
Proof.
  induction cs as [|d r IH]; cbn; [contradiction|]. intros D J J' Q Q'.
  destruct J as [->|J], J' as [->|J']; [reflexivity| | |].
  - exfalso. apply (NoDup_app_out _ _ q D Q). eapply in_flat_ids; eassumption.
  - exfalso. apply (NoDup_app_out _ _ q D Q'). eapply in_flat_ids; eassumption.
  - apply IH; try assumption. now apply NoDup_app_r in D.
Qed.

Lemma tree_one_owner ob t fl : repr ob t fl -> NoDup (ids t) -> forall r r' g g' q, In r (ids t) -> In r' (ids t) ->
  ob r = Some g -> ob r' = Some g' -> In q (listed g) -> In q (listed g') -> r = r'.
Proof.
  induction 1 as [p fl E|p b ss cs hh fl E Hs Hh Hn Hc IH]; intros D r r' g g' q J J' K K' Q Q'; cbn [ids] in J, J', D.
  - destruct J as [<-|[]]. rewrite E in K. injection K as <-. contradiction.
  - apply NoDup_cons_iff in D as [Dp D]. assert (D2 := NoDup_app_r _ _ D). assert (Dc := NoDup_app_l _ _ D2).
    assert (Split : forall x y, In x (p :: ss ++ flat_map ids cs ++ hh) -> ob x = Some y -> In q (listed y) ->
      (x = p /\ y = Out b fl ss (map root cs) hh) \/ exists c, In c cs /\ In x (ids c) /\ In q (ids c) /\ q <> root c).
    { intros x y Jx Kx Qx. destruct Jx as [<-|Jx]; [left; rewrite E in Kx; injection Kx as <-; auto|].
      apply in_app_or in Jx as [Jx|Jx]; [rewrite (Hs _ Jx) in Kx; injection Kx as <-; contradiction|].
      apply in_app_or in Jx as [Jx|Jx]; [|rewrite (Hh _ Jx) in Kx; injection Kx as <-; contradiction].
      apply in_flat_map in Jx as (c & Jc & Jx). right. exists c. split; [assumption|]. split; [assumption|].
      apply (tree_lists ob c [] x y); auto. now apply (NoDup_flat cs). }
    assert (Top : forall c, In c cs -> In q (ids c) -> q <> root c -> ~ In q (ss ++ map root cs ++ hh)).
    { intros c Jc Qc NE X. assert (Qf : In q (flat_map ids cs)) by (eapply in_flat_ids; eassumption).
      apply in_app_or in X as [X|X]; [apply (NoDup_app_out _ _ q D X); apply in_or_app; now left|].
      apply in_app_or in X as [X|X]; [|now apply (NoDup_app_out _ _ q D2 Qf)].
      apply in_map_iff in X as (d & Ed & Jd). assert (d = c); [|congruence].
      apply (flat_disjoint cs d c q); try assumption. rewrite <- Ed. apply root_in. }
    destruct (Split r g J K Q) as [(-> & ->)|(c & Jc & Jr & Qc & NE)], (Split r' g' J' K' Q') as [(-> & ->)|(c' & Jc' & Jr' & Qc' & NE')].
    + reflexivity.
    + exfalso. now apply (Top c').
    + exfalso. now apply (Top c).
    + assert (c = c') by (eapply flat_disjoint; eassumption). subst c'. apply (IH c Jc) with (g := g) (g' := g') (q := q); auto.
      now apply (NoDup_flat cs).
Qed.

(** ** States *)

Lemma same_entry s F t o t' o' q : Inv s F -> In (t, o) F -> In (t', o') F -> In q (ids t) -> In q (ids t') -> t = t' /\ o = o'.
Proof.
  intros I J J' Q Q'. destruct (pick _ _ J) as (r & P). assert (I' := Inv_perm _ _ _ P I).
  apply (Permutation_in _ P) in J'. destruct J' as [J'|J']; [injection J' as -> ->; auto|].
  exfalso. pose proof (i_dup _ _ I') as D. rewrite fids_cons in D. apply (NoDup_app_out _ _ q D Q). eapply in_fids; eassumption.
Qed.

Lemma live_tree s F p : Inv s F -> live s p -> exists t o, In (t, o) F /\ In p (ids t).
Proof. intros I Lp. pose proof (i_live _ _ I p Lp) as J. apply in_flat_map in J as ((t, o) & J1 & J2). eauto. Qed.

Lemma owns_tree s F h p : Inv s F -> owns s h p -> exists t, In (t, Some h) F /\ root t = p.
Proof.
  intros I (x & E & V & P). destruct (i_valid _ _ I h x E V) as (t & J). exists t. split; [assumption|].
  destruct (i_hand _ _ I t h J) as (k & E' & _). rewrite E in E'. injection E' as ->. cbn in P. now injection P.
Qed.
Lemma tree_owns s F h t : Inv s F -> In (t, Some h) F -> owns s h (root t).
Proof. intros I J. destruct (i_hand _ _ I t h J) as (k & E & _). eexists. split; [exact E|]. auto. Qed.

Lemma lists_tree s F p q : Inv s F -> lists s p q -> exists t o, In (t, o) F /\ In p (ids t) /\ In q (ids t) /\ q <> root t.
Proof.
  intros I (g & E & K). destruct (live_tree s F p I) as (t & o & J & Jp); [unfold live; congruence|]. exists t, o.
  split; [assumption|]. split; [assumption|].
  eapply tree_lists; [exact (i_repr _ _ I _ _ J)|eapply Inv_NoDup; eassumption|exact Jp|exact E|exact K].
Qed.

Lemma inv_sound s F : Inv s F -> sound s.
Proof.
  intros I. constructor.
  - intros h (x & E & V). destruct (i_valid _ _ I h x E V) as (t & J). exists (root t). eapply tree_owns; eassumption.
  - intros h p x E O. destruct (owns_tree _ _ _ _ I O) as (t & J & <-). destruct (i_hand _ _ I t h J) as (k & E' & Fk).
    rewrite E in E'. injection E' as ->. cbn [hk].
    destruct (root_obj _ _ _ _ I J) as (g & Eg & _ & G). exists g. split; [assumption|].
    destruct k, t; cbn in Fk |- *; subst g; auto.
  - intros h h' p O O'. destruct (owns_tree _ _ _ _ I O) as (t & J & <-). destruct (owns_tree _ _ _ _ I O') as (t' & J' & E).
    destruct (same_entry s F t (Some h) t' (Some h') (root t) I J J'); [apply root_in|rewrite <- E; apply root_in|congruence].
  - intros h p O (r & Lr). destruct (owns_tree _ _ _ _ I O) as (t & J & <-).
    destruct (lists_tree _ _ _ _ I Lr) as (t' & o' & J' & _ & Q & NE).
    destruct (same_entry s F t (Some h) t' o' (root t) I J J' (root_in t) Q) as [-> _]. congruence.
  - intros p b fl ss cs hh q E Q. destruct (live_tree s F p I) as (t & o & J & Jp); [unfold live; congruence|].
    destruct (tree_types _ _ _ (i_repr _ _ I _ _ J) p b fl ss cs hh Jp E) as [X _]. auto.
  - intros p b fl ss cs hh q E Q. destruct (live_tree s F p I) as (t & o & J & Jp); [unfold live; congruence|].
    destruct (tree_types _ _ _ (i_repr _ _ I _ _ J) p b fl ss cs hh Jp E) as [_ X]. auto.
  - intros p g E. destruct (live_tree s F p I) as (t & o & J & Jp); [unfold live; congruence|].
    eapply tree_once; [exact (i_repr _ _ I _ _ J)|eapply Inv_NoDup; eassumption|exact Jp|exact E].
  - intros p p' q Lp Lp'. destruct (lists_tree _ _ _ _ I Lp) as (t & o & J & Jp & Q & _).
    destruct (lists_tree _ _ _ _ I Lp') as (t' & o' & J' & Jp' & Q' & _).
    destruct (same_entry s F t o t' o' q I J J' Q Q') as [<- <-].
    destruct Lp as (g & E & K), Lp' as (g' & E' & K').
    eapply tree_one_owner; [exact (i_repr _ _ I _ _ J)|eapply Inv_NoDup; eassumption|exact Jp|exact Jp'|exact E|exact E'|exact K|exact K'].
  - intros p q (g & E & K) X. destruct (live_tree s F p I) as (t & o & J & Jp); [unfold live; congruence|].
    destruct (sub_at _ _ _ (i_repr _ _ I _ _ J)) with (r := p) as (t' & fl' & <- & R' & D' & _); [eapply Inv_NoDup; eassumption|assumption|].
    destruct (child _ _ _ _ _ R' D' E K) as (c & <- & Rc & Ic & Nc). apply Nc.
    assert (JJ : In (root c) (ids t')) by (apply Ic, root_in).
    destruct (sub_at _ _ _ R' D' (root c) JJ) as (t2 & f2 & E2 & R2 & D2 & I2 & O2).
    assert (Z := inside_in _ _ _ X _ _ R2 D2 E2). destruct O2 as [->|O2]; [|contradiction].
    exfalso. apply Nc. rewrite E2. apply root_in.
Qed.
