(* Destroying entities. *)
From Coq Require Import List Bool ZArith Lia ZifyBool ZifyNat.
From Verif Require Import GraphModel GraphSpec GraphFacts GraphOps GraphEdge.
Import ListNotations.
Open Scope Z_scope.

(* h is g with other referrers only *)
Record refs_only (g h : graph) : Prop := {
  ro_next : g_next h = g_next g;
  ro_ents : g_ents h = g_ents g;
  ro_some : forall i n, look g i = Some n -> exists v, look h i = Some (w_refs v n) /\ incl v (n_refs n);
  ro_none : forall i, look g i = None -> look h i = None }.

Lemma w_refs_id n : w_refs (n_refs n) n = n.
Proof. now destruct n. Qed.
Lemma ro_refl g : refs_only g g.
Proof. split; auto. intros i n H. exists (n_refs n). rewrite w_refs_id. split; [exact H|apply incl_refl]. Qed.
Lemma ro_trans g h k : refs_only g h -> refs_only h k -> refs_only g k.
Proof.
  intros A B. split.
  - rewrite (ro_next _ _ B). apply (ro_next _ _ A).
  - rewrite (ro_ents _ _ B). apply (ro_ents _ _ A).
  - intros i n H. destruct (ro_some _ _ A i n H) as (v & H1 & I1).
    destruct (ro_some _ _ B i _ H1) as (w & H2 & I2). exists w. split; [exact H2|].
    intros x Hx. now apply I1, I2.
  - intros i H. now apply (ro_none _ _ B), (ro_none _ _ A).
Qed.
Lemma ro_put g c m v : look g c = Some m -> incl v (n_refs m) -> refs_only g (put g c (w_refs v m)).
Proof.
  intros F I. split; try reflexivity.
  - intros i n H. rewrite look_put. destruct (Nat.eqb i c) eqn:Q.
    + apply Nat.eqb_eq in Q. subst. rewrite F in H. injection H as <-. eauto.
    + exists (n_refs n). rewrite w_refs_id. split; [exact H|apply incl_refl].
  - intros i H. rewrite look_put. destruct (Nat.eqb i c) eqn:Q; [|exact H].
    apply Nat.eqb_eq in Q. subst. congruence.
Qed.
Lemma rem1_incl x l : incl (rem1 x l) l.
Proof. intros y H. apply cnt_in in H. rewrite cnt_rem1 in H. apply cnt_in. lia. Qed.
Lemma ro_look g h i n : refs_only g h -> look h i = Some n -> exists p, look g i = Some p /\ n = w_refs (n_refs n) p.
Proof.
  intros A H. destruct (look g i) as [p|] eqn:E.
  - destruct (ro_some _ _ A i p E) as (v & H1 & _). rewrite H in H1. injection H1 as ->. exists p. auto.
  - rewrite (ro_none _ _ A i E) in H. discriminate.
Qed.
Lemma ro_counted g h : refs_only g h -> counted g -> counted h.
Proof.
  intros A C i n H v. destruct (ro_look _ _ _ _ A H) as (p & Hp & E). rewrite E. cbn [n_verts n_edges w_refs].
  now apply (C i).
Qed.

(* delReference( e ) on each of l *)
Lemma drop_refs_ok e l : forall D g, ginv D g -> (forall b, (cnt l b <= cr g e b)%nat) ->
  exists h, drop_refs g e l = Some h /\
    ginv (fun a b => D a b - if Nat.eqb a e then Z.of_nat (cnt l b) else 0) h /\ refs_only g h /\
    (forall i m, look h i = Some m -> cnt (n_refs m) e = (cr g e i - cnt l i)%nat).
Proof.
  induction l as [|x l IH]; intros D g G H; cbn [drop_refs].
  - exists g. split; [reflexivity|]. split; [|split; [apply ro_refl|]].
    + eapply ginv_ext; [|exact G]. intros a b. cbv beta. rewrite cnt_nil. destruct (Nat.eqb a e); lia.
    + intros i m E. rewrite (cr_look _ _ _ _ E), cnt_nil. lia.
  - pose proof (H x) as Hx. rewrite cnt_cons, Nat.eqb_refl in Hx.
    destruct (look g x) as [m|] eqn:F; [|rewrite (cr_dead _ _ _ F) in Hx; lia].
    rewrite (cr_look _ _ _ _ F) in Hx.
    assert (Hr : In e (n_refs m)) by (apply cnt_in; lia).
    destruct (delReference_ok D g x e m G F Hr) as [H1 G1]. rewrite H1.
    set (g1 := put g x (w_refs (rem1 e (n_refs m)) m)) in *.
    assert (Hc : forall b, cr g1 e b = (cr g e b - if Nat.eqb x b then 1 else 0)%nat).
    { intros b. unfold g1. rewrite cr_put. cbn [n_refs w_refs]. rewrite cnt_rem1, Nat.eqb_refl.
      rewrite Nat.eqb_sym. destruct (Nat.eqb x b) eqn:Q; [|lia].
      apply Nat.eqb_eq in Q. subst b. now rewrite (cr_look _ _ _ _ F). }
    destruct (IH _ g1 G1) as (h & H2 & G2 & R2 & C2).
    { intros b. rewrite Hc. specialize (H b). rewrite cnt_cons in H. lia. }
    exists h. split; [exact H2|]. split; [|split].
    + eapply ginv_ext; [|exact G2]. intros a b. cbv beta. rewrite cnt_cons. unfold pair.
      rewrite (Nat.eqb_sym b x). destruct (Nat.eqb a e), (Nat.eqb x b); cbn [andb]; lia.
    + eapply ro_trans; [|exact R2]. apply ro_put; [exact F|apply rem1_incl].
    + intros i p E. rewrite (C2 _ _ E), Hc, cnt_cons. lia.
Qed.

Lemma drop_extras_refs e te l : forall D g, ginv D g -> (forall b, (cnt l b <= cr g e b)%nat) ->
  (forall x m, In x l -> look g x = Some m -> n_type m <> 402) -> drop_extras g l e te = drop_refs g e l.
Proof.
  induction l as [|x l IH]; intros D g G H Ht; cbn [drop_refs drop_extras]; [reflexivity|].
  pose proof (H x) as Hx. rewrite cnt_cons, Nat.eqb_refl in Hx.
  destruct (look g x) as [m|] eqn:F; [|rewrite (cr_dead _ _ _ F) in Hx; lia].
  rewrite (cr_look _ _ _ _ F) in Hx.
  assert (Hr : In e (n_refs m)) by (apply cnt_in; lia).
  pose proof (Ht x m (or_introl eq_refl) F) as Hm. apply Z.eqb_neq in Hm. rewrite Hm.
  destruct (delReference_ok D g x e m G F Hr) as [H1 G1]. rewrite H1.
  apply (IH _ _ G1).
  - intros b. rewrite cr_put. cbn [n_refs w_refs]. rewrite cnt_rem1, Nat.eqb_refl.
    specialize (H b). rewrite cnt_cons in H. rewrite Nat.eqb_sym.
    destruct (Nat.eqb x b) eqn:Q; [|lia].
    apply Nat.eqb_eq in Q. subst b. rewrite (cr_look _ _ _ _ F) in H. lia.
  - intros y p Hy Hp. rewrite look_put in Hp. destruct (Nat.eqb y x) eqn:Q.
    + injection Hp as <-. cbn [n_type w_refs]. now apply Z.eqb_neq.
    + apply (Ht y p); [now right|exact Hp].
Qed.

(* What may happen to an entity that is not destroyed. *)
Record lesser (n m : node) : Prop := {
  le_type : n_type m = n_type n; le_null : n_null m = n_null n; le_form : n_form m = n_form n;
  le_own : n_own m = n_own n; le_dep : n_dep m = n_dep n; le_points : n_points m = n_points n;
  le_refs : incl (n_refs m) (n_refs n);
  le_slots : forall k, nth k (n_slots m) None = nth k (n_slots n) None \/ nth k (n_slots m) None = None;
  le_items : (length (n_items m) <= length (n_items n))%nat /\ incl (n_items m) (n_items n);
  le_edges : n_edges n = [] -> n_edges m = [];
  le_edges2 : incl (n_edges m) (n_edges n);
  le_loops : n_loops n = [] -> n_loops m = [];
  le_tgt : incl (tgt m) (tgt n) }.

Lemma lesser_refl n : lesser n n.
Proof. split; auto using incl_refl. Qed.
Lemma lesser_trans n m p : lesser n m -> lesser m p -> lesser n p.
Proof.
  intros [a1 a2 a3 a4 a5 a6 a7 a8 a9 a10 a11 a12 a13] [b1 b2 b3 b4 b5 b6 b7 b8 b9 b10 b11 b12 b13].
  split; try congruence; auto; try (eapply incl_tran; eassumption).
  - intros k. destruct (b8 k) as [->| ->]; auto.
  - destruct a9, b9. split; [lia|eapply incl_tran; eassumption].
Qed.
Lemma lesser_refs n v : incl v (n_refs n) -> lesser n (w_refs v n).
Proof. intros H. split; auto using incl_refl. Qed.

(* After e has been destroyed, or while it is: the others. *)
Record dwindle (g h : graph) : Prop := {
  dw_next : g_next h = g_next g;
  dw_ents : g_ents h = g_ents g;
  dw_some : forall i n m, look g i = Some n -> look h i = Some m -> lesser n m;
  dw_none : forall i, look g i = None -> look h i = None }.
Lemma dw_refl g : dwindle g g.
Proof. split; auto. intros i n m H1 H2. rewrite H1 in H2. injection H2 as <-. apply lesser_refl. Qed.
Lemma dw_trans g h k : dwindle g h -> dwindle h k -> dwindle g k.
Proof.
  intros A B. split.
  - rewrite (dw_next _ _ B). apply (dw_next _ _ A).
  - rewrite (dw_ents _ _ B). apply (dw_ents _ _ A).
  - intros i n m H1 H2. destruct (look h i) as [p|] eqn:E.
    + eapply lesser_trans; [eapply (dw_some _ _ A); eauto|eapply (dw_some _ _ B); eauto].
    + rewrite (dw_none _ _ B i E) in H2. discriminate.
  - intros i H. now apply (dw_none _ _ B), (dw_none _ _ A).
Qed.
Lemma dw_ro g h : refs_only g h -> dwindle g h.
Proof.
  intros [A B C D]. split; auto. intros i n m H1 H2. destruct (C i n H1) as (v & H3 & H4).
  rewrite H2 in H3. injection H3 as ->. now apply lesser_refs.
Qed.
Lemma dw_put g r n m : look g r = Some n -> lesser n m -> dwindle g (put g r m).
Proof.
  intros E L. split; try reflexivity.
  - intros i p q H1 H2. rewrite look_put in H2. destruct (Nat.eqb i r) eqn:Q.
    + apply Nat.eqb_eq in Q. subst. congruence.
    + rewrite H1 in H2. injection H2 as <-. apply lesser_refl.
  - intros i H. rewrite look_put. destruct (Nat.eqb i r) eqn:Q; [|exact H].
    apply Nat.eqb_eq in Q. subst. congruence.
Qed.

(* One r->unlink( e ): the others keep all but referrers, and stay. *)
Record touches (r : nat) (g h : graph) : Prop := {
  to_others : forall i n, i <> r -> look g i = Some n -> exists v, look h i = Some (w_refs v n);
  to_r : live g r -> live h r }.

(* what e's type has to do with the holder m *)
Definition fits (e : nat) (te : Z) (m : node) : Prop :=
  (n_type m = 124 -> te = 124) /\
  (n_type m = 504 -> te = 502 -> In e (ptrs (n_des m)) \/ In e (n_extras m)) /\
  (n_type m = 504 -> In e (map fst (n_verts m)) -> te = 502) /\
  (n_type m = 180 -> In e (n_items m) -> n_items m = [e]).
Lemma fits_refs e te m v : fits e te m -> fits e te (w_refs v m).
Proof. auto. Qed.

Definition unlinked (D : nat -> nat -> Z) (g : graph) (r e : nat) (res : option (bool * graph)) : Prop :=
  exists b h, res = Some (b, h) /\ ginv (fun a b => D a b + pair r e 1 a b) h /\ counted h /\
    dwindle g h /\ touches r g h.

(* the simple cases: one pointer of r goes *)
Lemma unlink_put D g r e n m b : ginv D g -> counted g -> look g r = Some n -> In e (tgt n) ->
  n_type m = n_type n -> n_null m = n_null n -> shape (ty g) r m -> n_refs m = n_refs n -> lesser n m ->
  n_edges m = n_edges n -> n_verts m = n_verts n ->
  (forall b, cnt (tgt m) b = (cnt (tgt n) b - if Nat.eqb e b then 1 else 0)%nat) ->
  unlinked D g r e (Some (b, put g r m)).
Proof.
  intros G C E Hin K1 K2 Sh Hr L V1 V2 Ht. exists b. eexists. split; [reflexivity|]. split; [|split; [|split]].
  - eapply (ginv_shrink D _ g r n m e G); eauto; [|now split]. intros a x. cbv beta. lia.
  - eapply frame_counted; [|exact C]. eapply frame_put; eauto. now split.
  - now apply (dw_put g r n).
  - split.
    + intros i p Hi Hp. exists (n_refs p). rewrite w_refs_id, look_put_ne by auto. exact Hp.
    + intros _. exists m. apply look_put_eq.
Qed.

Lemma tgt_one D g r n e : ginv D g -> look g r = Some n -> In e (tgt n) -> cnt (tgt n) e = 1%nat.
Proof.
  intros G E H. apply cnt_in in H. pose proof (g_one _ _ G r e) as O. rewrite (ct_look _ _ _ _ E) in O. lia.
Qed.

Lemma clear1_incl x l : incl (ptrs (clear1 x l)) (ptrs l).
Proof. intros y H. apply cnt_in in H. rewrite cnt_clear1 in H. apply cnt_in. lia. Qed.

Lemma tgt_incl n m : (forall b, cnt (tgt m) b <= cnt (tgt n) b)%nat -> incl (tgt m) (tgt n).
Proof. intros H x Hx. apply cnt_in in Hx. apply cnt_in. specialize (H x). lia. Qed.

Lemma shape_des_less f e n l : shape f e n -> n_null n = false ->
  length l = 7%nat -> (forall k, nth k l None = nth k (n_des n) None \/ nth k l None = None) ->
  incl (ptrs l) (ptrs (n_des n)) -> shape f e (w_des l n).
Proof.
  intros [a1 a2 a3 a4 a5 a6 a7 a8 a9 a10 a11 a12 a13 a14 a15 a16] Hn Hl Hk Hi. split; auto.
  - cbn [n_null w_des]. congruence.
  - intros T. destruct (a7 T) as [b1 b2]. split; [exact b1|]. cbn [n_des w_des]. intros k K.
    destruct (Hk k) as [->| ->]; auto.
  - cbn [n_des n_extras w_des]. destruct a8 as [b1 b2]. split; [|exact b2]. intros H. now apply b1, Hi.
  - cbn [n_des w_des]. intros x k H. destruct (Hk 4%nat) as [Q|Q]; rewrite Q in H; [now apply a10|discriminate].
Qed.
Lemma shape_extras_less f e n l : shape f e n -> n_null n = false -> incl l (n_extras n) -> shape f e (w_extras l n).
Proof.
  intros Sh Hn Hi. apply shape_extras; auto.
  - intros T. destruct (sh_124 _ _ _ Sh T) as [b _]. rewrite b in Hi. destruct l as [|y l]; [reflexivity|].
    destruct (Hi y (or_introl eq_refl)).
  - intros H. apply (proj2 (sh_self _ _ _ Sh)). now apply Hi.
  - intros x k H. apply (sh_extras _ _ _ Sh). now apply Hi.
Qed.
Lemma shape_items_less f e n l : shape f e n -> n_null n = false -> incl l (n_items n) -> shape f e (w_items l n).
Proof.
  intros Sh Hn Hi. apply shape_items; auto.
  - intros T. pose proof (sh_items _ _ _ Sh T) as b. rewrite b in Hi. destruct l as [|y l]; [reflexivity|].
    destruct (Hi y (or_introl eq_refl)).
  - intros T x k H. apply (sh_102 _ _ _ Sh T). now apply Hi.
Qed.

Lemma rem1_length x l : (length (rem1 x l) <= length l)%nat.
Proof. induction l as [|y l IH]; cbn [rem1 length]; [lia|]. destruct (Nat.eqb x y); cbn [length]; lia. Qed.
Lemma cut_incl e l : incl (cut e l) l.
Proof.
  induction l as [|d l IH]; cbn [cut]; [apply incl_refl|]. destruct (Nat.eqb (ed_curve d) e).
  - now apply incl_tl, incl_refl.
  - intros x [->|H]; [now left|right; now apply IH].
Qed.

(* the segments left when e goes *)
Definition left_of (e : nat) (l : list nat) : list nat := if ends e l then rem1 e l else [].

Lemma unlink102_ok D g r e n : ginv D g -> counted g -> look g r = Some n -> n_null n = false ->
  In e (n_items n) -> (forall b, b <> e -> D r b = 0) -> unlinked D g r e (unlink102 g r n e) /\
  forall b h, unlink102 g r n e = Some (b, h) -> exists v, look h r = Some (w_refs v (w_items (left_of e (n_items n)) n)).
Proof.
  intros G C E Hn Hin HD. unfold unlink102. pose proof (proj2 (mem_in e (n_items n)) Hin) as M. rewrite M.
  pose proof (g_shape _ _ G _ _ E) as Sh.
  assert (Ht : In e (tgt n)) by now apply in_tgt_items.
  pose proof (tgt_one _ _ _ _ _ G E Ht) as One.
  assert (C1 : cnt (n_items n) e = 1%nat).
  { apply cnt_in in Hin. rewrite cnt_tgt_eq in One. lia. }
  unfold left_of. destruct (ends e (n_items n)).
  - split; [|intros b h [= _ <-]; exists (n_refs n); rewrite look_put_eq; reflexivity]. assert (Hc : forall b, cnt (tgt (w_items (rem1 e (n_items n)) n)) b = (cnt (tgt n) b - if Nat.eqb e b then 1 else 0)%nat).
    { intros b. rewrite !cnt_tgt_eq. cbn [n_des n_extras n_slots n_items n_edges n_verts w_items].
      rewrite cnt_rem1. destruct (Nat.eqb e b) eqn:Q; [apply Nat.eqb_eq in Q; subst b|]; lia. }
    eapply unlink_put; eauto.
    + apply shape_items_less; auto using rem1_incl.
    + split; auto using incl_refl; cbn [n_items w_items].
      * split; [apply rem1_length|apply rem1_incl].
      * apply tgt_incl. intros b. rewrite Hc. lia.
  - assert (G1 : ginv (fun a b => D a b + if Nat.eqb a r then Z.of_nat (cnt (n_items n) b) else 0)
                   (put g r (w_items [] n))).
    { eapply (ginv_put D _ g r n); eauto; [now split| | | |].
      - apply shape_items_less; auto. intros x [].
      - intros b. pose proof (g_one _ _ G r b) as O. rewrite (ct_look _ _ _ _ E) in O.
        pose proof (cnt_tgt_items [] n b). rewrite cnt_nil in H. lia.
      - intros a. cbn [n_refs w_items]. pose proof (g_one _ _ G a r) as O. rewrite (cr_look _ _ _ _ E) in O. lia.
      - intros a b. cbv beta. pose proof (cnt_tgt_items [] n b). rewrite cnt_nil in H. cbn [n_refs w_items].
        destruct (Nat.eqb a r), (Nat.eqb b r); lia. }
    destruct (drop_refs_ok r (rem1 e (n_items n)) _ _ G1) as (h & H1 & G2 & R2 & _).
    { intros b. rewrite cnt_rem1, cr_put. cbn [n_refs w_items].
      pose proof (g_link _ _ G r b) as L. rewrite (ct_look _ _ _ _ E) in L.
      pose proof (cnt_tgt_parts n b) as P.
      assert (Q : (if Nat.eqb b r then cnt (n_refs n) r else cr g r b) = cr g r b).
      { destruct (Nat.eqb b r) eqn:B; [|reflexivity]. apply Nat.eqb_eq in B. subst b. now rewrite (cr_look _ _ _ _ E). }
      rewrite Q. destruct (Nat.eqb e b) eqn:B.
      - apply Nat.eqb_eq in B. subst b. lia.
      - apply Nat.eqb_neq in B. rewrite (HD b) in L by auto. lia. }
    rewrite H1. cbn [option_map].
    split; [|intros b h' [= _ <-]; destruct (ro_some _ _ R2 r _ (look_put_eq _ _ _)) as (v & Hv & _); eauto].
    exists true, h. split; [reflexivity|]. split; [|split; [|split]].
    + eapply ginv_ext; [|exact G2]. intros a b. cbv beta. rewrite cnt_rem1. unfold pair.
      rewrite (Nat.eqb_sym b e). destruct (Nat.eqb a r), (Nat.eqb e b) eqn:B; cbn [andb]; try lia.
      apply Nat.eqb_eq in B. subst b. lia.
    + apply (ro_counted _ _ R2). eapply frame_counted; [|exact C]. eapply frame_put; eauto. now split.
    + eapply dw_trans; [|apply dw_ro; exact R2]. apply (dw_put g r n); [exact E|].
      split; auto using incl_refl; cbn [n_items w_items].
      * split; [cbn; lia|intros x []].
      * apply tgt_incl. intros b. pose proof (cnt_tgt_items [] n b). rewrite cnt_nil in H. lia.
    + split.
      * intros i p Hi Hp. destruct (ro_some _ _ R2 i p) as (v & Hv & _); [now rewrite look_put_ne|eauto].
      * intros _. destruct (ro_some _ _ R2 r _ (look_put_eq _ _ _)) as (v & Hv & _). eexists; eauto.
Qed.

Lemma find_curve l e : In e (edge_curves l) -> exists d, find (fun d => Nat.eqb (ed_curve d) e) l = Some d /\ In d l /\ ed_curve d = e.
Proof.
  unfold edge_curves. induction l as [|a l IH]; cbn [map In find]; [tauto|]. intros H.
  destruct (Nat.eqb (ed_curve a) e) eqn:Q.
  - apply Nat.eqb_eq in Q. eauto.
  - apply Nat.eqb_neq in Q. destruct H; [contradiction|]. destruct (IH H) as (d & A & B & C). eauto.
Qed.

Lemma vdown_incl v l : incl (map fst (count_down v l)) (map fst l).
Proof.
  induction l as [|(w,c) l IH]; cbn [count_down map fst]; [apply incl_refl|].
  destruct (Nat.eqb v w); [destruct c as [|[|c]]|]; cbn [map fst]; try (now apply incl_tl, incl_refl); try apply incl_refl.
  intros x [->|H]; [now left|right; now apply IH].
Qed.

Lemma delVertexList_ents g e v b h : delVertexList g e v = Some (b, h) -> g_ents h = g_ents g.
Proof.
  unfold delVertexList. destruct (look g e); [|discriminate].
  destruct (find _ _) as [(w,c)|]; [|intros [= _ <-]; reflexivity].
  destruct (Nat.eqb c 1).
  - unfold delReference. destruct (look g v) as [m|]; [|discriminate].
    destruct (n_null m); cbn [option_map snd]; [destruct (look g e); [|discriminate]; intros [= _ <-]; reflexivity|].
    destruct (mem e (n_refs m)); cbn [option_map snd].
    + destruct (look _ e); [|discriminate]; intros [= _ <-]; reflexivity.
    + destruct (n_extras m); cbn [option_map snd]; [destruct (look g e); [|discriminate]; intros [= _ <-]; reflexivity|].
      destruct (Nat.eqb n0 e); [|discriminate]. destruct (look g e) as [q|]; [|discriminate].
      destruct (_ || _); [|destruct (mem v (n_refs q)); [|destruct (n_extras q); [|discriminate]]];
        destruct (look _ v); cbn [option_map snd]; try discriminate;
        destruct (look _ e); try discriminate; intros [= _ <-]; reflexivity.
  - destruct (look g e); [|discriminate]; intros [= _ <-]; reflexivity.
Qed.

Lemma unlink504_ok D g r e te n : ginv D g -> counted g -> look g r = Some n -> n_null n = false ->
  n_type n = 504 -> te <> 502 -> In e (edge_curves (n_edges n)) -> (forall b, b <> e -> D r b = 0) ->
  unlinked D g r e (unlink504 g r n e te).
Proof.
  intros G C E Hn Ht Hte Hin HD. unfold unlink504. apply Z.eqb_neq in Hte. rewrite Hte.
  destruct (find_curve _ _ Hin) as (d & Hf & Hd & Hc). rewrite Hf.
  pose proof (g_shape _ _ G _ _ E) as Sh.
  assert (Hin' : In e (tgt n)) by (apply cnt_in; rewrite cnt_tgt_eq; apply cnt_in in Hin; lia).
  pose proof (tgt_one _ _ _ _ _ G E Hin') as One.
  assert (NV : forall v, In v (map fst (n_verts n)) -> v <> e).
  { intros v Hv ->. apply cnt_in in Hv. apply cnt_in in Hin. rewrite cnt_tgt_eq in One. lia. }
  destruct (uses_in _ _ Hd) as [U1 U2].
  assert (V1 : In (ed_start d) (map fst (n_verts n))).
  { apply vcount_in; [apply (sh_pos _ _ _ Sh)|]. now rewrite (C r n E). }
  assert (V2 : In (ed_stop d) (map fst (n_verts n))).
  { apply vcount_in; [apply (sh_pos _ _ _ Sh)|]. now rewrite (C r n E). }
  destruct (delVertexList_ok D g r (ed_start d) n G E Hn Ht V1 (HD _ (NV _ V1)))
    as (g1 & n1 & H1 & G1 & N1 & E1 & Q1 & O1).
  rewrite H1. cbn [and_then].
  assert (W1 : forall v, vcount (n_verts n1) v = uses (n_edges n) v - if Nat.eqb (ed_start d) v then 1 else 0).
  { intros v. rewrite (verts_here _ _ _ _ _ _ v N1 E E1), (C r n E). unfold at1. destruct (Nat.eqb _ v); lia. }
  assert (V3 : In (ed_stop d) (map fst (n_verts n1))).
  { apply vcount_in; [apply (sh_pos _ _ _ (g_shape _ _ G1 _ _ E1))|]. rewrite W1.
    destruct (Nat.eqb (ed_start d) (ed_stop d)) eqn:Q; [|lia]. apply Nat.eqb_eq in Q.
    pose proof (uses_two _ _ Hd Q). rewrite Q in H. lia. }
  destruct (delVertexList_ok D g1 r (ed_stop d) n1 G1 E1 ltac:(now rewrite Q1) ltac:(now rewrite Q1) V3 (HD _ (NV _ V2)))
    as (g2 & n2 & H2 & G2 & N2 & E2 & Q2 & O2).
  rewrite H2. cbn [and_then]. rewrite E2.
  assert (Ed : n_edges n2 = n_edges n) by (rewrite Q2, Q1; reflexivity).
  exists true. eexists. split; [reflexivity|]. rewrite Ed.
  assert (Inc : incl (map fst (n_verts n2)) (map fst (n_verts n))).
  { rewrite Q2, Q1. cbn [n_verts w_verts]. eapply incl_tran; apply vdown_incl. }
  assert (Tgt2 : forall b, cnt (tgt (w_edges (cut e (n_edges n)) n2)) b = (cnt (tgt n2) b - if Nat.eqb e b then 1 else 0)%nat).
  { intros b. rewrite !cnt_tgt_eq. cbn [n_des n_extras n_slots n_items n_edges n_verts w_edges].
    rewrite curves_cut, Ed. destruct (Nat.eqb e b) eqn:Q; [apply Nat.eqb_eq in Q; subst b|]; apply cnt_in in Hin; lia. }
  assert (Hin2 : In e (tgt n2)).
  { apply cnt_in. rewrite cnt_tgt_eq, Ed. apply cnt_in in Hin. lia. }
  split; [|split; [|split]].
  - eapply (ginv_shrink D _ g2 r n2 _ e G2); eauto.
    + intros a x. cbv beta. lia.
    + now split.
    + pose proof (g_shape _ _ G2 _ _ E2) as Sh2. apply shape_edges; auto.
      * rewrite Q2, Q1. exact Hn.
      * rewrite Q2, Q1. exact Ht.
      * intros v k Hv. apply (sh_504c _ _ _ Sh2). rewrite Ed. apply cnt_in in Hv. rewrite curves_cut in Hv.
        apply cnt_in. lia.
  - intros i p Hp v. rewrite look_put in Hp. destruct (Nat.eqb i r) eqn:Q.
    + injection Hp as <-. cbn [n_verts n_edges w_edges]. rewrite (uses_cut _ _ _ _ Hf).
      rewrite (verts_here _ _ _ _ _ _ v N2 E1 E2), W1. unfold at1.
      destruct (Nat.eqb (ed_start d) v), (Nat.eqb (ed_stop d) v); lia.
    + assert (N : near r (fun v => at1 (ed_start d) (-1) v + at1 (ed_stop d) (-1) v) g g2).
      { eapply near_trans; eauto. }
      destruct (look g i) as [pi|] eqn:Ei; [|rewrite (r_none _ _ _ _ N i Ei) in Hp; discriminate].
      destruct (r_some _ _ _ _ N i pi Ei) as (p' & Hp' & _ & X1 & X2).
      rewrite Hp in Hp'. injection Hp' as <-. rewrite X1, X2, Q, Z.add_0_r. now apply (C i).
  - split.
    + cbn [g_next put]. rewrite (r_next _ _ _ _ N2). apply (r_next _ _ _ _ N1).
    + cbn [g_ents put]. rewrite (delVertexList_ents _ _ _ _ _ H2). apply (delVertexList_ents _ _ _ _ _ H1).
    + intros i p q Hp Hq. rewrite look_put in Hq. destruct (Nat.eqb i r) eqn:Q.
      * apply Nat.eqb_eq in Q. subst i. rewrite E in Hp. injection Hp as <-. injection Hq as <-.
        rewrite Q2, Q1. split; auto using incl_refl; cbn [n_edges w_edges w_verts].
        -- intros X. rewrite X in Hd. destruct Hd.
        -- apply cut_incl.
        -- rewrite <- Q1, <- Q2. intros x Hx. apply cnt_in in Hx. rewrite Tgt2 in Hx.
           assert (X : In x (tgt n2)) by (apply cnt_in; lia).
           unfold tgt in X |- *. rewrite Ed in X. rewrite Q2, Q1 in X.
           cbn [n_des n_extras n_slots n_items n_edges n_verts w_verts] in X.
           rewrite !in_app_iff in *. destruct X as [X|[X|[X|[X|[X|X]]]]]; auto 10.
           right; right; right; right; right. apply Inc. rewrite Q2, Q1. exact X.
      * apply Nat.eqb_neq in Q. destruct (O1 i p Q Hp) as (v1 & P1 & I1). destruct (O2 i _ Q P1) as (v2 & P2 & I2).
        rewrite P2 in Hq. injection Hq as <-.
        apply (lesser_refs p v2). intros x Hx. now apply I1, I2.
    + intros i Hi. rewrite look_put. destruct (Nat.eqb i r) eqn:Q.
      * apply Nat.eqb_eq in Q. subst. congruence.
      * apply (r_none _ _ _ _ N2), (r_none _ _ _ _ N1), Hi.
  - split.
    + intros i p Hi Hp. destruct (O1 i p Hi Hp) as (v1 & P1 & _). destruct (O2 i _ Hi P1) as (v2 & P2 & _).
      exists v2. rewrite look_put_ne by auto. exact P2.
    + intros _. eexists. apply look_put_eq.
Qed.

Lemma no_slots f e n : shape f e n -> n_null n = false -> blank_slots (n_type n) = [] -> n_slots n = [].
Proof.
  intros Sh Hn H. pose proof (sh_slots _ _ _ Sh Hn) as L. rewrite H in L. cbn in L.
  now destruct (n_slots n).
Qed.
Lemma no_items f e n t : shape f e n -> n_type n = t -> ~ In t item_kinds -> n_items n = [].
Proof. intros Sh <- H. now apply (sh_items _ _ _ Sh). Qed.
Ltac not_in := let H := fresh in intros H; cbv in H; intuition discriminate.

Lemma set_clear n x k : nth k (n_des n) None = Some x ->
  (forall j, (j < k)%nat -> nth j (n_des n) None <> Some x) -> set_nth k None (n_des n) = clear1 x (n_des n).
Proof.
  generalize (n_des n) as l. clear n. intros l. revert k. induction l as [|a l IH]; intros [|k] H N; cbn in *; try discriminate.
  - subst. now rewrite Nat.eqb_refl.
  - destruct a as [y|].
    + destruct (Nat.eqb x y) eqn:Q.
      * apply Nat.eqb_eq in Q. subst. now destruct (N 0%nat ltac:(lia)).
      * rewrite <- (IH k); auto. intros j Hj. apply (N (S j)). lia.
    + rewrite <- (IH k); auto. intros j Hj. apply (N (S j)). lia.
Qed.

Lemma tgt_not_null f e n x : shape f e n -> In x (tgt n) -> n_null n = false.
Proof.
  intros Sh H. destruct (n_null n) eqn:N; [|reflexivity].
  destruct (sh_null _ _ _ Sh N) as [H0 _]. rewrite H0 in H. destruct H.
Qed.

Lemma unlink_ok D g r e te n : ginv D g -> counted g -> look g r = Some n -> In e (tgt n) ->
  fits e te n -> (forall b, b <> e -> D r b = 0) -> unlinked D g r e (unlink g r e te).
Proof.
  intros G C E Hin (F1 & F2 & F3 & F4) HD. unfold unlink. rewrite E.
  pose proof (g_shape _ _ G _ _ E) as Sh.
  assert (Hn : n_null n = false) by (eapply tgt_not_null; eauto). rewrite Hn.
  pose proof (tgt_one _ _ _ _ _ G E Hin) as One.
  assert (Des : In e (ptrs (n_des n)) -> unlinked D g r e (Some (true, put g r (w_des (clear1 e (n_des n)) n)))).
  { intros M. assert (Ht : forall b, cnt (tgt (w_des (clear1 e (n_des n)) n)) b = (cnt (tgt n) b - if Nat.eqb e b then 1 else 0)%nat).
    { intros b. rewrite !cnt_tgt_eq. cbn [n_des n_extras n_slots n_items n_edges n_verts w_des].
      rewrite cnt_clear1. apply cnt_in in M. destruct (Nat.eqb e b) eqn:Q; [apply Nat.eqb_eq in Q; subst b|]; lia. }
    eapply unlink_put; eauto.
    - apply shape_des_less; auto; [rewrite clear1_length; apply (sh_len _ _ _ Sh)|intros; apply nth_clear1|apply clear1_incl].
    - split; auto using incl_refl. apply tgt_incl. intros b. rewrite Ht. lia. }
  destruct (n_type n =? 124) eqn:T124.
  { apply Z.eqb_eq in T124. destruct (sh_124 _ _ _ Sh T124) as [X1 X2].
    assert (X3 : n_slots n = []) by (eapply no_slots; eauto; rewrite T124; reflexivity).
    assert (X4 : n_items n = []) by (apply (no_items _ _ _ _ Sh T124); not_in).
    destruct (sh_vert _ _ _ Sh ltac:(lia)) as [X5 X6].
    assert (M : In e (ptrs (n_des n))).
    { apply cnt_in. rewrite cnt_tgt_eq, X1, X3, X4, X5, X6 in One. cbn [ptrs edge_curves map] in One.
      rewrite cnt_nil in One. lia. }
    pose proof M as M'. apply ptrs_in in M'. destruct (In_nth _ _ None M') as (k & K1 & K2).
    assert (k = 4%nat).
    { destruct (Nat.eq_dec k 4) as [|N]; [assumption|]. rewrite (X2 k N) in K2. discriminate. }
    subst k. rewrite K2. rewrite (F1 T124). rewrite Nat.eqb_refl. cbn [andb Z.eqb].
    change (124 =? 124) with true. cbn [andb]. rewrite (set_clear n e 4 K2); [now apply Des|].
    intros j Hj. rewrite X2 by lia. discriminate. }
  destruct (mem e (ptrs (n_des n))) eqn:M1; [apply mem_in in M1; now apply Des|]. clear Des.
  apply mem_notin in M1.
  destruct (mem e (n_extras n)) eqn:M2.
  { apply mem_in in M2.
    assert (Ht : forall b, cnt (tgt (w_extras (rem1 e (n_extras n)) n)) b = (cnt (tgt n) b - if Nat.eqb e b then 1 else 0)%nat).
    { intros b. rewrite !cnt_tgt_eq. cbn [n_des n_extras n_slots n_items n_edges n_verts w_extras].
      rewrite cnt_rem1. apply cnt_in in M2. destruct (Nat.eqb e b) eqn:Q; [apply Nat.eqb_eq in Q; subst b|]; lia. }
    eapply unlink_put; eauto.
    - apply shape_extras_less; auto using rem1_incl.
    - split; auto using incl_refl. apply tgt_incl. intros b. rewrite Ht. lia. }
  apply mem_notin in M2.
  apply cnt_notin in M1 as N1. apply cnt_notin in M2 as N2. rewrite cnt_tgt_eq, N1, N2 in One. cbn [Nat.add] in One.
  destruct (n_type n =? 102) eqn:T102.
  { apply Z.eqb_eq in T102.
    assert (X3 : n_slots n = []) by (eapply no_slots; eauto; rewrite T102; reflexivity).
    destruct (sh_vert _ _ _ Sh ltac:(lia)) as [X5 X6]. rewrite X3, X5, X6 in One.
    cbn [ptrs edge_curves map] in One. rewrite cnt_nil in One.
    refine (proj1 (unlink102_ok _ _ _ _ _ G C E Hn _ HD)). apply cnt_in. lia. }
  assert (Items : In e (n_items n) -> forall l, incl l (n_items n) -> (length l <= length (n_items n))%nat ->
     (forall b, cnt l b = (cnt (n_items n) b - if Nat.eqb e b then 1 else 0)%nat) ->
     unlinked D g r e (Some (true, put g r (w_items l n)))).
  { intros M l Hl1 Hl2 Hl3. assert (Ht : forall b, cnt (tgt (w_items l n)) b = (cnt (tgt n) b - if Nat.eqb e b then 1 else 0)%nat).
    { intros b. rewrite !cnt_tgt_eq. cbn [n_des n_extras n_slots n_items n_edges n_verts w_items].
      rewrite Hl3. apply cnt_in in M. destruct (Nat.eqb e b) eqn:Q; [apply Nat.eqb_eq in Q; subst b|]; lia. }
    eapply unlink_put; eauto.
    - apply shape_items_less; auto.
    - split; auto using incl_refl. apply tgt_incl. intros b. rewrite Ht. lia. }
  destruct (n_type n =? 180) eqn:T180.
  { apply Z.eqb_eq in T180.
    assert (X3 : n_slots n = []) by (eapply no_slots; eauto; rewrite T180; reflexivity).
    destruct (sh_vert _ _ _ Sh ltac:(lia)) as [X5 X6]. rewrite X3, X5, X6 in One.
    cbn [ptrs edge_curves map] in One. rewrite cnt_nil in One.
    assert (M : In e (n_items n)) by (apply cnt_in; lia).
    rewrite (proj2 (mem_in _ _) M). apply Items; [exact M|intros x []|cbn; lia|].
    intros b. rewrite (F4 T180 M), cnt_cons, cnt_nil. lia. }
  destruct (n_type n =? 504) eqn:T504.
  { apply Z.eqb_eq in T504.
    assert (X3 : n_slots n = []) by (eapply no_slots; eauto; rewrite T504; reflexivity).
    assert (X4 : n_items n = []) by (apply (no_items _ _ _ _ Sh T504); not_in).
    rewrite X3, X4 in One. cbn [ptrs] in One. rewrite cnt_nil in One.
    assert (Te : te <> 502) by (intros Q; destruct (F2 T504 Q); contradiction).
    apply unlink504_ok; auto. apply cnt_in.
    destruct (cnt (map fst (n_verts n)) e) eqn:Q; [lia|]. exfalso. apply Te, (F3 T504). apply cnt_in. lia. }
  destruct (sh_vert _ _ _ Sh ltac:(lia)) as [X5 X6]. rewrite X5, X6 in One.
  cbn [edge_curves map] in One. rewrite cnt_nil in One.
  destruct (n_type n =? 508) eqn:T508.
  { apply Z.eqb_eq in T508.
    assert (X3 : n_slots n = []) by (eapply no_slots; eauto; rewrite T508; reflexivity).
    assert (X4 : n_items n = []) by (apply (no_items _ _ _ _ Sh T508); not_in).
    rewrite X3, X4 in One. cbn [ptrs] in One. rewrite cnt_nil in One. lia. }
  destruct (mem e (ptrs (n_slots n))) eqn:M3.
  { apply mem_in in M3.
    assert (Ht : forall b, cnt (tgt (w_slots (clear1 e (n_slots n)) n)) b = (cnt (tgt n) b - if Nat.eqb e b then 1 else 0)%nat).
    { intros b. rewrite !cnt_tgt_eq. cbn [n_des n_extras n_slots n_items n_edges n_verts w_slots].
      rewrite cnt_clear1. apply cnt_in in M3. destruct (Nat.eqb e b) eqn:Q; [apply Nat.eqb_eq in Q; subst b|]; lia. }
    eapply unlink_put; eauto.
    - apply shape_slots; auto. apply clear1_length.
    - split; auto using incl_refl.
      + cbn [n_slots w_slots]. intros k. apply nth_clear1.
      + apply tgt_incl. intros b. rewrite Ht. lia. }
  apply mem_notin in M3. apply cnt_notin in M3.
  assert (M : In e (n_items n)) by (apply cnt_in; lia). rewrite (proj2 (mem_in _ _) M).
  apply Items; auto using rem1_incl, rem1_length. intros b. apply cnt_rem1.
Qed.

(* the entity without its pointer to e *)
Definition cutoff (e : nat) (n : node) : node :=
  if mem e (ptrs (n_des n)) then w_des (clear1 e (n_des n)) n
  else if mem e (n_extras n) then w_extras (rem1 e (n_extras n)) n
  else if n_type n =? 102 then w_items (left_of e (n_items n)) n
  else if mem e (ptrs (n_slots n)) then w_slots (clear1 e (n_slots n)) n
  else w_items (rem1 e (n_items n)) n.
Lemma cutoff_refs e v n : cutoff e (w_refs v n) = w_refs v (cutoff e n).
Proof.
  unfold cutoff. cbn [n_des n_extras n_type n_slots n_items w_refs].
  destruct (mem e (ptrs (n_des n))); [reflexivity|]. destruct (mem e (n_extras n)); [reflexivity|].
  destruct (n_type n =? 102); [reflexivity|]. destruct (mem e (ptrs (n_slots n))); reflexivity.
Qed.

Lemma unlink_cut D g r e te n b h : ginv D g -> counted g -> look g r = Some n -> In e (tgt n) ->
  fits e te n -> (forall b, b <> e -> D r b = 0) -> ~ In e (edge_curves (n_edges n)) ->
  unlink g r e te = Some (b, h) -> exists v, look h r = Some (w_refs v (cutoff e n)).
Proof.
  intros G C E Hin (F1 & F2 & F3 & F4) HD NC. unfold unlink. rewrite E.
  pose proof (g_shape _ _ G _ _ E) as Sh.
  assert (Hn : n_null n = false) by (eapply tgt_not_null; eauto). rewrite Hn.
  pose proof (tgt_one _ _ _ _ _ G E Hin) as One.
  assert (Put : forall m, Some (true, put g r m) = Some (b, h) -> cutoff e n = m -> exists v, look h r = Some (w_refs v (cutoff e n))).
  { intros m [= _ <-] ->. exists (n_refs m). now rewrite look_put_eq, w_refs_id. }
  unfold cutoff in *.
  destruct (n_type n =? 124) eqn:T124.
  { apply Z.eqb_eq in T124. destruct (sh_124 _ _ _ Sh T124) as [X1 X2].
    assert (X3 : n_slots n = []) by (eapply no_slots; eauto; rewrite T124; reflexivity).
    assert (X4 : n_items n = []) by (apply (no_items _ _ _ _ Sh T124); not_in).
    destruct (sh_vert _ _ _ Sh ltac:(lia)) as [X5 X6].
    assert (M : In e (ptrs (n_des n))).
    { apply cnt_in. rewrite cnt_tgt_eq, X1, X3, X4, X5, X6 in One. cbn [ptrs edge_curves map] in One.
      rewrite cnt_nil in One. lia. }
    pose proof M as M'. apply ptrs_in in M'. destruct (In_nth _ _ None M') as (k & K1 & K2).
    assert (k = 4%nat).
    { destruct (Nat.eq_dec k 4) as [|N]; [assumption|]. rewrite (X2 k N) in K2. discriminate. }
    subst k. rewrite K2. rewrite (F1 T124). rewrite Nat.eqb_refl. cbn [andb Z.eqb].
    change (124 =? 124) with true. cbn [andb]. rewrite (set_clear n e 4 K2).
    - intros H. apply (Put _ H). apply mem_in in M. now rewrite M.
    - intros j Hj. rewrite X2 by lia. discriminate. }
  destruct (mem e (ptrs (n_des n))) eqn:M1; [intros H; now apply (Put _ H)|].
  destruct (mem e (n_extras n)) eqn:M2; [intros H; now apply (Put _ H)|].
  apply mem_notin in M1. apply mem_notin in M2.
  apply cnt_notin in M1 as N1. apply cnt_notin in M2 as N2. rewrite cnt_tgt_eq, N1, N2 in One. cbn [Nat.add] in One.
  destruct (n_type n =? 102) eqn:T102.
  { apply Z.eqb_eq in T102.
    assert (X3 : n_slots n = []) by (eapply no_slots; eauto; rewrite T102; reflexivity).
    destruct (sh_vert _ _ _ Sh ltac:(lia)) as [X5 X6]. rewrite X3, X5, X6 in One.
    cbn [ptrs edge_curves map] in One. rewrite cnt_nil in One.
    intros H. refine (proj2 (unlink102_ok _ _ _ _ _ G C E Hn _ HD) b h H). apply cnt_in. lia. }
  destruct (n_type n =? 180) eqn:T180.
  { apply Z.eqb_eq in T180.
    assert (X3 : n_slots n = []) by (eapply no_slots; eauto; rewrite T180; reflexivity).
    destruct (sh_vert _ _ _ Sh ltac:(lia)) as [X5 X6]. rewrite X3, X5, X6 in One.
    cbn [ptrs edge_curves map] in One. rewrite cnt_nil in One.
    assert (M : In e (n_items n)) by (apply cnt_in; lia).
    rewrite (proj2 (mem_in _ _) M). intros H. apply (Put _ H). rewrite X3. cbn [ptrs mem existsb].
    rewrite (F4 T180 M). cbn [rem1]. now rewrite Nat.eqb_refl. }
  destruct (n_type n =? 504) eqn:T504.
  { exfalso. apply Z.eqb_eq in T504.
    assert (X3 : n_slots n = []) by (eapply no_slots; eauto; rewrite T504; reflexivity).
    assert (X4 : n_items n = []) by (apply (no_items _ _ _ _ Sh T504); not_in).
    rewrite X3, X4 in One. cbn [ptrs] in One. rewrite cnt_nil in One.
    assert (Te : te <> 502) by (intros Q; destruct (F2 T504 Q); contradiction).
    apply Te, (F3 T504). apply cnt_notin in NC. apply cnt_in. lia. }
  destruct (sh_vert _ _ _ Sh ltac:(lia)) as [X5 X6]. rewrite X5, X6 in One.
  cbn [edge_curves map] in One. rewrite cnt_nil in One.
  destruct (n_type n =? 508) eqn:T508.
  { apply Z.eqb_eq in T508.
    assert (X3 : n_slots n = []) by (eapply no_slots; eauto; rewrite T508; reflexivity).
    assert (X4 : n_items n = []) by (apply (no_items _ _ _ _ Sh T508); not_in).
    rewrite X3, X4 in One. cbn [ptrs] in One. rewrite cnt_nil in One. lia. }
  destruct (mem e (ptrs (n_slots n))) eqn:M3; [intros H; now apply (Put _ H)|].
  apply mem_notin in M3. apply cnt_notin in M3.
  assert (M : In e (n_items n)) by (apply cnt_in; lia). rewrite (proj2 (mem_in _ _) M).
  intros H. now apply (Put _ H).
Qed.

(* ---- what is not touched ---- *)

Lemma delReference_local g c p b h i : delReference g c p = Some (b, h) -> i <> c -> i <> p -> look h i = look g i.
Proof.
  unfold delReference. destruct (look g c) as [n|]; [|discriminate].
  destruct (n_null n); [intros [= _ <-]; reflexivity|].
  destruct (mem p (n_refs n)); [intros [= _ <-] Hc _; now rewrite look_put_ne|].
  destruct (n_extras n) as [|x rest]; [intros [= _ <-]; reflexivity|].
  destruct (Nat.eqb x p); [|discriminate]. destruct (look g p) as [m|]; [|discriminate].
  destruct (_ || _); [|destruct (mem c (n_refs m)); [|destruct (n_extras m); [|discriminate]]];
    destruct (look _ c); try discriminate; intros [= _ <-] Hc Hp; rewrite ?look_put_ne by auto; reflexivity.
Qed.
Lemma drop_refs_local e l : forall g h i, drop_refs g e l = Some h -> ~ In i l -> i <> e -> look h i = look g i.
Proof.
  induction l as [|x l IH]; intros g h i; cbn [drop_refs]; [intros [= <-]; reflexivity|].
  destruct (delReference g x e) as [[b g1]|] eqn:E; [|discriminate]. intros H N Ne.
  rewrite (IH g1 h i H); [|intros Q; apply N; now right|exact Ne].
  eapply delReference_local; eauto. intros ->. apply N. now left.
Qed.
Lemma delVertexList_local g e v b h i n : delVertexList g e v = Some (b, h) -> look g e = Some n -> i <> e ->
  ~ In i (map fst (n_verts n)) -> look h i = look g i.
Proof.
  unfold delVertexList. intros H E. rewrite E in H.
  destruct (find _ _) as [(w,c)|] eqn:F; [|injection H as <- <-; reflexivity].
  intros Ne N. apply find_some in F. destruct F as [F1 F2]. cbn [fst] in F2. apply Nat.eqb_eq in F2. subst w.
  assert (Hv : i <> v) by (intros ->; apply N; apply in_map_iff; exists (v, c); auto).
  destruct (Nat.eqb c 1).
  - destruct (delReference g v e) as [[b1 g1]|] eqn:D; cbn [option_map snd] in H; [|discriminate].
    destruct (look g1 e); [|discriminate]. injection H as <- <-. rewrite look_put_ne by auto.
    eapply delReference_local; eauto.
  - rewrite E in H. injection H as <- <-. now rewrite look_put_ne.
Qed.
Lemma delVertexList_verts g e v b h n m : delVertexList g e v = Some (b, h) -> look g e = Some n -> look h e = Some m ->
  v <> e -> incl (map fst (n_verts m)) (map fst (n_verts n)).
Proof.
  unfold delVertexList. intros H E F Hv. rewrite E in H.
  destruct (find _ _) as [(w,c)|].
  2:{ injection H as <- <-. rewrite E in F. injection F as <-. apply incl_refl. }
  destruct (Nat.eqb c 1).
  - destruct (delReference g v e) as [[b1 g1]|] eqn:D; cbn [option_map snd] in H; [|discriminate].
    destruct (look g1 e) as [n1|] eqn:E1; [|discriminate]. injection H as <- <-. rewrite look_put_eq in F.
    injection F as <-. cbn [n_verts w_verts].
    assert (V : n_verts n1 = n_verts n).
    { revert D. unfold delReference. destruct (look g v) as [q|]; [|discriminate].
      destruct (n_null q); [intros [= _ <-]; congruence|].
      destruct (mem e (n_refs q)); [intros [= _ <-]; rewrite look_put_ne in E1 by auto; congruence|].
      destruct (n_extras q) as [|x rest]; [intros [= _ <-]; congruence|].
      destruct (Nat.eqb x e); [|discriminate]. rewrite E.
      destruct (_ || _); [|destruct (mem v (n_refs n)); [|destruct (n_extras n); [|discriminate]]];
        destruct (look _ v); try discriminate; intros [= _ <-]; rewrite look_put_ne in E1 by auto;
        rewrite ?look_put_eq in E1; try congruence. injection E1 as <-. reflexivity. }
    rewrite V. apply vdown_incl.
  - rewrite E in H. injection H as <- <-. rewrite look_put_eq in F. injection F as <-. apply vdown_incl.
Qed.

Lemma unlink_local D g r e te b h n i : ginv D g -> counted g -> unlink g r e te = Some (b, h) -> look g r = Some n ->
  i <> r -> ~ In i (tgt n) -> look h i = look g i.
Proof.
  intros G C H E Ne N. unfold unlink in H. rewrite E in H.
  destruct (n_null n) eqn:Hn; [injection H as <- <-; reflexivity|].
  destruct (n_type n =? 124).
  { destruct (nth 4 (n_des n) None); [destruct (_ && _)|]; injection H as <- <-; rewrite ?look_put_ne by auto; reflexivity. }
  destruct (mem e (ptrs (n_des n))); [injection H as <- <-; now rewrite look_put_ne|].
  destruct (mem e (n_extras n)); [injection H as <- <-; now rewrite look_put_ne|].
  destruct (n_type n =? 102).
  { unfold unlink102 in H. destruct (mem e (n_items n)); [|injection H as <- <-; reflexivity].
    destruct (ends e (n_items n)); [injection H as <- <-; now rewrite look_put_ne|].
    destruct (drop_refs _ r _) as [k|] eqn:Dr; cbn [option_map] in H; [|discriminate]. injection H as <- <-.
    rewrite (drop_refs_local _ _ _ _ _ Dr); [now rewrite look_put_ne| |exact Ne].
    intros Q. apply N, in_tgt_items. now apply (rem1_incl e). }
  destruct (n_type n =? 180).
  { destruct (mem e (n_items n)); injection H as <- <-; rewrite ?look_put_ne by auto; reflexivity. }
  destruct (n_type n =? 504) eqn:T504.
  { unfold unlink504 in H. apply Z.eqb_eq in T504.
    pose proof (g_shape _ _ G _ _ E) as Sh.
    destruct (te =? 502); [destruct (mem e (map fst (n_verts n))); [discriminate|injection H as <- <-; reflexivity]|].
    destruct (find _ _) as [d|] eqn:F; [|injection H as <- <-; reflexivity].
    apply find_some in F. destruct F as [F _].
    assert (Nv : ~ In i (map fst (n_verts n))) by (intros Q; apply N; now apply in_tgt_vert).
    assert (V1 : In (ed_start d) (map fst (n_verts n))).
    { apply vcount_in; [apply (sh_pos _ _ _ Sh)|]. rewrite (C r n E). now apply uses_in. }
    destruct (delVertexList g r (ed_start d)) as [[b1 g1]|] eqn:D1; [|discriminate]. cbn [and_then] in H.
    destruct (delVertexList g1 r (ed_stop d)) as [[b2 g2]|] eqn:D2; [|discriminate]. cbn [and_then] in H.
    destruct (look g2 r) as [n2|]; [|discriminate]. injection H as <- <-. rewrite look_put_ne by auto.
    assert (Hne : ed_start d <> r).
    { intros Q. rewrite Q in V1. pose proof (sh_504v _ _ _ Sh r (n_type n, n_null n) V1) as X. unfold ty in X.
      rewrite E in X. specialize (X eq_refl). rewrite T504 in X. discriminate. }
    destruct (look g1 r) as [n1|] eqn:E1.
    - rewrite (delVertexList_local _ _ _ _ _ i _ D2 E1 Ne).
      + exact (delVertexList_local _ _ _ _ _ i _ D1 E Ne Nv).
      + intros Q. apply Nv. exact (delVertexList_verts _ _ _ _ _ _ _ D1 E E1 Hne _ Q).
    - unfold delVertexList in D2. rewrite E1 in D2. discriminate. }
  destruct (n_type n =? 508).
  { unfold unlink508 in H. destruct (zmem te _); destruct (mem e _); try discriminate; injection H as <- <-; reflexivity. }
  destruct (mem e (ptrs (n_slots n))); [injection H as <- <-; now rewrite look_put_ne|].
  destruct (mem e (n_items n)); injection H as <- <-; rewrite ?look_put_ne by auto; reflexivity.
Qed.

Lemma unlink_all_ok e te l : forall D g, ginv D g -> counted g -> NoDup l -> look g e = None -> ~ In e l ->
  (forall a b, a <> e -> D a b = if Nat.eqb b e && mem a l then -1 else 0) ->
  (forall r m, In r l -> look g r = Some m -> fits e te m) ->
  exists h, unlink_all g l e te = Some h /\
    ginv (fun a b => if Nat.eqb a e then D a b else 0) h /\ counted h /\ dwindle g h /\
    (forall i, live g i -> live h i) /\
    (forall i, (forall r n, In r l -> look g r = Some n -> i <> r /\ ~ In i (tgt n)) -> look h i = look g i) /\
    (forall c n, ~ In c l -> look g c = Some n -> exists v, look h c = Some (w_refs v n)) /\
    (forall c n, In c l -> look g c = Some n -> ~ In e (edge_curves (n_edges n)) ->
       exists v, look h c = Some (w_refs v (cutoff e n))).
Proof.
  induction l as [|r l IH]; intros D g G C Nd He Nl HD Hf; cbn [unlink_all].
  - exists g. split; [reflexivity|]. split; [|split; [exact C|split; [apply dw_refl|split; [auto|split; [auto|split]]]]].
    2:{ intros c n _ Hc. exists (n_refs n). now rewrite w_refs_id. }
    2:{ intros c n []. }
    eapply ginv_ext; [|exact G]. intros a b. cbv beta. destruct (Nat.eqb a e) eqn:Q; [reflexivity|].
    apply Nat.eqb_neq in Q. rewrite HD by auto. cbn [mem existsb]. now rewrite andb_false_r.
  - assert (Hre : r <> e) by (intros ->; apply Nl; now left).
    pose proof (g_link _ _ G r e) as L. rewrite HD in L by auto.
    rewrite Nat.eqb_refl, (proj2 (mem_in r (r :: l)) (or_introl eq_refl)), (cr_dead _ _ _ He) in L. cbn [andb] in L.
    destruct (look g r) as [n|] eqn:E; [|rewrite (ct_dead _ _ _ E) in L; lia].
    rewrite (ct_look _ _ _ _ E) in L.
    assert (Hin : In e (tgt n)) by (apply cnt_in; lia).
    destruct (unlink_ok D g r e te n G C E Hin (Hf r n (or_introl eq_refl) E)) as (b & g1 & H1 & G1 & C1 & W1 & T1).
    { intros x Hx. rewrite HD by auto. apply Nat.eqb_neq in Hx. now rewrite Hx. }
    rewrite H1. apply NoDup_cons_iff in Nd. destruct Nd as [Nr Nd].
    destruct (IH _ g1 G1 C1 Nd) as (h & H2 & G2 & C2 & W2 & L2 & Lo2 & Ot2 & Cu2).
    + apply (dw_none _ _ W1), He.
    + intros Q. apply Nl. now right.
    + intros a x Ha. rewrite HD by auto. unfold pair. cbn [mem existsb]. fold (mem a l).
      destruct (Nat.eqb a r) eqn:Qa, (Nat.eqb x e) eqn:Qx; cbn [andb orb]; try lia.
      apply Nat.eqb_eq in Qa. subst a. apply mem_notin in Nr. rewrite Nr. lia.
    + intros a m Ha Hm. assert (Har : a <> r) by (intros ->; contradiction).
      destruct (look g a) as [p|] eqn:Ea; [|rewrite (dw_none _ _ W1 a Ea) in Hm; discriminate].
      destruct (to_others _ _ _ T1 a p Har Ea) as (v & Hv). rewrite Hv in Hm. injection Hm as <-.
      apply fits_refs. apply (Hf a p); [now right|exact Ea].
    + exists h. split; [exact H2|]. split; [|split; [exact C2|split; [eapply dw_trans; eauto|split; [|split; [|split]]]]].
      * eapply ginv_ext; [|exact G2]. intros a x. cbv beta. destruct (Nat.eqb a e) eqn:Q; [|reflexivity].
        apply Nat.eqb_eq in Q. subst a. unfold pair. apply Nat.eqb_neq in Hre. rewrite Nat.eqb_sym in Hre.
        rewrite Hre. cbn [andb]. lia.
      * intros i Hi. apply L2. destruct (Nat.eq_dec i r) as [->|Q]; [now apply (to_r _ _ _ T1)|].
        destruct Hi as [p Hp]. destruct (to_others _ _ _ T1 i p Q Hp) as (v & Hv). eexists; eauto.
      * intros i Hi. destruct (Hi r n (or_introl eq_refl) E) as [Q1 Q2].
        rewrite Lo2; [eapply unlink_local; eauto|].
        intros a m Ha Hm. assert (Har : a <> r) by (intros ->; contradiction).
        destruct (look g a) as [p|] eqn:Ea; [|rewrite (dw_none _ _ W1 a Ea) in Hm; discriminate].
        destruct (to_others _ _ _ T1 a p Har Ea) as (v & Hv). rewrite Hv in Hm. injection Hm as <-.
        rewrite tgt_refs. apply (Hi a p); [now right|exact Ea].
      * intros c p Hc Hp. destruct (to_others _ _ _ T1 c p) as (v & Hv); [intros ->; apply Hc; now left|exact Hp|].
        destruct (Ot2 c _ (fun Q => Hc (or_intror Q)) Hv) as (w & Hw). eauto.
      * intros c p Hc Hp Nc. destruct (Nat.eq_dec c r) as [->|Ncr].
        -- rewrite E in Hp. injection Hp as <-.
           destruct (unlink_cut D g r e te n b g1 G C E Hin (Hf r n (or_introl eq_refl) E)) as (v & Hv); auto.
           { intros x Hx. rewrite HD by auto. apply Nat.eqb_neq in Hx. now rewrite Hx. }
           destruct (Ot2 r _ Nr Hv) as (w & Hw). eauto.
        -- destruct Hc as [->|Hc]; [contradiction|].
           destruct (to_others _ _ _ T1 c p Ncr Hp) as (v & Hv).
           destruct (Cu2 c _ Hc Hv Nc) as (w & Hw). rewrite cutoff_refs in Hw. eauto.
Qed.

Lemma look_free g e i : look (free g e) i = if Nat.eqb i e then None else look g i.
Proof. reflexivity. Qed.

Lemma ginv_free D D' g e n : ginv D g -> look g e = Some n ->
  (forall a b, D' a b = D a b + (if Nat.eqb a e then Z.of_nat (cnt (tgt n) b) else 0)
     - (if Nat.eqb b e then Z.of_nat (cnt (n_refs n) a) else 0)) ->
  ginv D' (free g e).
Proof.
  intros G E HD. split.
  - intros a b. rewrite HD. pose proof (g_link _ _ G a b) as L.
    assert (X : ct (free g e) a b = if Nat.eqb a e then 0%nat else ct g a b).
    { unfold ct, T. rewrite look_free. destruct (Nat.eqb a e); reflexivity. }
    assert (Y : cr (free g e) a b = if Nat.eqb b e then 0%nat else cr g a b).
    { unfold cr, R. rewrite look_free. destruct (Nat.eqb b e); reflexivity. }
    rewrite X, Y. destruct (Nat.eqb a e) eqn:Qa; destruct (Nat.eqb b e) eqn:Qb;
      try (apply Nat.eqb_eq in Qa; subst a); try (apply Nat.eqb_eq in Qb; subst b);
      rewrite ?(ct_look _ _ _ _ E), ?(cr_look _ _ _ _ E) in L; lia.
  - intros a b. unfold ct, cr, T, R. rewrite !look_free. destruct (g_one _ _ G a b) as [A B].
    unfold ct, cr, T, R in A, B. split.
    + destruct (Nat.eqb a e); [rewrite cnt_nil; lia|exact A].
    + destruct (Nat.eqb b e); [rewrite cnt_nil; lia|exact B].
  - intros i m H. rewrite look_free in H. destruct (Nat.eqb i e); [discriminate|].
    apply (shape_less (ty g)); [|now apply (g_shape _ _ G)].
    intros x k. unfold ty. rewrite look_free. destruct (Nat.eqb x e); [discriminate|auto].
  - intros i H. rewrite look_free. destruct (Nat.eqb i e); [reflexivity|]. now apply (g_fresh _ _ G).
Qed.

(* what destruction gives *)
Record destroyed (g : graph) (e : nat) (h : graph) : Prop := {
  de_ginv : ginv zero h;
  de_counted : counted h;
  de_gone : look h e = None;
  de_dwindle : dwindle g h;
  de_live : forall i, i <> e -> live g i -> live h i;
  de_local : forall n i, look g e = Some n -> i <> e -> ~ In i (tgt n) ->
    (forall r m, In r (n_refs n) -> look g r = Some m -> i <> r /\ ~ In i (tgt m)) -> look h i = look g i;
  de_others : forall c n, c <> e -> look g c = Some n -> ~ In e (tgt n) -> exists v, look h c = Some (w_refs v n);
  de_cut : forall c n, c <> e -> look g c = Some n -> In e (tgt n) -> ~ In e (edge_curves (n_edges n)) ->
    exists v, look h c = Some (w_refs v (cutoff e n)) }.

Lemma destroy_ok g e : ginv zero g -> counted g -> live g e -> may_die g e ->
  exists h, destroy g e = Some h /\ destroyed g e h.
Proof.
  intros G C [n E] [MD1 MD2]. unfold destroy. rewrite E.
  pose proof (g_shape _ _ G _ _ E) as Sh.
  (* 508 has nothing of its own *)
  assert (First : (if (n_type n =? 508) && negb (n_null n)
     then unlink_all g (flat_map snd (n_loops n) ++ map fst (n_verts n)) e (n_type n)
     else drop_refs g e (own_parts n)) = drop_refs g e (own_parts n)).
  { destruct ((n_type n =? 508) && negb (n_null n)) eqn:Q; [|reflexivity].
    apply andb_prop in Q. destruct Q as [Q1 Q2]. apply Z.eqb_eq in Q1. apply negb_true_iff in Q2.
    destruct (sh_vert _ _ _ Sh ltac:(lia)) as [X5 X6].
    unfold own_parts. rewrite Q1, (sh_loops _ _ _ Sh), X5, X6.
    rewrite (no_slots _ _ _ Sh Q2) by (rewrite Q1; reflexivity).
    rewrite (no_items _ _ _ _ Sh Q1) by not_in. reflexivity. }
  rewrite First.
  assert (Own : forall b, (cnt (own_parts n) b + cnt (n_extras n) b + cnt (ptrs (n_des n)) b = cnt (tgt n) b)%nat).
  { intros b. unfold own_parts. rewrite cnt_tgt_eq, !cnt_app. destruct (n_type n =? 508) eqn:Q; [|lia].
    destruct (sh_vert _ _ _ Sh ltac:(lia)) as [X5 X6]. rewrite X6. cbn [map]. rewrite cnt_nil. lia. }
  assert (Crt : forall b, cr g e b = cnt (tgt n) b).
  { intros b. pose proof (g_link _ _ G e b) as L. rewrite (ct_look _ _ _ _ E) in L. unfold zero in L. lia. }
  destruct (drop_refs_ok e (own_parts n) _ _ G) as (g1 & H1 & G1 & R1 & Q1).
  { intros b. rewrite Crt. specialize (Own b). lia. }
  rewrite H1. destruct (ro_some _ _ R1 e n E) as (v & E1 & Iv). rewrite E1.
  cbn [n_refs n_type n_extras n_des w_refs].
  destruct (sh_self _ _ _ Sh) as [Sf1 Sf2]. apply cnt_notin in Sf1. apply cnt_notin in Sf2.
  assert (Nev : ~ In e v).
  { apply cnt_notin. specialize (Q1 e _ E1). cbn [n_refs w_refs] in Q1. rewrite Q1, Crt.
    specialize (Own e). lia. }
  set (D1 := fun a b : nat => (if Nat.eqb a e then Z.of_nat (cnt (n_extras n) b + cnt (ptrs (n_des n)) b) else 0)
               - (if Nat.eqb b e then Z.of_nat (cnt v a) else 0)).
  assert (G2 : ginv D1 (free g1 e)).
  { eapply ginv_free; [exact G1|exact E1|]. intros a b. cbv beta. unfold D1, zero. cbn [n_refs w_refs].
    rewrite tgt_refs. specialize (Own b). destruct (Nat.eqb a e), (Nat.eqb b e); lia. }
  assert (Nv : NoDup v).
  { apply nodup_cnt. intros x. pose proof (g_one _ _ G1 x e) as O. rewrite (cr_look _ _ _ _ E1) in O. apply O. }
  assert (C1 : counted (free g1 e)).
  { intros i m Hm. rewrite look_free in Hm. destruct (Nat.eqb i e); [discriminate|].
    now apply (ro_counted _ _ R1 C i). }
  destruct (unlink_all_ok e (n_type n) v D1 (free g1 e) G2 C1 Nv) as (g2 & H2 & G3 & C3 & W3 & L3 & Lo3 & Ot3 & Cu3).
  - rewrite look_free. now rewrite Nat.eqb_refl.
  - exact Nev.
  - intros a b Ha. unfold D1. apply Nat.eqb_neq in Ha. rewrite Ha.
    destruct (Nat.eqb b e); cbn [andb]; [|lia]. rewrite mem_cnt. pose proof (cnt_nodup v Nv a).
    destruct (Nat.leb 1 (cnt v a)) eqn:Q; lia.
  - intros r m Hr Hm. assert (Hre : r <> e) by (intros ->; contradiction).
    rewrite look_free in Hm. apply Nat.eqb_neq in Hre as Hre'. rewrite Hre' in Hm.
    destruct (ro_look _ _ _ _ R1 Hm) as (p & Hp & Em).
    assert (Pt : In e (tgt p)).
    { destruct (link_pointed g e r n G E (Iv r Hr)) as (p' & Hp' & T). rewrite Hp in Hp'. injection Hp' as <-. exact T. }
    pose proof (g_shape _ _ G _ _ Hp) as Shp.
    assert (Tye : ty g e = Some (n_type n, n_null n)) by (unfold ty; rewrite E; reflexivity).
    rewrite Em. apply fits_refs. repeat split.
    + intros T. destruct (sh_124 _ _ _ Shp T) as [X1 X2].
      assert (Np : n_null p = false) by (eapply tgt_not_null; eauto).
      assert (X3 : n_slots p = []) by (eapply no_slots; eauto; rewrite T; reflexivity).
      assert (X4 : n_items p = []) by (apply (no_items _ _ _ _ Shp T); not_in).
      destruct (sh_vert _ _ _ Shp ltac:(lia)) as [X5 X6].
      apply cnt_in in Pt. rewrite cnt_tgt_eq, X1, X3, X4, X5, X6 in Pt. cbn [ptrs edge_curves map] in Pt.
      rewrite cnt_nil in Pt. assert (M : In e (ptrs (n_des p))) by (apply cnt_in; lia).
      apply ptrs_in in M. destruct (In_nth _ _ None M) as (k & K1 & K2).
      assert (k = 4%nat).
      { destruct (Nat.eq_dec k 4) as [|N]; [assumption|]. rewrite (X2 k N) in K2. discriminate. }
      subst k. pose proof (sh_des4 _ _ _ Shp e _ K2 Tye) as Q. now injection Q.
    + intros T Te. destruct (in_dec Nat.eq_dec e (ptrs (n_des p))) as [|N1]; [now left|].
      destruct (in_dec Nat.eq_dec e (n_extras p)) as [|N2]; [now right|]. exfalso.
      assert (Np : n_null p = false) by (eapply tgt_not_null; eauto).
      assert (X3 : n_slots p = []) by (eapply no_slots; eauto; rewrite T; reflexivity).
      assert (X4 : n_items p = []) by (apply (no_items _ _ _ _ Shp T); not_in).
      apply cnt_notin in N1. apply cnt_notin in N2.
      apply cnt_in in Pt. rewrite cnt_tgt_eq, N1, N2, X3, X4 in Pt. cbn [ptrs] in Pt. rewrite cnt_nil in Pt.
      destruct (cnt (edge_curves (n_edges p)) e) eqn:Q.
      * (* a vertex list in use *)
        assert (M : In e (map fst (n_verts p))) by (apply cnt_in; lia).
        apply (vcount_in _ _ (sh_pos _ _ _ Shp)) in M. rewrite (C r p Hp) in M.
        assert (U : exists d, In d (n_edges p) /\ (e = ed_start d \/ e = ed_stop d)).
        { clear - M. induction (n_edges p) as [|d l IH]; cbn [uses] in M; [lia|].
          destruct (Nat.eqb (ed_start d) e) eqn:Q1; [apply Nat.eqb_eq in Q1; exists d; split; [now left|auto]|].
          destruct (Nat.eqb (ed_stop d) e) eqn:Q2; [apply Nat.eqb_eq in Q2; exists d; split; [now left|auto]|].
          destruct (IH ltac:(lia)) as (d' & I & J). exists d'. split; [now right|exact J]. }
        destruct U as (d & Hd & HU). destruct (MD2 r p d Hp Hd). destruct HU; contradiction.
      * assert (M : In e (edge_curves (n_edges p))) by (apply cnt_in; lia).
        pose proof (sh_504c _ _ _ Shp e _ M Tye) as X. cbn [fst] in X. contradiction.
    + intros T M. pose proof (sh_504v _ _ _ Shp e _ M Tye) as X. now injection X.
    + intros T M. now apply (MD1 r p).
  - (* what e pointed to *)
    rewrite H2.
    assert (Lk : forall i m, look g2 i = Some m -> exists p, look g i = Some p /\ lesser p m).
    { intros i m Hm. destruct (look (free g1 e) i) as [q|] eqn:Hq; [|rewrite (dw_none _ _ W3 i Hq) in Hm; discriminate].
      pose proof (dw_some _ _ W3 i q m Hq Hm) as L1.
      rewrite look_free in Hq. destruct (Nat.eqb i e); [discriminate|].
      destruct (ro_look _ _ _ _ R1 Hq) as (p & Hp & Eq).
      exists p. split; [exact Hp|]. eapply lesser_trans; [|exact L1].
      pose proof (dw_some _ _ (dw_ro _ _ R1) i p q Hp Hq). assumption. }
    assert (Cr2 : forall b, cr g2 e b = (cnt (n_extras n) b + cnt (ptrs (n_des n)) b)%nat).
    { intros b. pose proof (g_link _ _ G3 e b) as L. cbv beta in L. rewrite Nat.eqb_refl in L.
      assert (Z0 : look g2 e = None) by (apply (dw_none _ _ W3); rewrite look_free; now rewrite Nat.eqb_refl).
      rewrite (ct_dead _ _ _ Z0) in L. unfold D1 in L. rewrite Nat.eqb_refl in L.
      apply cnt_notin in Nev. rewrite Nev in L. destruct (Nat.eqb b e); lia. }
    rewrite (drop_extras_refs e (n_type n) (n_extras n) _ g2 G3).
    2:{ intros b. rewrite Cr2. lia. }
    2:{ intros x m Hx Hm. destruct (Lk x m Hm) as (p & Hp & Lp).
        assert (Tyx : ty g x = Some (n_type p, n_null p)) by (unfold ty; rewrite Hp; reflexivity).
        pose proof (sh_extras _ _ _ Sh x _ Hx Tyx) as X. injection X; intros _ X1.
        rewrite (le_type _ _ Lp), X1. discriminate. }
    destruct (drop_refs_ok e (n_extras n) _ g2 G3) as (g3 & H3 & G4 & R4 & Q4).
    { intros b. rewrite Cr2. lia. }
    rewrite H3.
    destruct (drop_refs_ok e (ptrs (n_des n)) _ g3 G4) as (g4 & H4 & G5 & R5 & Q5).
    { intros b. destruct (look g3 b) as [m|] eqn:Hb.
      - rewrite (cr_look _ _ _ _ Hb), (Q4 _ _ Hb), Cr2. lia.
      - assert (Hb2 : look g2 b = None).
        { destruct (look g2 b) as [q|] eqn:X; [|reflexivity]. destruct (ro_some _ _ R4 b q X) as (w & Hw & _).
          rewrite Hb in Hw. discriminate. }
        specialize (Cr2 b). rewrite (cr_dead _ _ _ Hb2) in Cr2. lia. }
    exists g4. split; [exact H4|].
    assert (W : dwindle (free g1 e) g4).
    { eapply dw_trans; [exact W3|]. eapply dw_trans; apply dw_ro; eassumption. }
    split.
    + eapply ginv_ext; [|exact G5]. intros a b. cbv beta. unfold D1, zero.
      destruct (Nat.eqb a e) eqn:Qa; [|lia]. apply Nat.eqb_eq in Qa. subst a.
      apply cnt_notin in Nev. rewrite Nev. destruct (Nat.eqb b e); lia.
    + apply (ro_counted _ _ R5), (ro_counted _ _ R4), C3.
    + apply (dw_none _ _ W). rewrite look_free. now rewrite Nat.eqb_refl.
    + split.
      * rewrite (dw_next _ _ W). cbn [free g_next]. apply (ro_next _ _ R1).
      * rewrite (dw_ents _ _ W). cbn [free g_ents]. apply (ro_ents _ _ R1).
      * intros i p q Hp Hq. destruct (look (free g1 e) i) as [m|] eqn:Hm; [|rewrite (dw_none _ _ W i Hm) in Hq; discriminate].
        pose proof (dw_some _ _ W i m q Hm Hq) as L1. rewrite look_free in Hm. destruct (Nat.eqb i e); [discriminate|].
        eapply lesser_trans; [|exact L1]. exact (dw_some _ _ (dw_ro _ _ R1) i p m Hp Hm).
      * intros i Hi. apply (dw_none _ _ W). rewrite look_free. destruct (Nat.eqb i e); [reflexivity|].
        now apply (ro_none _ _ R1).
    + intros i Hi [p Hp].
      assert (L0 : live (free g1 e) i).
      { destruct (ro_some _ _ R1 i p Hp) as (w & Hw & _). apply Nat.eqb_neq in Hi. eexists. rewrite look_free, Hi. exact Hw. }
      destruct (L3 i L0) as [q Hq]. destruct (ro_some _ _ R4 i q Hq) as (w1 & Hw1 & _).
      destruct (ro_some _ _ R5 i _ Hw1) as (w2 & Hw2 & _). eexists; eauto.
    + intros n' i Hn' Hi Ht Hr. rewrite E in Hn'. injection Hn' as <-.
      assert (Hp : ~ In i (own_parts n) /\ ~ In i (n_extras n) /\ ~ In i (ptrs (n_des n))).
      { rewrite !cnt_notin. apply cnt_notin in Ht. specialize (Own i). lia. }
      destruct Hp as (P1 & P2 & P3).
      rewrite (drop_refs_local _ _ _ _ _ H4) by auto. rewrite (drop_refs_local _ _ _ _ _ H3) by auto.
      rewrite Lo3.
      * rewrite look_free. apply Nat.eqb_neq in Hi as Hi'. rewrite Hi'. now apply (drop_refs_local _ _ _ _ _ H1).
      * intros r m Hrv Hm. rewrite look_free in Hm. destruct (Nat.eqb r e) eqn:Q; [discriminate|].
        destruct (ro_look _ _ _ _ R1 Hm) as (p & Hp & Em). rewrite Em, tgt_refs. apply (Hr r p); auto.
    + intros c p Hc Hp Nc.
      destruct (ro_some _ _ R1 c p Hp) as (w & Hw & _).
      assert (Hf : look (free g1 e) c = Some (w_refs w p)).
      { rewrite look_free. apply Nat.eqb_neq in Hc. now rewrite Hc. }
      destruct (Ot3 c (w_refs w p)) as (u & Hu); auto.
      { intros Q. destruct (link_pointed g e c n G E (Iv c Q)) as (p' & Hp' & Q'). rewrite Hp in Hp'. injection Hp' as <-. contradiction. }
      destruct (ro_some _ _ R4 c _ Hu) as (u1 & Hu1 & _).
      destruct (ro_some _ _ R5 c _ Hu1) as (u2 & Hu2 & _). exists u2. exact Hu2.
    + intros c p Hc Hp Ic Nc.
      destruct (ro_some _ _ R1 c p Hp) as (w & Hw & _).
      assert (Hf : look (free g1 e) c = Some (w_refs w p)).
      { rewrite look_free. apply Nat.eqb_neq in Hc. now rewrite Hc. }
      destruct (Cu3 c (w_refs w p)) as (u & Hu); auto.
      { (* c is one of the referrers *)
        destruct (link_listed g c e p G Hp Ic) as (n' & En & Ir). rewrite E in En. injection En as <-.
        pose proof (g_link _ _ G1 c e) as L. cbv beta in L. unfold zero in L.
        apply Nat.eqb_neq in Hc. rewrite Hc in L. rewrite (ct_look _ _ _ _ Hw), (cr_look _ _ _ _ E1), tgt_refs in L.
        cbn [n_refs w_refs] in L. apply cnt_in in Ic. apply cnt_in. lia. }
      rewrite cutoff_refs in Hu.
      destruct (ro_some _ _ R4 c _ Hu) as (u1 & Hu1 & _).
      destruct (ro_some _ _ R5 c _ Hu1) as (u2 & Hu2 & _). exists u2. exact Hu2.
Qed.
