(** Adding cutouts and holes; what the calls through handles do. *)

From Coq Require Import List Bool Arith Lia Permutation.
From Verif Require Import GhModel GhSpec GhTree GhInv GhOps.
Import ListNotations.

Definition forest_of (t : gt) (o : option nat) (ta : gt) (oa : option nat) (F : forest) : forest := (t, o) :: (ta, oa) :: F.

(** What merging one thing may do, at the root or in a cutout. *)
Definition merger (w : bool) (a : nat) (mg : nat -> eff -> st -> option (st * bool)) : Prop :=
  forall s C p b ss cs hh o ta oa F e, root ta = a -> is_node ta = w ->
    Inv s ((plug C (N p b ss cs hh), o) :: (ta, oa) :: F) ->
    exists s' ss',
      (mg p e s = Some (s', true) /\ Inv s' ((plug C (N p b ss' cs hh), o) :: F) /\ obj s' a = None /\
        (forall g, hs s' g = clr (own oa) (hs s) g)) \/
      (mg p e s = Some (s', false) /\ hs s' = hs s /\
        exists ta', same_top ta ta' /\ Inv s' ((plug C (N p b ss' cs hh), o) :: (ta', oa) :: F)).

Lemma merger_outline a : merger true a (fun p e => core_merge p a e).
Proof.
  intros s C p b ss cs hh o ta oa F e Ra W I. destruct ta as [|a' ba sa ca ha]; [discriminate|]. cbn in Ra. subst a'.
  destruct e as [m k|keep n].
  - destruct (no_merge_outline _ _ _ _ _ _ _ _ _ _ _ _ _ _ _ m k I) as (s' & ss' & sa' & E & I' & H).
    exists s', ss'. right. split; [assumption|]. split; [assumption|]. exists (N a ba sa' ca ha). split; [now split|assumption].
  - destruct (merge_outline _ _ _ _ _ _ _ _ _ _ _ _ _ _ _ keep n I) as (s' & ss' & E & I' & O & H).
    exists s', ss'. left. auto.
Qed.

Lemma merger_circle a : merger false a (fun p e => core_mergec p a e).
Proof.
  intros s C p b ss cs hh o ta oa F e Ra W I. destruct ta as [a'|]; [|discriminate]. cbn in Ra. subst a'.
  destruct e as [m k|keep n].
  - destruct (no_merge_circle _ _ _ _ _ _ _ _ _ _ _ m k I) as (s' & ss' & E & I' & H).
    exists s', ss'. right. split; [assumption|]. split; [assumption|]. exists (L a). split; [apply same_top_refl|assumption].
  - destruct (merge_circle _ _ _ _ _ _ _ _ _ _ _ keep n I) as (s' & ss' & E & I' & O & H).
    exists s', ss'. left. auto.
Qed.

(** The walk over the cutouts. *)
Lemma walk w a mg : merger w a mg -> forall rest s c1 p b ss hh o ta oa F es, root ta = a -> is_node ta = w ->
  Inv s ((N p b ss (c1 ++ rest) hh, o) :: (ta, oa) :: F) ->
  exists s' t', same_top (N p b ss (c1 ++ rest) hh) t' /\
    ((core_cuts mg (map root rest) es s = Some (s', Some true) /\ Inv s' ((t', o) :: F) /\ obj s' a = None /\
       (forall g, hs s' g = clr (own oa) (hs s) g)) \/
     exists ta' b2, same_top ta ta' /\ Inv s' ((t', o) :: (ta', oa) :: F) /\ hs s' = hs s /\
       core_cuts mg (map root rest) es s = Some (s', b2) /\ (b2 = Some false \/ b2 = None)).
Proof.
  intros M. induction rest as [|c r IH]; intros s c1 p b ss hh o ta oa F es Ra W I; cbn [map core_cuts].
  - exists s, (N p b ss (c1 ++ []) hh). split; [apply same_top_refl|]. right. exists ta, None.
    split; [apply same_top_refl|]. auto.
  - destruct (match es with [] => (NotMerged 0 0, false) | x :: _ => x end) as [e err] eqn:Ee.
    assert (Nc : is_node c = true).
    { pose proof (i_repr _ _ I _ _ (or_introl eq_refl)) as R. inversion R as [|? ? ? ? ? ? _ _ _ Hn _]; subst.
      apply Hn. apply in_elt. }
    destruct c as [|q bq sq cq hq]; [discriminate|]. clear Nc. cbn [root].
    change (N p b ss (c1 ++ N q bq sq cq hq :: r) hh) with (plug (Below p b ss c1 r hh) (N q bq sq cq hq)) in I.
    destruct (M s _ q bq sq cq hq o ta oa F e Ra W I) as (s1 & sq' & [(E & I1 & O1 & H1)|(E & H1 & ta1 & T1 & I1)]).
    + rewrite E. cbn [bind]. exists s1, (plug (Below p b ss c1 r hh) (N q bq sq' cq hq)). split; [now split|]. left. auto.
    + rewrite E. cbn [bind]. destruct err.
      * exists s1, (plug (Below p b ss c1 r hh) (N q bq sq' cq hq)). split; [now split|]. right. exists ta1, (Some false). auto 6.
      * cbn [plug] in I1. replace (c1 ++ N q bq sq' cq hq :: r) with ((c1 ++ [N q bq sq' cq hq]) ++ r) in I1
          by (now rewrite <- app_assoc).
        assert (Ra1 : root ta1 = a) by (rewrite <- (proj1 T1); assumption).
        assert (W1 : is_node ta1 = w) by (rewrite (same_top_node _ _ T1); assumption).
        destruct (IH s1 _ _ _ _ _ _ ta1 oa F (tl es) Ra1 W1 I1) as (s2 & t2 & T2 & H2).
        exists s2, t2. split; [destruct T2 as [T2 T2']; split; [exact T2|destruct t2; assumption]|].
        destruct H2 as [(E2 & I2 & O2 & H2)|(ta2 & b2 & T2' & I2 & H2 & E2 & B2)].
        -- left. split; [assumption|]. split; [assumption|]. split; [assumption|]. intros g. rewrite H2. unfold clr. now rewrite H1.
        -- right. exists ta2, b2. split; [eapply same_top_trans; eassumption|]. split; [assumption|]. split; [congruence|]. auto.
Qed.

(** ** Storing *)

Inductive slot := SSeg | SCut | SHole.
Definition put_geo (k : slot) (q : nat) (g : geo) : geo :=
  match k with SSeg => add_seg q g | SCut => add_cut q g | SHole => add_hole q g end.
Definition put_tree (k : slot) (p : nat) (b : bool) (ss : list nat) (cs : list gt) (hh : list nat) (ta : gt) : gt :=
  match k with
  | SSeg => N p b (ss ++ [root ta]) cs hh
  | SCut => N p b ss (cs ++ [ta]) hh
  | SHole => N p b ss cs (hh ++ [root ta])
  end.
Definition slot_ok (k : slot) (ta : gt) : Prop := is_node ta = match k with SCut => true | _ => false end.

Lemma put_tree_ids k p b ss cs hh ta : slot_ok k ta -> Permutation (ids (put_tree k p b ss cs hh ta)) (ids (N p b ss cs hh) ++ ids ta).
Proof.
  intros K. destruct k; cbn [put_tree ids app]; apply perm_skip.
  - destruct ta; [|discriminate]. cbn [ids root]. rewrite <- !app_assoc. apply Permutation_app_head.
    cbn [app]. rewrite app_assoc. apply Permutation_cons_append.
  - rewrite flat_map_app. cbn [flat_map]. rewrite app_nil_r. rewrite <- !app_assoc. apply Permutation_app_head, Permutation_app_head.
    apply Permutation_app_comm.
  - destruct ta; [|discriminate]. cbn [ids root]. rewrite <- !app_assoc. reflexivity.
Qed.

Lemma put_tree_repr ob ob' k p b ss cs hh ta fl g : repr ob (N p b ss cs hh) fl -> repr ob ta [] -> slot_ok k ta ->
  ~ In p (ids ta) -> NoDup (ids (N p b ss cs hh)) -> ob p = Some g -> ob' p = Some (put_geo k (root ta) g) ->
  (forall q, q <> p -> In q (ids (N p b ss cs hh)) \/ In q (ids ta) -> ob' q = ob q) ->
  repr ob' (put_tree k p b ss cs hh ta) fl.
Proof.
  intros R Ra K NI D Eg Ep A. inversion R as [|? ? ? ? ? ? E Hs Hh Hn Hc]; subst. rewrite E in Eg. injection Eg as <-.
  cbn [ids] in D. apply NoDup_cons_iff in D as [D _].
  assert (A1 : forall q, In q (ss ++ flat_map ids cs ++ hh) -> ob' q = ob q).
  { intros q J. apply A; [intros ->; contradiction|]. left. now right. }
  assert (Ra' : repr ob' ta []).
  { apply (frame ob); [assumption|]. intros q J. apply A; [intros ->; contradiction|auto]. }
  assert (X1 : forall q, In q ss -> ob' q = Some (Seg [])) by (intros q J; rewrite A1; [auto|apply in_or_app; now left]).
  assert (X2 : forall q, In q hh -> ob' q = Some (Seg [])) by (intros q J; rewrite A1; [auto|rewrite !in_app_iff; auto]).
  assert (X3 : forall c, In c cs -> repr ob' c []).
  { intros c J. apply (frame ob); [auto|]. intros q Q. apply A1. rewrite !in_app_iff. right; left. eapply in_flat_ids; eassumption. }
  destruct k; cbn [put_tree put_geo add_seg add_cut add_hole] in *.
  - constructor; try assumption. intros q J. apply in_app_or in J as [J|[<-|[]]]; [auto|].
    destruct ta; [|discriminate]. now inversion Ra'.
  - constructor; try assumption.
    + rewrite map_app. assumption.
    + intros c J. apply in_app_or in J as [J|[<-|[]]]; [auto|assumption].
    + intros c J. apply in_app_or in J as [J|[<-|[]]]; [auto|assumption].
  - constructor; try assumption. intros q J. apply in_app_or in J as [J|[<-|[]]]; [auto|].
    destruct ta; [|discriminate]. now inversion Ra'.
Qed.

(** An object nobody owns any more is stored. *)
Lemma store_loose s s' k p b ss cs hh o ta F g : Inv s ((N p b ss cs hh, o) :: (ta, None) :: F) -> slot_ok k ta ->
  obj s p = Some g -> obj s' p = Some (put_geo k (root ta) g) -> (forall q, q <> p -> obj s' q = obj s q) ->
  (forall h, hs s' h = hs s h) -> nxt s' = nxt s -> nxh s' = nxh s ->
  Inv s' ((put_tree k p b ss cs hh ta, o) :: F).
Proof.
  intros I K Eg Ep A H Nx Nh. pose proof (i_dup _ _ I) as D. rewrite !fids_cons in D.
  assert (Dn := NoDup_app_l _ _ D). assert (Da := NoDup_app_r _ _ D). assert (Dt := NoDup_app_l _ _ Da).
  assert (P := put_tree_ids k p b ss cs hh ta K).
  assert (InP : forall q, In q (ids (put_tree k p b ss cs hh ta)) <-> In q (ids (N p b ss cs hh)) \/ In q (ids ta)).
  { intros q. rewrite <- in_app_iff. split; [now apply Permutation_in|now apply Permutation_in, Permutation_sym]. }
  assert (X : forall q, In q (ids ta) -> ~ In q (ids (N p b ss cs hh))).
  { intros q J J'. apply (NoDup_app_out _ _ q D J'). apply in_or_app; now left. }
  assert (NF : forall q, In q (fids F) -> q <> p).
  { intros q J ->. apply (NoDup_app_out _ _ p D); [now left|]. apply in_or_app; now right. }
  apply (change s s' Here (N p b ss cs hh) (put_tree k p b ss cs hh ta) o [(ta, None)] F); cbn [plug cids inn]; try assumption.
  - destruct k; now split.
  - apply (Permutation_NoDup (Permutation_sym P)). apply NoDup_app_mk; [assumption|assumption|].
    intros q J J'. now apply (X q).
  - intros q J. apply InP in J as [J|J]; [auto|]. right; left. rewrite fids_cons, app_nil_r. assumption.
  - apply (put_tree_repr (obj s) _ k p b ss cs hh ta (own o) g); try assumption.
    + apply (i_repr _ _ I). now left.
    + apply (i_repr _ _ I ta None). right. now left.
    + intros J. apply (X p J). now left.
    + intros q NE _. auto.
  - intros q [[]|J]. apply A. auto.
  - intros q Lq. rewrite InP. destruct (Nat.eq_dec q p) as [->|NE]; [right; left; left; now left|].
    rewrite A in Lq by assumption. pose proof (i_live _ _ I q Lq) as J. rewrite !fids_cons, !in_app_iff in J. tauto.
  - lia.
Qed.

(** ** What a call does to its two objects *)

Inductive outcome (s : st) (t : gt) (o : option nat) (ta : gt) (oa : option nat) (F : forest) (s' : st) : bool -> Prop :=
| out_no t' ta' : same_top t t' -> same_top ta ta' -> Inv s' ((t', o) :: (ta', oa) :: F) -> hs s' = hs s ->
    outcome s t o ta oa F s' false
| out_merged t' : same_top t t' -> Inv s' ((t', o) :: F) -> obj s' (root ta) = None ->
    (forall g, hs s' g = clr (own oa) (hs s) g) -> outcome s t o ta oa F s' true
| out_stored k s1 p b ss cs hh ta1 g : same_top t (N p b ss cs hh) -> same_top ta ta1 ->
    Inv s1 ((N p b ss cs hh, o) :: (ta1, oa) :: F) -> hs s1 = hs s -> slot_ok k ta -> obj s1 p = Some g ->
    s' = set_obj p (Some (put_geo k (root ta) g)) s1 -> outcome s t o ta oa F s' true.

Lemma slot_same k ta ta' : same_top ta ta' -> slot_ok k ta -> slot_ok k ta'.
Proof. intros T. unfold slot_ok. now rewrite (same_top_node _ _ T). Qed.

Definition core_ok (w : bool) (f : nat -> nat -> st -> option (st * bool)) : Prop :=
  forall s t o ta oa F, Inv s ((t, o) :: (ta, oa) :: F) -> is_node t = true -> is_node ta = w ->
    exists s' b, f (root t) (root ta) s = Some (s', b) /\ outcome s t o ta oa F s' b.

Lemma root_obj s t o F : Inv s F -> In (t, o) F -> exists g, obj s (root t) = Some g /\ is_out g = is_node t /\
  match t with N _ b ss cs hh => g = Out b (own o) ss (map root cs) hh | L _ => g = Seg (own o) end.
Proof.
  intros I J. pose proof (i_repr _ _ I _ _ J) as R. inversion R as [? ? E|? ? ? ? ? ? E]; subst; cbn [root is_node].
  - exists (Seg (own o)). auto.
  - exists (Out b (own o) ss (map root cs) hh). auto.
Qed.

Lemma core_seg_ok yes : core_ok false (fun o p => core_seg o p yes).
Proof.
  intros s t o ta oa F I Nt Na. unfold core_seg.
  destruct (root_obj s ta oa _ I) as (ga & Ea & Oa & _); [right; now left|].
  destruct (root_obj s t o _ I) as (g & Eg & Og & _); [now left|].
  rewrite Ea, Eg. cbn [bind]. unfold is_seg. rewrite Oa, Na. cbn [negb]. destruct yes.
  - unfold modify. rewrite Eg. cbn [bind]. eexists _, true. split; [reflexivity|].
    destruct t as [|p b ss cs hh]; [discriminate|]. cbn [root] in *.
    apply (out_stored s (N p b ss cs hh) o ta oa F _ SSeg s p b ss cs hh ta g); try assumption; try apply same_top_refl; reflexivity.
  - exists s, false. split; [reflexivity|]. apply (out_no s t o ta oa F s t ta); auto using same_top_refl.
Qed.

Lemma core_merge_ok e : core_ok true (fun o p => core_merge o p e).
Proof.
  intros s t o ta oa F I Nt Na. destruct t as [|p b ss cs hh]; [discriminate|].
  destruct (merger_outline (root ta) s Here p b ss cs hh o ta oa F e eq_refl Na I) as (s' & ss' & [(E & I' & O & H)|(E & H & ta' & T & I')]).
  - exists s', true. split; [exact E|]. apply (out_merged _ _ _ _ _ _ _ (N p b ss' cs hh)); try assumption. now split.
  - exists s', false. split; [exact E|]. apply (out_no _ _ _ _ _ _ _ (N p b ss' cs hh) ta'); try assumption. now split.
Qed.

Lemma core_mergec_ok e : core_ok false (fun o p => core_mergec o p e).
Proof.
  intros s t o ta oa F I Nt Na. destruct t as [|p b ss cs hh]; [discriminate|].
  destruct (merger_circle (root ta) s Here p b ss cs hh o ta oa F e eq_refl Na I) as (s' & ss' & [(E & I' & O & H)|(E & H & ta' & T & I')]).
  - exists s', true. split; [exact E|]. apply (out_merged _ _ _ _ _ _ _ (N p b ss' cs hh)); try assumption. now split.
  - exists s', false. split; [exact E|]. apply (out_no _ _ _ _ _ _ _ (N p b ss' cs hh) ta'); try assumption. now split.
Qed.

Lemma core_cutout_ok w k (mg : nat -> nat -> eff -> st -> option (st * bool)) r :
  (forall a, merger w a (fun o' => mg o' a)) -> (forall ta, is_node ta = w -> slot_ok k ta) ->
  core_ok w (fun o a => core_cutout (fun o' => mg o' a) o a (put_geo k a) r).
Proof.
  intros M K s t o ta oa F I Nt Na. unfold core_cutout.
  destruct (root_obj s ta oa _ I) as (ga & Ea & Oa & _); [right; now left|].
  destruct (root_obj s t o _ I) as (g & Eg & Og & Gg); [now left|].
  rewrite Ea, Eg. cbn [bind]. destruct t as [|p b ss cs hh]; [discriminate|]. cbn [root] in *.
  destruct (c_refused r); [exists s, false; split; [reflexivity|]; apply (out_no s _ o ta oa F s (N p b ss cs hh) ta); auto using same_top_refl|].
  destruct (c_overlaps r); cbn [negb].
  2:{ unfold modify. rewrite Eg. cbn [bind]. eexists _, true. split; [reflexivity|].
      apply (out_stored s _ o ta oa F _ k s p b ss cs hh ta g); auto using same_top_refl. }
  destruct (M (root ta) s Here p b ss cs hh o ta oa F (fst (c_self r)) eq_refl Na I)
    as (s1 & ss1 & [(E1 & I1 & O1 & H1)|(E1 & H1 & ta1 & T1 & I1)]); rewrite E1; cbn [bind].
  { exists s1, true. split; [reflexivity|]. apply (out_merged _ _ _ _ _ _ _ (N p b ss1 cs hh)); try assumption. now split. }
  cbn [plug] in I1. destruct (snd (c_self r)).
  { exists s1, false. split; [reflexivity|]. apply (out_no _ _ _ _ _ _ _ (N p b ss1 cs hh) ta1); try assumption. now split. }
  rewrite Gg. cbn [cuts_of].
  destruct (walk w (root ta) _ (M (root ta)) cs s1 [] p b ss1 hh o ta1 oa F (c_cuts r)) as (s2 & t2 & T2 & H2).
  { symmetry. apply (proj1 T1). }
  { rewrite (same_top_node _ _ T1). assumption. }
  { exact I1. }
  assert (T2' : same_top (N p b ss cs hh) t2) by (destruct T2 as [X Y]; split; [exact X|destruct t2; assumption]).
  destruct H2 as [(E2 & I2 & O2 & H2)|(ta2 & b2 & T3 & I2 & H2 & E2 & B2)]; rewrite E2; cbn [bind].
  - exists s2, true. split; [reflexivity|]. apply (out_merged _ _ _ _ _ _ _ t2); try assumption.
    intros x. rewrite H2. unfold clr. now rewrite H1.
  - assert (T4 : same_top ta ta2) by (eapply same_top_trans; eassumption).
    destruct B2 as [->| ->].
    + exists s2, false. split; [reflexivity|]. apply (out_no _ _ _ _ _ _ _ t2 ta2); try assumption. congruence.
    + destruct (root_obj s2 t2 o _ I2) as (g2 & Eg2 & _); [now left|].
      destruct t2 as [|p2 b2 ss2 cs2 hh2]; [destruct T2' as [_ []]|]. cbn [root] in Eg2.
      assert (p2 = p) by (symmetry; exact (proj1 T2')). subst p2. unfold modify. rewrite Eg2. cbn [bind].
      eexists _, true. split; [reflexivity|].
      apply (out_stored s _ o ta oa F _ k s2 p b2 ss2 cs2 hh2 ta2 g2); auto. congruence.
Qed.

Lemma core_cut_ok r : core_ok true (fun o a => core_cut o a r).
Proof.
  intros s t o ta oa F I Nt Na. unfold core_cut.
  destruct (root_obj s ta oa _ I) as (ga & Ea & Oa & _); [right; now left|]. rewrite Ea. cbn [bind]. rewrite Oa, Na.
  apply (core_cutout_ok true SCut core_merge r merger_outline); auto.
Qed.

Lemma core_drill_ok r : core_ok false (fun o a => core_drill o a r).
Proof.
  intros s t o ta oa F I Nt Na. unfold core_drill.
  destruct (root_obj s ta oa _ I) as (ga & Ea & Oa & _); [right; now left|]. rewrite Ea. cbn [bind]. unfold is_seg. rewrite Oa, Na.
  apply (core_cutout_ok false SHole core_mergec r merger_circle); auto.
Qed.
