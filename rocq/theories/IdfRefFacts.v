(** Facts about the counters of references (IdfRef.v, IdfRefSpec.v). *)

From Verif Require Import Base IdfRef IdfRefSpec.
From Coq Require Import Lia.
Local Open Scope nat_scope.

(** The number of placements with an outline, by counting. *)
Definition has (o : nat) (x : nat * option nat) : bool := match snd x with Some p => p =? o | None => false end.
Definition count (o : nat) (l : list (nat * option nat)) : nat := length (filter (has o) l).
Definition weight (o : nat) (x : option nat) : nat := match x with Some p => if p =? o then 1 else 0 | None => 0 end.

Definition tidy (s : refs) : Prop := NoDup (map fst (r_data s)) /\ forall d, In d (map fst (r_data s)) -> d < r_next s.

Lemma count_cons o d x l : count o ((d, x) :: l) = weight o x + count o l.
Proof. unfold count, weight, has. cbn. destruct x as [p|]; [destruct (p =? o); reflexivity|reflexivity]. Qed.

Lemma count_app o a b : count o (a ++ b) = count o a + count o b.
Proof. unfold count. rewrite filter_app, app_length. reflexivity. Qed.

Lemma found_in d l o : outline_of d l = Some o -> In (d, o) l.
Proof.
  induction l as [|[e p] l IH]; cbn; [discriminate|]. destruct (Nat.eqb_spec e d) as [->|N]; [intros H; injection H as ->; auto|auto].
Qed.

Lemma without_id d l : ~ In d (map fst l) -> without d l = l.
Proof.
  induction l as [|[e o] l IH]; cbn; [reflexivity|]. intros N. destruct (Nat.eqb_spec e d) as [->|_]; [tauto|]. cbn [negb]. f_equal. apply IH. tauto.
Qed.
Lemma changed_id d o l : ~ In d (map fst l) -> changed d o l = l.
Proof.
  induction l as [|[e p] l IH]; cbn; [reflexivity|]. intros N. destruct (Nat.eqb_spec e d) as [->|_]; [tauto|]. f_equal. apply IH. tauto.
Qed.

Lemma count_without d l x o : NoDup (map fst l) -> outline_of d l = Some x -> count o l = weight o x + count o (without d l).
Proof.
  induction l as [|[e p] l IH]; cbn [map fst]; intros ND F; [discriminate|]. inversion ND as [|? ? NI ND']; subst. cbn in F. cbn [without filter fst].
  destruct (Nat.eqb_spec e d) as [->|N]; cbn [negb].
  - injection F as ->. rewrite count_cons. fold (without d l). rewrite without_id by exact NI. reflexivity.
  - fold (without d l). rewrite !count_cons. rewrite (IH ND' F). lia.
Qed.

Lemma count_changed d l x y o : NoDup (map fst l) -> outline_of d l = Some x ->
  count o (changed d y l) + weight o x = count o l + weight o y.
Proof.
  induction l as [|[e p] l IH]; cbn [map fst]; intros ND F; [discriminate|]. inversion ND as [|? ? NI ND']; subst. cbn in F. cbn [changed map fst].
  destruct (Nat.eqb_spec e d) as [->|N].
  - injection F as ->. fold (changed d y l). rewrite changed_id by exact NI. rewrite !count_cons. lia.
  - fold (changed d y l). rewrite !count_cons. pose proof (IH ND' F). lia.
Qed.

Lemma incr_num o x s : r_num (incr x s) o = r_num s o + weight o x.
Proof.
  destruct x as [p|]; cbn; [|lia]. rewrite (Nat.eqb_sym p o). destruct (Nat.eqb_spec o p) as [->|_]; lia.
Qed.
Lemma decr_num o x s : r_num (decr x s) o = r_num s o - weight o x.
Proof.
  destruct x as [p|]; cbn; [|lia]. rewrite (Nat.eqb_sym p o). destruct (Nat.eqb_spec o p) as [->|_]; lia.
Qed.
Lemma incr_rest x s : r_data (incr x s) = r_data s /\ r_next (incr x s) = r_next s.
Proof. destruct x; auto. Qed.
Lemma decr_rest x s : r_data (decr x s) = r_data s /\ r_next (decr x s) = r_next s.
Proof. destruct x; auto. Qed.

Lemma changed_keys d o l : map fst (changed d o l) = map fst l.
Proof.
  unfold changed. rewrite map_map. apply map_ext_in. intros [e p] _. cbn. destruct (Nat.eqb_spec e d) as [->|_]; reflexivity.
Qed.

Lemma nodup_snoc (l : list nat) d : NoDup l -> ~ In d l -> NoDup (l ++ [d]).
Proof.
  induction l as [|e l IH]; cbn; intros N I; [constructor; [intros []|constructor]|]. inversion N as [|? ? NI N']; subst.
  constructor; [|apply IH; tauto]. intros J. apply in_app_or in J as [J|[J|[]]]; [tauto|]. apply I. left. congruence.
Qed.

Lemma push_tidy o s : tidy s -> tidy (push o s).
Proof.
  intros (N & B). split.
  - cbn. rewrite map_app. cbn. apply nodup_snoc; [exact N|]. intros I. apply B in I. lia.
  - cbn. intros d I. rewrite map_app in I. apply in_app_or in I as [I|[<-|[]]]; [apply B in I; lia|cbn; lia].
Qed.
Lemma without_tidy d s : tidy s -> tidy (with_data (without d (r_data s)) s).
Proof.
  intros (N & B). assert (I : forall l (e : nat), In e (map fst (without d l)) -> In e (map fst l)).
  { intros l e H. apply in_map_iff in H as (x & <- & H). apply filter_In in H as (H & _). exact (in_map fst _ _ H). }
  split; cbn; [|intros e H; apply B, I, H]. clear B. induction (r_data s) as [|[e p] l IH]; cbn; [constructor|]. inversion N as [|? ? NI N']; subst.
  destruct (e =? d); cbn [negb]; [apply IH, N'|]. cbn. constructor; [|apply IH, N']. intros H. apply NI, I, H.
Qed.
Lemma changed_tidy d o s : tidy s -> tidy (with_data (changed d o (r_data s)) s).
Proof. intros (N & B). split; cbn; rewrite changed_keys; assumption. Qed.

Lemma same_tidy s s' : r_data s' = r_data s -> r_next s' = r_next s -> tidy s -> tidy s'.
Proof. intros D N (A & B). split; rewrite D; [exact A|]. intros d I. rewrite N. exact (B d I). Qed.

Lemma step_tidy c s s' : ref_step c s = Some s' -> tidy s -> tidy s'.
Proof.
  intros H T. destruct c as [o|o|d|ow d o|d|ow o]; cbn in H.
  - injection H as <-. apply (same_tidy (push o s)); [apply incr_rest|apply incr_rest|apply push_tidy, T].
  - injection H as <-. apply push_tidy, T.
  - destruct (outline_of d (r_data s)); [|discriminate]. injection H as <-. apply push_tidy, T.
  - destruct (outline_of d (r_data s)) as [old|]; [|discriminate]. destruct ow; injection H as <-; [|exact T].
    apply (same_tidy (with_data (changed d o (r_data s)) s)); [| |apply changed_tidy, T].
    + rewrite (proj1 (incr_rest _ _)). apply decr_rest.
    + rewrite (proj2 (incr_rest _ _)). apply decr_rest.
  - destruct (outline_of d (r_data s)) as [o|]; [|discriminate]. injection H as <-. apply (same_tidy (with_data (without d (r_data s)) s)); [apply decr_rest|apply decr_rest|apply without_tidy, T].
  - destruct ow; injection H as <-; [|exact T]. exact (same_tidy s (set_num o 0 s) eq_refl eq_refl T).
Qed.

(** The counter is never more than the number of placements, and the same number if
    only calls which count were made. *)
Lemma step_num c s s' : ref_step c s = Some s' -> tidy s ->
  ((forall o, r_num s o <= count o (r_data s)) -> forall o, r_num s' o <= count o (r_data s')) /\
  (counts c -> (forall o, r_num s o = count o (r_data s)) -> forall o, r_num s' o = count o (r_data s')).
Proof.
  intros H (ND & B). destruct c as [x|x|d|ow d x|d|ow x]; cbn in H.
  - injection H as <-. split; [intros L o; specialize (L o)|intros _ L o; specialize (L o)]; rewrite incr_num, (proj1 (incr_rest _ _)); cbn [push r_num r_data];
      rewrite count_app, count_cons; cbn [count filter length]; unfold count in *; cbn [filter length]; lia.
  - injection H as <-. split; [intros L o; specialize (L o)|intros []]. cbn [push r_num r_data]. rewrite count_app. lia.
  - destruct (outline_of d (r_data s)) as [x|]; [|discriminate]. injection H as <-. split; [intros L o; specialize (L o)|intros []]. cbn [push r_num r_data]. rewrite count_app. lia.
  - destruct (outline_of d (r_data s)) as [old|] eqn:F; [|discriminate]. destruct ow; injection H as <-; [|auto].
    split; [intros L o; specialize (L o)|intros _ L o; specialize (L o)]; rewrite incr_num, decr_num, (proj1 (incr_rest _ _)), (proj1 (decr_rest _ _)); cbn [with_data r_num r_data];
      pose proof (count_changed d (r_data s) old x o ND F); pose proof (count_without d (r_data s) old o ND F); lia.
  - destruct (outline_of d (r_data s)) as [x|] eqn:F; [|discriminate]. injection H as <-.
    split; [intros L o; specialize (L o)|intros _ L o; specialize (L o)]; rewrite decr_num, (proj1 (decr_rest _ _)); cbn [with_data r_num r_data];
      pose proof (count_without d (r_data s) x o ND F); lia.
  - destruct ow; injection H as <-; [|auto]. split; [intros L o; specialize (L o)|intros []]. cbn [set_num r_num r_data]. destruct (o =? x); lia.
Qed.

Lemma run_num cs : forall s s', ref_run cs s = Some s' -> tidy s ->
  tidy s' /\ ((forall o, r_num s o <= count o (r_data s)) -> forall o, r_num s' o <= count o (r_data s')) /\
  (Forall counts cs -> (forall o, r_num s o = count o (r_data s)) -> forall o, r_num s' o = count o (r_data s')).
Proof.
  induction cs as [|c cs IH]; cbn; intros s s' R T.
  - injection R as <-. auto.
  - destruct (ref_step c s) as [s1|] eqn:E; [|discriminate]. pose proof (step_tidy _ _ _ E T) as T1. pose proof (step_num _ _ _ E T) as (A & B).
    destruct (IH s1 s' R T1) as (T' & A' & B'). split; [exact T'|]. split; [auto|]. intros F. inversion F; subst. auto.
Qed.

Lemma none_tidy : tidy no_refs.
Proof. split; [constructor|intros d []]. Qed.

Lemma users_count s o n : tidy s -> (users s o n <-> count o (r_data s) = n).
Proof.
  intros (ND & _).
  assert (K : exists ds, NoDup ds /\ (forall d, In d ds <-> In (d, Some o) (r_data s)) /\ length ds = count o (r_data s)).
  { exists (map fst (filter (has o) (r_data s))). split; [|split].
    - revert ND. generalize (r_data s). induction l as [|[e p] l IH]; cbn [filter map fst]; intros N; [constructor|]. inversion N as [|? ? NI N']; subst.
      destruct (has o (e, p)); [|apply IH, N']. cbn. constructor; [|apply IH, N']. intros I. apply NI. apply in_map_iff in I as (x & <- & I). apply filter_In in I as (I & _). exact (in_map fst _ _ I).
    - intros d. split.
      + intros I. apply in_map_iff in I as ([e p] & <- & I). apply filter_In in I as (I & H). unfold has in H. cbn in *. destruct p as [p|]; [|discriminate]. apply Nat.eqb_eq in H. subst. exact I.
      + intros I. apply in_map_iff. exists (d, Some o). split; [reflexivity|]. apply filter_In. split; [exact I|]. cbn. apply Nat.eqb_refl.
    - rewrite map_length. reflexivity. }
  destruct K as (ds & N & I & L). split.
  - intros (es & N' & I' & <-). rewrite <- L. apply Nat.le_antisymm; apply NoDup_incl_length; auto; intros d H; [apply I', I, H|apply I, I', H].
  - intros <-. exists ds. auto.
Qed.

Lemma use_count s o : in_use s o <-> count o (r_data s) <> 0.
Proof.
  unfold in_use, count. split.
  - intros (d & I) E. apply length_zero_iff_nil in E. assert (J : In (d, Some o) (filter (has o) (r_data s))) by (apply filter_In; split; [exact I|cbn; apply Nat.eqb_refl]). rewrite E in J. destruct J.
  - destruct (filter (has o) (r_data s)) as [|[d p] l] eqn:E; [cbn; congruence|]. intros _. assert (J : In (d, p) (filter (has o) (r_data s))) by (rewrite E; left; reflexivity).
    apply filter_In in J as (J & H). unfold has in H. cbn in H. destruct p as [p|]; [|discriminate]. apply Nat.eqb_eq in H. subst. eauto.
Qed.

(** ** What programs find *)

Lemma counted cs s : ref_run cs no_refs = Some s -> Forall counts cs -> forall o, users s o (r_num s o).
Proof.
  intros R F o. destruct (run_num cs _ _ R none_tidy) as (T & _ & E). apply users_count; [exact T|]. symmetry. apply E; [exact F|reflexivity].
Qed.

Lemma at_most cs s : ref_run cs no_refs = Some s -> forall o n, users s o n -> r_num s o <= n.
Proof.
  intros R o n U. destruct (run_num cs _ _ R none_tidy) as (T & E & _). apply users_count in U; [|exact T]. rewrite <- U. apply E. intros p. cbn. lia.
Qed.

Lemma counted_use cs s : ref_run cs no_refs = Some s -> Forall counts cs -> forall o, in_use s o <-> r_num s o <> 0.
Proof.
  intros R F o. destruct (run_num cs _ _ R none_tidy) as (T & _ & E). rewrite use_count, (E F) by reflexivity. reflexivity.
Qed.

Lemma unused cs s o : ref_run cs no_refs = Some s -> ~ in_use s o -> r_num s o = 0.
Proof.
  intros R N. destruct (run_num cs _ _ R none_tidy) as (T & E & _). rewrite use_count in N. specialize (E ltac:(intros p; cbn; lia) o). lia.
Qed.

Lemma last_found l d o : ~ In d (map fst l) -> outline_of d (l ++ [(d, o)]) = Some o.
Proof.
  induction l as [|[e p] l IH]; cbn; [rewrite Nat.eqb_refl; reflexivity|]. intros N. destruct (Nat.eqb_spec e d) as [->|_]; [tauto|apply IH; tauto].
Qed.

(** A placement made with offsets, or a copy, takes a reference away when it goes. *)
Lemma stolen cs s o : ref_run cs no_refs = Some s ->
  exists s1 s2, ref_run [MakeAt (Some o)] s = Some s1 /\ r_num s1 o = r_num s o /\ in_use s1 o /\
    ref_run [MakeAt (Some o); Drop (r_next s)] s = Some s2 /\ r_num s2 o = pred (r_num s o) /\ r_data s2 = r_data s /\
    forall d, In (d, Some o) (r_data s) -> ref_run [Copy d; Drop (r_next s)] s = Some s2.
Proof.
  intros R. destruct (run_num cs _ _ R none_tidy) as ((ND & B) & _).
  assert (NI : ~ In (r_next s) (map fst (r_data s))) by (intros I; apply B in I; lia).
  assert (F : outline_of (r_next s) (r_data (push (Some o) s)) = Some (Some o)) by (apply last_found, NI).
  assert (W : without (r_next s) (r_data (push (Some o) s)) = r_data s).
  { cbn [push r_data]. unfold without. rewrite filter_app. fold (without (r_next s) (r_data s)). rewrite without_id by exact NI. cbn. rewrite Nat.eqb_refl. cbn. apply app_nil_r. }
  exists (push (Some o) s), (decr (Some o) (with_data (without (r_next s) (r_data (push (Some o) s))) (push (Some o) s))).
  split; [reflexivity|]. split; [reflexivity|]. split; [exists (r_next s); cbn; apply in_or_app; right; left; reflexivity|].
  split; [cbn [ref_run ref_step]; rewrite F; reflexivity|]. split; [cbn; rewrite Nat.eqb_refl; reflexivity|]. split; [exact W|].
  intros d I. cbn [ref_run ref_step].
  assert (FD : outline_of d (r_data s) = Some (Some o)).
  { clear - ND I. induction (r_data s) as [|[e p] l IH]; [destruct I|]. cbn in ND. inversion ND as [|? ? NI ND']; subst. cbn. destruct I as [I|I].
    - injection I as -> ->. rewrite Nat.eqb_refl. reflexivity.
    - destruct (Nat.eqb_spec e d) as [->|_]; [exfalso; apply NI; exact (in_map fst _ _ I)|auto]. }
  rewrite FD, F. reflexivity.
Qed.

(** [Clear] forgets the placements. *)
Lemma wiped s o : exists s', ref_run [Wipe true o] s = Some s' /\ r_num s' o = 0 /\ r_data s' = r_data s.
Proof. eexists. split; [reflexivity|]. cbn. rewrite Nat.eqb_refl. auto. Qed.
