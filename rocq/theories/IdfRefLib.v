(** The library which is written with counters of references (IdfRefFacts.v, IdfLibAgain.v),
    and cases. *)

From Verif Require Import Base Num IoModel IdfText IdfOutl IdfFile IdfLib Spec IdfSpec IdfOutlSpec IdfFileSpec IdfLibSpec
  IdfFileSect IdfLibFacts IdfLibFile IdfLibAgain IdfLibCase.
From Verif Require Import IdfPlace IdfPlaceSpec IdfRef IdfRefSpec IdfRefFacts.
From Coq Require Import Lia.
Open Scope Z_scope.

Lemma use_num cs s o : ref_run cs no_refs = Some s -> r_num s o <> 0%nat -> in_use s o.
Proof.
  intros R N. destruct (run_num cs _ _ R none_tidy) as (_ & E & _). apply use_count. specialize (E ltac:(intros p; cbn; lia) o). lia.
Qed.

Lemma forall2_left {A B} (P : A -> B -> Prop) a b x : Forall2 P a b -> In x a -> exists y, In y b /\ P x y.
Proof. induction 1 as [|u v a b H _ IH]; intros I; [destruct I|]. destruct I as [->|I]; [exists v; cbn; auto|]. destruct (IH I) as (y & J & K). exists y. cbn. auto. Qed.
Lemma forall2_right {A B} (P : A -> B -> Prop) a b y : Forall2 P a b -> In y b -> exists x, In x a /\ P x y.
Proof. induction 1 as [|u v a b H _ IH]; intros I; [destruct I|]. destruct I as [->|I]; [exists u; cbn; auto|]. destruct (IH I) as (x & J & K). exists x. cbn. auto. Qed.

Lemma library_uses ccw source date n cs s (lib : list (str * (nat * cout))) :
  ref_run cs no_refs = Some s -> ~ In quote source -> ~ In nl source -> date_ok date -> 0 <= n + 1 <= 2147483647 ->
  Forall (fun x => fst x = uid (snd (snd x)) /\ (in_use s (fst (snd x)) -> comp_fits (snd (snd x)))) lib -> in_order (map fst lib) ->
  exists text l', write_lib ccw source date n (numbered s lib) = Some text /\
    read_lib ccw (mkStream text false) = Some (mkHead V3 (source_text source) date (n + 1), l') /\
    (forall k c', In (k, c') l' -> exists o c, In (k, (o, c)) lib /\ in_use s o /\ comp_back ccw c c') /\
    (Forall counts cs -> forall k o c, In (k, (o, c)) lib -> in_use s o -> exists c', In (k, c') l' /\ comp_back ccw c c').
Proof.
  intros R Q N D B F O.
  assert (F' : Forall (fun x => fst x = uid (snd (snd x)) /\ (fst (snd x) <> 0 -> comp_fits (snd (snd x)))) (numbered s lib)).
  { apply Forall_forall. intros x I. apply in_map_iff in I as (y & <- & I). rewrite Forall_forall in F. destruct (F y I) as (E & K). cbn. split; [exact E|].
    intros Z0. apply K. apply (use_num cs); [exact R|]. lia. }
  assert (O' : in_order (map fst (numbered s lib))). { unfold numbered. rewrite map_map. exact O. }
  destruct (library_again ccw source date n (numbered s lib) Q N D B F' O') as (text & l' & W & A & RD).
  exists text, l'. split; [exact W|]. split; [exact RD|]. split.
  - intros k c' I. destruct (forall2_right _ _ _ _ A I) as ([k1 c] & J & (E1 & E2)). cbn in E1, E2. subst k1.
    unfold referred in J. apply in_map_iff in J as ([k2 [z c2]] & E & J). cbn in E. injection E as -> ->. apply filter_In in J as (J & NZ). cbn in NZ.
    apply in_map_iff in J as ([k3 [o c3]] & E & J). cbn in E. injection E as -> <- ->. exists o, c. split; [exact J|]. split; [|exact E2].
    apply (use_num cs); [exact R|]. intros E. rewrite E in NZ. discriminate.
  - intros C k o c I U. apply (counted_use cs s R C) in U.
    assert (J : In (k, c) (referred (numbered s lib))).
    { unfold referred. apply in_map_iff. exists (k, (Z.of_nat (r_num s o), c)). split; [reflexivity|]. apply filter_In. split.
      - apply in_map_iff. exists (k, (o, c)). auto.
      - cbn. apply negb_true_iff, Z.eqb_neq. lia. }
    destruct (forall2_left _ _ _ _ A J) as ([k' c'] & K & (E1 & E2)). cbn in E1, E2. subst k'. eauto.
Qed.

(** An outline whose counter is 0 is not written, whoever uses it. *)
Lemma zero_unwritten ccw s o (c : cout) k lib : r_num s o = 0%nat ->
  write_comp ccw (Z.of_nat (r_num s o)) c = Some [] /\ referred (numbered s ((k, (o, c)) :: lib)) = referred (numbered s lib).
Proof. intros E. unfold referred, numbered. cbn [map filter fst snd]. rewrite E. split; reflexivity. Qed.

Lemma wiped_unwritten ccw s o : exists s', ref_run [Wipe true o] s = Some s' /\ r_data s' = r_data s /\ r_num s' o = 0%nat /\
  forall s'' (c : cout) k lib, r_num s'' o = 0%nat ->
    write_comp ccw (Z.of_nat (r_num s'' o)) c = Some [] /\ referred (numbered s'' ((k, (o, c)) :: lib)) = referred (numbered s'' lib).
Proof.
  destruct (wiped s o) as (s' & R & N & D). exists s'. split; [exact R|]. split; [exact D|]. split; [exact N|].
  exact (fun s'' c k lib => zero_unwritten ccw s'' o c k lib).
Qed.

(** ** Cases *)

Definition some_calls : list ref_call :=
  [Make (Some 0%nat); Make (Some 1%nat); Make (Some 0%nat); SetOut true 1 (Some 2%nat); SetOut false 2 None; Make None; SetOut true 3 (Some 2%nat); Drop 0].

Lemma some_case : exists s, ref_run some_calls no_refs = Some s /\ Forall counts some_calls /\
  r_data s = [(1, Some 2); (2, Some 0); (3, Some 2)]%nat /\ r_num s 0%nat = 1%nat /\ r_num s 1%nat = 0%nat /\ r_num s 2%nat = 2%nat.
Proof.
  eexists. split; [reflexivity|]. split; [repeat (apply Forall_cons; [exact I|]); apply Forall_nil|]. repeat split.
Qed.

Definition some_lib : list (str * (nat * cout)) :=
  [(S2 "R0603_1k 1%", (0%nat, the_part)); (S2 "UNUSED_", (1%nat, mkCout [] Elect (mkNames (S2 "UNUSED") []) Tnm 1 [[]; []] [])); (S2 "_clip", (2%nat, the_clip))].

Lemma lib_case : exists s, ref_run some_calls no_refs = Some s /\ date_ok (S2 "2020/01/01.00:00:00") /\
  Forall (fun x => fst x = uid (snd (snd x)) /\ (in_use s (fst (snd x)) -> comp_fits (snd (snd x)))) some_lib /\ in_order (map fst some_lib) /\
  in_use s 0%nat /\ ~ in_use s 1%nat /\ in_use s 2%nat.
Proof.
  destruct entries_ok as (_ & O & D & _).
  eexists. split; [reflexivity|]. split; [exact D|]. split; [|split; [exact O|]].
  - apply Forall_cons; [split; [reflexivity|intros _; exact the_part_fits]|]. apply Forall_cons; [split; [reflexivity|]|].
    + intros (d & J). cbn in J. exfalso. intuition discriminate.
    + apply Forall_cons; [split; [reflexivity|intros _; exact the_clip_fits]|apply Forall_nil].
  - split; [exists 2%nat; cbn; auto|]. split; [|exists 1%nat; cbn; auto]. intros (d & J). cbn in J. intuition discriminate.
Qed.

(** One placement, whose outline is lost when a second one with offsets, or a copy which
    was made of it, is gone. *)
Lemma lost_case : exists s s1 s2, ref_run [Make (Some 0%nat)] no_refs = Some s /\ r_num s 0%nat = 1%nat /\
  ref_run [Make (Some 0%nat); MakeAt (Some 0%nat); Drop 1] no_refs = Some s1 /\ r_data s1 = [(0, Some 0)]%nat /\ r_num s1 0%nat = 0%nat /\
  ref_run [Make (Some 0%nat); Copy 0; Drop 1] no_refs = Some s2 /\ r_data s2 = [(0, Some 0)]%nat /\ r_num s2 0%nat = 0%nat.
Proof. do 3 eexists. repeat split. Qed.
