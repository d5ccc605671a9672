(* One entity of a plan after the other. *)
From Coq Require Import List Bool ZArith Lia ZifyBool ZifyNat.
From Verif Require Import GraphModel GraphSpec GraphFacts AssocModel AssocSpec AssocFacts AssocRun.
Import ListNotations.
Open Scope Z_scope.

Section Plan.
Variable l : list node.
Variable qs : list wants.
Hypothesis Sd : sound_plan l.
Hypothesis Sy : Forall2 (says l) l qs.
Notation N := (length l).

Definition blv (lv : nat -> nat) (x : nat) : option node := option_map (at_ (lv x)) (nth_error l x).
Definition Tlv (lv : nat -> nat) (r x : nat) : Prop := exists n, nth_error l r = Some n /\ In x (has (lv r) n).
Definition Lv (lv : nat -> nat) (g : graph) : Prop := St N (blv lv) (Tlv lv) g.
Definition lift (lv : nat -> nat) (e k : nat) : nat -> nat := fun x => if Nat.eqb x e then k else lv x.

Lemma lift_eq lv e k : lift lv e k e = k. Proof. unfold lift. now rewrite Nat.eqb_refl. Qed.
Lemma lift_ne lv e k x : x <> e -> lift lv e k x = lv x.
Proof. intros H. unfold lift. apply Nat.eqb_neq in H. now rewrite H. Qed.

Lemma enter lv e n g : Lv lv g -> nth_error l e = Some n -> S1 N (blv lv) (Tlv lv) e (at_ (lv e) n) [] g.
Proof.
  intros S E. apply (St_ext _ (blv lv) _ (Tlv lv)); auto.
  - intros x. unfold upd. destruct (Nat.eqb x e) eqn:Q; [|reflexivity]. apply Nat.eqb_eq in Q. subst. unfold blv. now rewrite E.
  - intros r x. unfold plus. cbn [In]. tauto.
Qed.

Lemma leave lv e n g cur L k : S1 N (blv lv) (Tlv lv) e cur L g -> nth_error l e = Some n -> cur = at_ k n ->
  (forall x, In x (has k n) <-> In x (has (lv e) n) \/ In x L) -> Lv (lift lv e k) g.
Proof.
  intros S E -> H. eapply St_ext; [| |exact S].
  - intros x. unfold upd, blv, lift. destruct (Nat.eqb x e) eqn:Q; [|reflexivity]. apply Nat.eqb_eq in Q. subst. now rewrite E.
  - intros r x. unfold plus, Tlv, lift. destruct (Nat.eqb r e) eqn:Q.
    + apply Nat.eqb_eq in Q. subst. split.
      * intros [(m & A & B)|[_ B]]; exists n; (split; [exact E|]); apply H; [|auto]. rewrite E in A. injection A as <-. auto.
      * intros (m & A & B). rewrite E in A. injection A as <-. apply H in B. destruct B as [B|B]; [|auto]. left. exists n. auto.
    + apply Nat.eqb_neq in Q. split; [|auto]. intros [A|[A _]]; [exact A|congruence].
Qed.

Lemma in_range x m : nth_error l x = Some m -> (x < N)%nat.
Proof. intros H. apply nth_error_Some. congruence. Qed.

Lemma classes_lv lv e : classes l N (blv lv) e.
Proof.
  intros x m E _. split; [now apply (in_range x m)|]. exists (at_ (lv x) m). unfold blv. rewrite E.
  rewrite at_type, at_null, at_form, at_points. auto.
Qed.

Lemma typed_ex x ts m : typed l x ts -> nth_error l x = Some m -> In (n_type m) ts.
Proof. intros (m' & E & I) H. congruence. Qed.

Lemma says_nth (L : list node) ns (ws : list wants) : Forall2 (says L) ns ws -> forall i n, nth_error ns i = Some n ->
  exists q, nth_error ws i = Some q /\ says L n q.
Proof.
  induction 1 as [|n' q l' qs' A F IH]; intros [|i] n E; try discriminate; cbn [nth_error] in *.
  - injection E as <-. eauto.
  - eauto.
Qed.
Lemma say i n : nth_error l i = Some n -> exists q, nth_error qs i = Some q /\ says l n q.
Proof. apply says_nth. exact Sy. Qed.

Lemma null_type i n : nth_error l i = Some n -> n_null n = true -> n_type n = 0.
Proof.
  intros E H. destruct (say i n E) as (q & _ & S). pose proof (s_class _ _ _ S) as C.
  destruct (zmem (q_type q) known); destruct C as [C1 C2]; [congruence|exact C2].
Qed.

(* a composite curve refers to no composite curve *)
Lemma not_102 e n c m : nth_error l e = Some n -> In c (parts n) -> nth_error l c = Some m -> n_type m = 102 -> n_type n <> 102.
Proof.
  intros E I Ec M T. pose proof (d_fits _ Sd _ _ E) as Ft. rewrite parts_in in I.
  assert (X : forall ts, typed l c ts -> ~ In 102 ts -> False).
  { intros ts A B. apply B. rewrite <- M. eapply typed_ex; eauto. }
  destruct I as [I|[I|[I|[I|[I|[I|[I|I]]]]]]].
  - rewrite ptrs_in in I. apply In_nth with (d := None) in I. destruct I as (k & _ & I).
    destruct (f_des _ _ Ft k c I) as [[_ Y]|[[_ [Y _]]|[_ Y]]].
    + apply (X _ Y). cbn. lia.
    + apply (X _ Y). cbn. lia.
    + pose proof (null_type _ _ E Y). lia.
  - apply (X _ (f_extras _ _ Ft c I)). cbn. lia.
  - pose proof (f_len _ _ Ft) as Ln. rewrite T in Ln. assert (Z0 : length (n_slots n) = 0%nat) by (destruct (n_null n); exact Ln).
    destruct (n_slots n); [destruct I|discriminate].
  - apply (X _ (f_102 _ _ Ft T c I)). cbn. lia.
  - rewrite (f_edges _ _ Ft) in I by lia. destruct I.
  - rewrite (f_edges _ _ Ft) in I by lia. destruct I.
  - rewrite (f_loops _ _ Ft) in I by lia. destruct I.
  - rewrite (f_loops _ _ Ft) in I by lia. destruct I.
Qed.

Lemma free lv e n c : nth_error l e = Some n -> In c (parts n) -> ~ In c (has (lv e) n) ->
  free_for (blv lv) (Tlv lv) e (n_type n) c.
Proof.
  intros E I H. destruct (d_range _ Sd _ _ _ E I) as (m & Ec & Nn).
  split.
  - intros ->. rewrite E in Ec. injection Ec as <-. exact (d_apart _ Sd _ _ _ _ E I E I).
  - split.
    + intros (m' & A & B). rewrite E in A. injection A as <-. auto.
    + exists (at_ (lv c) m). unfold blv. rewrite Ec. split; [reflexivity|]. rewrite at_null, at_own, at_type.
      split; [exact Nn|]. split; [reflexivity|]. split.
      * intros X. apply at_sub in X. exact (d_apart _ Sd _ _ _ _ E I Ec X).
      * intros T. exact (not_102 _ _ _ _ E I Ec T).
Qed.

Lemma part_range e n c : nth_error l e = Some n -> In c (parts n) -> (c < N)%nat.
Proof. intros E I. destruct (d_range _ Sd _ _ _ E I) as (m & Ec & _). now apply (in_range c m). Qed.

(* the parts of the class are disjoint from the early ones *)
Lemma late e n : nth_error l e = Some n -> NoDup (early n) /\ NoDup (ptrs (n_slots n)) /\ NoDup (n_items n) /\
  NoDup (map ed_curve (n_edges n)) /\ NoDup (flat_map snd (n_loops n)) /\
  (forall x, In x (ptrs (n_slots n)) -> ~ In x (early n)) /\
  (forall x, In x (n_items n) -> ~ In x (early n) /\ ~ In x (ptrs (n_slots n))) /\
  (forall x, In x (map ed_curve (n_edges n)) -> ~ In x (early n)) /\
  (forall x, In x (flat_map ends (n_edges n)) -> ~ In x (early n) /\ ~ In x (map ed_curve (n_edges n))) /\
  (forall x, In x (map fst (n_loops n)) -> ~ In x (early n)) /\
  (forall x, In x (flat_map snd (n_loops n)) -> ~ In x (early n) /\ ~ In x (map fst (n_loops n))).
Proof.
  intros E. pose proof (d_once _ Sd _ _ E) as D. pose proof (cnt_nodup _ D) as C.
  unfold parts in C. unfold early.
  assert (K : forall (L : list nat) x, In x L -> (1 <= cnt (nodup Nat.eq_dec L) x)%nat).
  { intros L x H. apply cnt_in. now apply nodup_In. }
  assert (P : forall x, (cnt (ptrs (n_des n)) x + (cnt (n_extras n) x + (cnt (ptrs (n_slots n)) x + (cnt (n_items n) x
    + (cnt (map ed_curve (n_edges n)) x + (cnt (nodup Nat.eq_dec (flat_map ends (n_edges n))) x
    + (cnt (nodup Nat.eq_dec (map fst (n_loops n))) x + cnt (flat_map snd (n_loops n)) x)))))) <= 1)%nat).
  { intros x. specialize (C x). rewrite !cnt_app in C. exact C. }
  clear C. assert (Q : forall L x, In x L -> (1 <= cnt L x)%nat) by (intros; now apply cnt_in).
  repeat match goal with |- _ /\ _ => split end;
    try (apply nodup_cnt; intros x; specialize (P x); rewrite ?cnt_app; lia);
    intros x H; try split; intros H2; rewrite ?in_app_iff in H2; specialize (P x); try destruct H2 as [H2|H2];
    first [pose proof (Q _ _ H) as A | idtac]; pose proof (K _ _ H); pose proof (Q _ _ H2); pose proof (K _ _ H2); lia.
Qed.

(* ---- the classes ---- *)
Section Class.
Variables (lv : nat -> nat) (e : nat) (n : node) (q : wants).
Hypothesis E : nth_error l e = Some n.
Hypothesis Q : says l n q.
Hypothesis V : lv e = 1%nat.
Notation b0 := (blv lv).
Notation T0 := (Tlv lv).
Notation S1 := (S1 N b0 T0 e).
Notation free_for := (free_for b0 T0 e).

Lemma free1 c : In c (parts n) -> ~ In c (early n) -> free_for (n_type n) c.
Proof. intros A B. apply free; auto. rewrite V. exact B. Qed.

Lemma seen cur L g c ts : S1 cur L g -> free_for (n_type n) c -> typed l c ts ->
  (c < N)%nat /\ exists m rs nx, nth_error l c = Some m /\ In (n_type m) ts /\ look g c = Some (w_refs rs nx) /\
    n_type nx = n_type m /\ n_null nx = false /\ n_form nx = n_form m /\ n_points nx = n_points m.
Proof.
  intros S F T. destruct (typed_look l N b0 T0 e cur L g c ts (n_type n) (classes_lv lv e) S F T)
    as (R & m & rs & nx & A1 & A2 & A3 & _ & A4). split; [exact R|]. exists m, rs, nx. auto 10.
Qed.

Lemma finish g cur L : S1 cur L g -> cur = goal n ->
  (forall x, In x L <-> In x (ptrs (n_slots n)) \/ In x (n_items n) \/ In x (map ed_curve (n_edges n))
     \/ In x (flat_map ends (n_edges n)) \/ In x (map fst (n_loops n)) \/ In x (flat_map snd (n_loops n))) ->
  Lv (lift lv e 2) g.
Proof.
  intros S C H. apply (leave lv e n g cur L 2 S E C). intros x. rewrite V. cbn [has].
  rewrite parts_in. unfold early. rewrite in_app_iff, H. tauto.
Qed.

Definition halfway : node := w_slots (n_slots n) (basis n).

Lemma slots_run f g : S1 (basis n) [] g ->
  (forall cur L g k c, n_type cur = n_type n -> S1 cur L g -> nth_error (n_slots n) k = Some (Some c) -> (c < N)%nat -> free_for (n_type n) c -> ~ In c L ->
     exists g1, f g k (number c) = Some (true, g1) /\ S1 (w_slots (set_nth k (Some c) (n_slots cur)) cur) (L ++ [c]) g1) ->
  (forall k, nth_error (n_slots n) k = Some None -> forall g, f g k 0 = Some (true, g)) ->
  exists g1, parts_ok f g 0 (q_slots q) = Some (true, g1) /\ S1 halfway (ptrs (n_slots n)) g1.
Proof.
  intros S Step No. rewrite (s_slots _ _ _ Q). destruct (late e n E) as (_ & D1 & _ & _ & _ & D2 & _).
  apply (slots_loop N b0 T0 e f (fun k c => nth_error (n_slots n) k = Some (Some c) /\ (c < N)%nat) (n_type n)) with (l := n_slots n) (p := []) (cur := basis n) (L := []); auto.
  - intros cur L g' k c A B [C R] F NL. now apply Step.
  - intros j c Hj. cbn [length Nat.add]. split; [exact Hj|]. apply (part_range e n); [exact E|]. rewrite parts_in. right. right. left.
    apply ptrs_in. now apply nth_error_In with j.
  - apply Forall_forall. intros c Hc. apply free1; [|now apply D2]. rewrite parts_in. auto.
Qed.

Lemma items_run f g : S1 halfway (ptrs (n_slots n)) g ->
  (forall cur L g c, n_type cur = n_type n -> S1 cur L g -> In c (n_items n) -> (c < N)%nat -> free_for (n_type n) c -> ~ In c L ->
     exists g1, f g (number c) = Some (true, g1) /\ S1 (w_items (n_items cur ++ [c]) cur) (L ++ [c]) g1) ->
  exists g1, all_ok f g (q_items q) = Some (true, g1) /\ S1 (w_items (n_items n) halfway) (ptrs (n_slots n) ++ n_items n) g1.
Proof.
  intros S Step. rewrite (s_items _ _ _ Q). destruct (late e n E) as (_ & _ & D1 & _ & _ & _ & D2 & _).
  apply (items_loop N b0 T0 e f (fun c => In c (n_items n) /\ (c < N)%nat) (n_type n)) with (cur := halfway); auto.
  - intros cur L g' c A B [C R] F NL. now apply Step.
  - apply Forall_forall. intros c Hc. split; [exact Hc|]. apply (part_range e n); [exact E|]. rewrite parts_in. auto.
  - apply Forall_forall. intros c Hc. apply free1; [|now apply D2]. rewrite parts_in. auto.
  - intros c Hc. now apply D2.
Qed.

Lemma fit : fits l n. Proof. exact (d_fits _ Sd _ _ E). Qed.

Lemma end_slots g : S1 halfway (ptrs (n_slots n)) g -> n_items n = [] -> n_edges n = [] -> n_loops n = [] -> Lv (lift lv e 2) g.
Proof.
  intros S I1 I2 I3. apply (finish g _ _ S).
  - unfold halfway, goal, uses. rewrite I1, I2, I3. reflexivity.
  - intros x. rewrite I1, I2, I3. cbn. tauto.
Qed.
Lemma end_items g : S1 (w_items (n_items n) halfway) (ptrs (n_slots n) ++ n_items n) g -> n_edges n = [] -> n_loops n = [] -> Lv (lift lv e 2) g.
Proof.
  intros S I2 I3. apply (finish g _ _ S).
  - unfold halfway, goal, uses. rewrite I2, I3. reflexivity.
  - intros x. rewrite I2, I3, in_app_iff. cbn. tauto.
Qed.
Lemma no_slots : n_slots n = [] -> basis n = halfway /\ ptrs (n_slots n) = [].
Proof. intros H. unfold halfway, basis. rewrite H. split; reflexivity. Qed.

Ltac inz := cbn [In] in *; lia.

Lemma noslots t : n_type n = t -> blank_slots t = [] -> n_slots n = [].
Proof.
  intros T B. pose proof (f_len _ _ fit) as F. rewrite T, B in F.
  assert (Z0 : length (n_slots n) = 0%nat) by (destruct (n_null n); exact F). now apply length_zero_iff_nil.
Qed.
Lemma slots_len t k : n_null n = false -> n_type n = t -> length (blank_slots t) = k -> length (n_slots n) = k.
Proof. intros A B C. pose proof (f_len _ _ fit) as F. rewrite A, B in F. congruence. Qed.
Lemma slot_lt k c : nth_error (n_slots n) k = Some c -> (k < length (n_slots n))%nat.
Proof. intros H. apply nth_error_Some. congruence. Qed.
Lemma slot_nth k (c : option nat) : nth_error (n_slots n) k = Some c -> nth k (n_slots n) None = c.
Proof. intros H. now apply nth_error_nth. Qed.

Lemma is_curve_in rs nx m : In (n_type m) curves -> n_type nx = n_type m -> n_null nx = false -> is_curve (w_refs rs nx) = true.
Proof.
  intros A B C. unfold is_curve. cbn [n_null n_type w_refs]. rewrite C, B. cbn [negb andb]. now apply zmem_in.
Qed.

Lemma class_bare g : Lv lv g -> n_slots n = [] -> n_items n = [] -> n_edges n = [] -> n_loops n = [] -> Lv (lift lv e 2) g.
Proof.
  intros S A B C D. pose proof (enter lv e n g S E) as S'. rewrite V in S'. cbn [at_] in S'.
  destruct (no_slots A) as [X Y]. apply end_slots; auto. rewrite Y, <- X. exact S'.
Qed.

Lemma start g : Lv lv g -> S1 (basis n) [] g.
Proof. intros S. pose proof (enter lv e n g S E) as S'. rewrite V in S'. exact S'. Qed.
Lemma start_items g t : Lv lv g -> n_type n = t -> blank_slots t = [] -> S1 halfway (ptrs (n_slots n)) g.
Proof.
  intros S T B. pose proof (noslots t T B) as X. destruct (no_slots X) as [Y Z]. rewrite Z, <- Y. now apply start.
Qed.

Lemma class_120 g : n_null n = false -> n_type n = 120 -> Lv lv g ->
  exists g1, parts_ok (fun g k v => part120 N g e k v) g 0 (q_slots q) = Some (true, g1) /\ Lv (lift lv e 2) g1.
Proof.
  intros Nn T S. pose proof (slots_len 120 2 Nn T eq_refl) as Ln. destruct (f_120 _ _ fit T) as [F0 F1].
  destruct (slots_run (fun g k v => part120 N g e k v) g (start g S)) as (g1 & A & B).
  - intros cur L g' k c Ty S' Hk R F NL. unfold part120. rewrite number_nz, index_number by exact R.
    assert (Tc : typed l c curves).
    { pose proof (slot_lt _ _ Hk). apply slot_nth in Hk. destruct k as [|[|k]]; [|now apply F1|lia].
      destruct (F0 c Hk) as (m & X & [Y|[]]). exists m. split; [exact X|]. rewrite <- Y. cbn. auto. }
    destruct (seen _ _ _ _ _ S' F Tc) as (_ & m & rs & nx & Em & I & Lk & T1 & T2 & _). rewrite Lk.
    rewrite (is_curve_in _ _ _ I T1 T2). cbn [negb orb n_type w_refs].
    assert (K : Nat.eqb k 0 && negb (n_type nx =? 110) = false).
    { destruct k as [|k]; [|reflexivity]. apply slot_nth in Hk. destruct (F0 c Hk) as (m' & X & [Y|[]]).
      rewrite Em in X. injection X as <-. rewrite T1, <- Y. reflexivity. }
    rewrite K. apply (S1_link_slot N b0 T0 e); auto. now rewrite Ty.
  - intros k _ g'. reflexivity.
  - exists g1. split; [exact A|]. apply end_slots; auto; [apply (f_items _ _ fit)|apply (f_edges _ _ fit)|apply (f_loops _ _ fit)]; inz.
Qed.

Lemma class_122 g : n_null n = false -> n_type n = 122 -> Lv lv g ->
  exists g1, all_ok (fun g v => part122 N g e v) g (q_slots q) = Some (true, g1) /\ Lv (lift lv e 2) g1.
Proof.
  intros Nn T S. pose proof (slots_len 122 1 Nn T eq_refl) as Ln. pose proof (f_122 _ _ fit T) as F0.
  rewrite (all_parts _ _ 0).
  destruct (slots_run (fun g _ v => part122 N g e v) g (start g S)) as (g1 & A & B).
  - intros cur L g' k c Ty S' Hk R F NL. pose proof (slot_lt _ _ Hk). assert (k = 0%nat) by lia. subst k. apply slot_nth in Hk.
    unfold part122. rewrite number_nz, index_number, (odd_number_ok N) by (exact R || exact (d_size _ Sd)). cbn [negb].
    destruct (seen _ _ _ _ _ S' F (F0 c Hk)) as (_ & m & rs & nx & Em & I & Lk & T1 & T2 & _). rewrite Lk.
    rewrite (is_curve_in _ _ _ I T1 T2). apply (S1_link_slot N b0 T0 e); auto. now rewrite Ty.
  - intros k _ g'. reflexivity.
  - exists g1. split; [exact A|]. apply end_slots; auto; [apply (f_items _ _ fit)|apply (f_edges _ _ fit)|apply (f_loops _ _ fit)]; inz.
Qed.

Lemma class_142 g : n_null n = false -> n_type n = 142 -> Lv lv g ->
  exists g1, parts_ok (fun g k v => part142 N g e k v) g 0 (q_slots q) = Some (true, g1) /\ Lv (lift lv e 2) g1.
Proof.
  intros Nn T S. pose proof (f_142 _ _ fit T) as F0.
  destruct (slots_run (fun g k v => part142 N g e k v) g (start g S)) as (g1 & A & B).
  - intros cur L g' k c Ty S' Hk R F NL. unfold part142. rewrite number_nz, index_number by exact R.
    apply (S1_link_slot N b0 T0 e); auto. now rewrite Ty.
  - intros k Hk g'. unfold part142. cbn [Z.eqb]. destruct k; [|reflexivity]. apply slot_nth in Hk. congruence.
  - exists g1. split; [exact A|]. apply end_slots; auto; [apply (f_items _ _ fit)|apply (f_edges _ _ fit)|apply (f_loops _ _ fit)]; inz.
Qed.

Lemma class_144 g : n_null n = false -> n_type n = 144 -> Lv lv g ->
  exists g1, next_ok (parts_ok (fun g k v => part144 N g e k v) g 0 (q_slots q))
                     (fun g3 => all_ok (fun g v => item144 N g e v) g3 (q_items q)) = Some (true, g1) /\ Lv (lift lv e 2) g1.
Proof.
  intros Nn T S. pose proof (slots_len 144 2 Nn T eq_refl) as Ln. destruct (f_144 _ _ fit T) as [(x0 & E0 & F0) [(x1 & E1 & F1) F2]].
  destruct (slots_run (fun g k v => part144 N g e k v) g (start g S)) as (g1 & A & B).
  - intros cur L g' k c Ty S' Hk R F NL. unfold part144. rewrite number_nz, index_number by exact R.
    pose proof (slot_lt _ _ Hk). apply slot_nth in Hk.
    assert (exists rs nx, look g' c = Some (w_refs rs nx) /\ (if Nat.eqb k 0 then zmem (n_type nx) inclusion144 else is_a 142 (w_refs rs nx)) = true) as (rs & nx & Lk & Ok).
    { destruct k as [|[|k]]; [| |lia].
      - rewrite E0 in Hk. injection Hk as ->. destruct (seen _ _ _ _ _ S' F F0) as (_ & m & rs & nx & Em & I & Lk & T1 & T2 & _).
        exists rs, nx. split; [exact Lk|]. cbn [Nat.eqb]. rewrite T1. apply zmem_in. unfold inclusion144. inz.
      - rewrite E1 in Hk. injection Hk as ->. destruct (seen _ _ _ _ _ S' F F1) as (_ & m & rs & nx & Em & I & Lk & T1 & T2 & _).
        exists rs, nx. split; [exact Lk|]. cbn [Nat.eqb]. unfold is_a. cbn [n_null n_type w_refs]. rewrite T2, T1. destruct I as [<-|[]]. reflexivity. }
    rewrite Lk. cbn [n_type w_refs]. rewrite Ok. apply (S1_link_slot N b0 T0 e); auto. now rewrite Ty.
  - intros k Hk g'. pose proof (slot_lt _ _ Hk). apply slot_nth in Hk. destruct k as [|[|k]]; [congruence|congruence|lia].
  - rewrite A. cbn [next_ok].
    destruct (items_run (fun g v => item144 N g e v) g1 B) as (g2 & A2 & B2).
    + intros cur L g' c Ty S' Hc R F NL. unfold item144. rewrite (odd_number_ok N), index_number by (exact R || exact (d_size _ Sd)). cbn [negb].
      destruct (seen _ _ _ _ _ S' F (F2 c Hc)) as (_ & m & rs & nx & Em & I & Lk & T1 & T2 & _). rewrite Lk.
      unfold is_a. cbn [n_null n_type w_refs]. rewrite T2, T1. destruct I as [<-|[]]. cbn [negb andb Z.eqb Pos.eqb].
      rewrite <- Ty in F. destruct (S1_ref N b0 T0 e _ _ _ _ S' F NL) as (ga & Ha & Sa). rewrite Ha.
      destruct (S1_push_item N b0 T0 e _ _ _ c Sa) as (gb & Hb & Sb). rewrite Hb. exists gb. auto.
    + exists g2. split; [exact A2|]. apply end_items; auto; [apply (f_edges _ _ fit)|apply (f_loops _ _ fit)]; inz.
Qed.

Lemma class_180 g : n_null n = false -> n_type n = 180 -> Lv lv g ->
  exists g1, all_ok (fun g v => item180 N g e v) g (q_items q) = Some (true, g1) /\ Lv (lift lv e 2) g1.
Proof.
  intros Nn T S. pose proof (f_180 _ _ fit T) as F2. pose proof (start_items g 180 S T eq_refl) as B.
  destruct (items_run (fun g v => item180 N g e v) g B) as (g2 & A2 & B2).
  - intros cur L g' c Ty S' Hc R F NL. unfold item180. rewrite index_number by exact R.
    destruct (seen _ _ _ _ _ S' F (F2 c Hc)) as (_ & m & rs & nx & Em & I & Lk & T1 & T2 & _). rewrite Lk.
    cbn [n_type w_refs]. rewrite T1. assert (Z0 : zmem (n_type m) operand_types = true) by (apply zmem_in; unfold operand_types; inz). rewrite Z0.
    rewrite <- Ty in F. destruct (S1_push_item N b0 T0 e _ _ _ c S') as (gb & Hb & Sb). rewrite Hb.
    destruct (S1_ref N b0 T0 e _ _ _ c Sb F NL) as (ga & Ha & Sa). rewrite Ha. exists ga. auto.
  - exists g2. split; [exact A2|]. apply end_items; auto; [apply (f_edges _ _ fit)|apply (f_loops _ _ fit)]; inz.
Qed.

Lemma class_308 g : n_null n = false -> n_type n = 308 -> Lv lv g ->
  exists g1, all_ok (fun g v => item308 N g e v) g (q_items q) = Some (true, g1) /\ Lv (lift lv e 2) g1.
Proof.
  intros Nn T S. pose proof (start_items g 308 S T eq_refl) as B.
  destruct (items_run (fun g v => item308 N g e v) g B) as (g2 & A2 & B2).
  - intros cur L g' c Ty S' Hc R F NL. unfold item308. rewrite (odd_number_ok N), index_number by (exact R || exact (d_size _ Sd)).
    cbn [negb]. apply (S1_link_item N b0 T0 e); auto. now rewrite Ty.
  - exists g2. split; [exact A2|]. apply end_items; auto; [apply (f_edges _ _ fit)|apply (f_loops _ _ fit)]; inz.
Qed.

Lemma class_408 g : n_null n = false -> n_type n = 408 -> Lv lv g ->
  exists g1, all_ok (fun g v => part408 N g e v) g (q_slots q) = Some (true, g1) /\ Lv (lift lv e 2) g1.
Proof.
  intros Nn T S. pose proof (slots_len 408 1 Nn T eq_refl) as Ln. pose proof (f_408 _ _ fit T) as F0.
  rewrite (all_parts _ _ 0).
  destruct (slots_run (fun g _ v => part408 N g e v) g (start g S)) as (g1 & A & B).
  - intros cur L g' k c Ty S' Hk R F NL. pose proof (slot_lt _ _ Hk). assert (k = 0%nat) by lia. subst k. apply slot_nth in Hk.
    unfold part408. rewrite number_nz, index_number, (odd_number_ok N) by (exact R || exact (d_size _ Sd)). cbn [negb].
    destruct (seen _ _ _ _ _ S' F (F0 c Hk)) as (_ & m & rs & nx & Em & I & Lk & T1 & T2 & _). rewrite Lk.
    unfold is_a. cbn [n_null n_type w_refs]. rewrite T2, T1. destruct I as [<-|[]]. cbn [negb andb Z.eqb Pos.eqb].
    apply (S1_link_slot N b0 T0 e); auto. now rewrite Ty.
  - intros k _ g'. reflexivity.
  - exists g1. split; [exact A|]. apply end_slots; auto; [apply (f_items _ _ fit)|apply (f_edges _ _ fit)|apply (f_loops _ _ fit)]; inz.
Qed.

Lemma item_of_ok f cur L g c ts : n_type cur = n_type n -> S1 cur L g -> (c < N)%nat -> free_for (n_type n) c -> ~ In c L ->
  typed l c ts -> (forall m rs nx, nth_error l c = Some m -> In (n_type m) ts -> n_type nx = n_type m -> n_null nx = false -> n_form nx = n_form m -> f (w_refs rs nx) = true) ->
  exists g1, item_of f N g e (number c) = Some (true, g1) /\ S1 (w_items (n_items cur ++ [c]) cur) (L ++ [c]) g1.
Proof.
  intros Ty S R F NL Tc Ok. unfold item_of. pose proof (number_pos c). assert (W : number c <? 0 = false) by lia. rewrite W.
  rewrite index_number by exact R.
  destruct (seen _ _ _ _ _ S F Tc) as (_ & m & rs & nx & Em & I & Lk & T1 & T2 & T3 & _). rewrite Lk.
  rewrite (Ok m rs nx) by assumption. apply (S1_link_item N b0 T0 e); auto. now rewrite Ty.
Qed.

Lemma class_186 g : n_null n = false -> n_type n = 186 -> Lv lv g ->
  exists g1, next_ok (all_ok (fun g v => part186 N g e v) g (q_slots q))
                     (fun g3 => all_ok (fun g v => item_of is_shell N g e v) g3 (q_items q)) = Some (true, g1) /\ Lv (lift lv e 2) g1.
Proof.
  intros Nn T S. pose proof (slots_len 186 1 Nn T eq_refl) as Ln. destruct (f_186 _ _ fit T) as [(x0 & E0 & F0) [F2 Fm]].
  rewrite (all_parts _ _ 0).
  destruct (slots_run (fun g _ v => part186 N g e v) g (start g S)) as (g1 & A & B).
  - intros cur L g' k c Ty S' Hk R F NL. pose proof (slot_lt _ _ Hk). assert (k = 0%nat) by lia. subst k. apply slot_nth in Hk.
    unfold part186. pose proof (number_pos c). assert (W : number c <=? 0 = false) by lia. rewrite W, index_number by exact R.
    assert (c = x0) by congruence. subst x0.
    destruct (seen _ _ _ _ _ S' F F0) as (_ & m & rs & nx & Em & I & Lk & T1 & T2 & T3 & _). rewrite Lk.
    unfold is_shell. cbn [n_form n_type w_refs]. rewrite T1, T3, (Fm c m (or_introl Hk) Em). destruct I as [<-|[]]. cbn [andb Z.eqb Pos.eqb].
    apply (S1_link_slot N b0 T0 e); auto. now rewrite Ty.
  - intros k Hk g'. pose proof (slot_lt _ _ Hk). assert (k = 0%nat) by lia. subst k. apply slot_nth in Hk. congruence.
  - rewrite A. cbn [next_ok].
    destruct (items_run (fun g v => item_of is_shell N g e v) g1 B) as (g2 & A2 & B2).
    + intros cur L g' c Ty S' Hc R F NL. apply (item_of_ok is_shell cur L g' c [514]); auto.
      intros m rs nx Em I T1 T2 T3. unfold is_shell. cbn [n_form n_type w_refs]. rewrite T1, T3, (Fm c m (or_intror Hc) Em). destruct I as [<-|[]]. reflexivity.
    + exists g2. split; [exact A2|]. apply end_items; auto; [apply (f_edges _ _ fit)|apply (f_loops _ _ fit)]; inz.
Qed.

Lemma class_510 g : n_null n = false -> n_type n = 510 -> Lv lv g ->
  exists g1, next_ok (all_ok (fun g v => part510 N g e v) g (q_slots q))
                     (fun g3 => all_ok (fun g v => item_of (fun m => n_type m =? 508) N g e v) g3 (q_items q)) = Some (true, g1) /\ Lv (lift lv e 2) g1.
Proof.
  intros Nn T S. pose proof (slots_len 510 1 Nn T eq_refl) as Ln. destruct (f_510 _ _ fit T) as [(x0 & E0 & F0) F2].
  rewrite (all_parts _ _ 0).
  destruct (slots_run (fun g _ v => part510 N g e v) g (start g S)) as (g1 & A & B).
  - intros cur L g' k c Ty S' Hk R F NL. pose proof (slot_lt _ _ Hk). assert (k = 0%nat) by lia. subst k. apply slot_nth in Hk.
    unfold part510. pose proof (number_pos c). assert (W : number c <=? 0 = false) by lia. rewrite W, index_number by exact R.
    assert (c = x0) by congruence. subst x0.
    destruct (seen _ _ _ _ _ S' F F0) as (_ & m & rs & nx & Em & I & Lk & T1 & T2 & T3 & _). rewrite Lk.
    assert (Z0 : surface_ok (w_refs rs nx) = true).
    { unfold surface_ok. cbn [n_form n_type w_refs]. rewrite T1. apply orb_true_iff. left. apply zmem_in. inz. }
    rewrite Z0. apply (S1_link_slot N b0 T0 e); auto. now rewrite Ty.
  - intros k Hk g'. pose proof (slot_lt _ _ Hk). assert (k = 0%nat) by lia. subst k. apply slot_nth in Hk. congruence.
  - rewrite A. cbn [next_ok].
    destruct (items_run (fun g v => item_of (fun m => n_type m =? 508) N g e v) g1 B) as (g2 & A2 & B2).
    + intros cur L g' c Ty S' Hc R F NL. apply (item_of_ok (fun m => n_type m =? 508) cur L g' c [508]); auto.
      intros m rs nx Em I T1 T2 T3. cbn [n_type w_refs]. rewrite T1. destruct I as [<-|[]]. reflexivity.
    + exists g2. split; [exact A2|]. apply end_items; auto; [apply (f_edges _ _ fit)|apply (f_loops _ _ fit)]; inz.
Qed.

Lemma class_514 g : n_null n = false -> n_type n = 514 -> Lv lv g ->
  nil (q_items q) = false /\
  exists g1, all_ok (fun g v => item_of (fun m => n_type m =? 510) N g e v) g (q_items q) = Some (true, g1) /\ Lv (lift lv e 2) g1.
Proof.
  intros Nn T S. destruct (f_514 _ _ fit T) as [Ne F2]. split.
  { rewrite (s_items _ _ _ Q). destruct (n_items n); [congruence|reflexivity]. }
  pose proof (start_items g 514 S T eq_refl) as B.
  destruct (items_run (fun g v => item_of (fun m => n_type m =? 510) N g e v) g B) as (g2 & A2 & B2).
  - intros cur L g' c Ty S' Hc R F NL. apply (item_of_ok (fun m => n_type m =? 510) cur L g' c [510]); auto.
    intros m rs nx Em I T1 T2 T3. cbn [n_type w_refs]. rewrite T1. destruct I as [<-|[]]. reflexivity.
  - exists g2. split; [exact A2|]. apply end_items; auto; [apply (f_edges _ _ fit)|apply (f_loops _ _ fit)]; inz.
Qed.

Lemma class_504 g : n_null n = false -> n_type n = 504 -> Lv lv g ->
  exists g1, all_ok (fun g d => item504 N g e d) g (q_edges q) = Some (true, g1) /\ Lv (lift lv e 2) g1.
Proof.
  intros Nn T S. pose proof (f_504 _ _ fit T) as F0. pose proof (noslots 504 T eq_refl) as X.
  destruct (late e n E) as (_ & _ & _ & D1 & _ & _ & _ & D2 & D3 & _).
  destruct (edges_loop N b0 T0 e (n_edges n) (q_edges q) (basis n) [] g (start g S) T Nn) as (g1 & L1 & A & B & C).
  - pose proof (s_edges _ _ _ Q) as F2. clear - F2 F0 Sd Sy E. induction F2 as [|d w ds ws H F2 IH]; constructor.
    + destruct H as (s & t & -> & H1 & H2). destruct (F0 d (or_introl eq_refl)) as (Tc & Ts & Tt).
      destruct Tc as (mc & Ec & Ic). destruct Ts as (ms & Es & [Is|[]]). destruct Tt as (mt & Et & [It|[]]).
      exists s, t, (at_ (lv (ed_curve d)) mc), (at_ (lv (ed_start d)) ms), (at_ (lv (ed_stop d)) mt).
      unfold blv. rewrite Ec, Es, Et. rewrite !at_type, !at_null, !at_points.
      assert (Ns : forall x m, nth_error l x = Some m -> 502 = n_type m -> n_null m = false).
      { intros x m Hx Hm. destruct (n_null m) eqn:Z; [|reflexivity]. rewrite (null_type x m Hx Z) in Hm. discriminate. }
      pose proof (Ns _ _ Es Is). pose proof (Ns _ _ Et It). specialize (H1 ms Es). specialize (H2 mt Et).
      repeat (split; [try reflexivity; try assumption; try (symmetry; assumption)|]); try (eapply in_range; eassumption).
    + apply IH. intros d' Hd. apply F0. now right.
  - intros x [].
  - apply Forall_forall. intros c Hc. rewrite <- T. apply in_app_iff in Hc. destruct Hc as [Hc|Hc]; apply free1.
    + rewrite parts_in. auto 10.
    + now apply D2.
    + rewrite parts_in. auto 10.
    + now apply D3.
  - exact D1.
  - intros c Hc. split; [intros []|]. intros Y. now apply (D3 c Y).
  - intros v _ [].
  - exists g1. split; [exact A|]. apply (finish g1 _ _ B).
    + unfold goal, uses, basis. cbn [n_edges n_verts w_edges w_verts app].
      rewrite (f_loops _ _ fit), (f_items _ _ fit), X by inz. cbn [map]. rewrite app_nil_r. reflexivity.
    + intros x. rewrite C, (f_loops _ _ fit), (f_items _ _ fit), X by inz. cbn. tauto.
Qed.

Lemma class_508 g : n_null n = false -> n_type n = 508 -> Lv lv g ->
  exists g1, all_ok (fun g d => item508 N g e d) g (q_loops q) = Some (true, g1) /\ Lv (lift lv e 2) g1.
Proof.
  intros Nn T S. pose proof (noslots 508 T eq_refl) as X.
  destruct (late e n E) as (_ & _ & _ & _ & D1 & _ & _ & _ & _ & D2 & D3).
  rewrite (s_loops _ _ _ Q). change (fun p : nat * list nat => (number (fst p), map number (snd p))) with say_loop.
  destruct (loops_loop N b0 T0 e (n_loops n) (basis n) [] g (start g S) T Nn) as (g1 & L1 & A & B & C).
  - intros x [].
  - apply Forall_forall. intros c Hc. apply (part_range e n _ E). rewrite parts_in. apply in_app_iff in Hc. tauto.
  - apply Forall_forall. intros c Hc. rewrite <- T. apply in_app_iff in Hc. destruct Hc as [Hc|Hc]; apply free1.
    + rewrite parts_in. auto 10.
    + now apply D2.
    + rewrite parts_in. auto 10.
    + now apply D3.
  - exact D1.
  - intros d Hd. split; [|intros []]. intros Y. now apply (D3 d Y).
  - intros c _. cbn. auto.
  - exists g1. split; [exact A|]. apply (finish g1 _ _ B).
    + unfold goal, uses, basis. cbn [n_loops n_verts w_loops w_verts app].
      rewrite (f_edges _ _ fit), (f_items _ _ fit), X by inz. reflexivity.
    + intros x. rewrite C, (f_edges _ _ fit), (f_items _ _ fit), X by inz. cbn. tauto.
Qed.
End Class.
End Plan.
