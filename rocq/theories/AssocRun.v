(* Associating every entity of a plan. *)
From Coq Require Import List Bool ZArith Lia ZifyBool ZifyNat.
From Verif Require Import GraphModel GraphSpec GraphFacts AssocModel AssocSpec AssocFacts.
Import ListNotations.
Open Scope Z_scope.

Definition nothing {A} (l : list A) : list (option nat) := map (fun _ => None) l.

(* an entity of the plan: as loaded, after the base class, at the end *)
Definition blank (n : node) : node :=
  mkNode (n_type n) (n_null n) (n_form n) true (n_dep n) (n_points n) [] (nothing (n_des n)) [] (nothing (n_slots n)) [] [] [] [].
Definition basis (n : node) : node :=
  mkNode (n_type n) (n_null n) (n_form n) true (n_dep n) (n_points n) [] (n_des n) (n_extras n) (nothing (n_slots n)) [] [] [] [].
Definition uses (n : node) : list nat := flat_map ends (n_edges n) ++ map fst (n_loops n).
Definition goal (n : node) : node :=
  mkNode (n_type n) (n_null n) (n_form n) true (n_dep n) (n_points n) [] (n_des n) (n_extras n) (n_slots n) (n_items n)
    (n_edges n) (fold_left tally1 (uses n) []) (n_loops n).
Definition at_ (k : nat) (n : node) : node := match k with O => blank n | S O => basis n | _ => goal n end.
Definition early (n : node) : list nat := ptrs (n_des n) ++ n_extras n.
Definition has (k : nat) (n : node) : list nat := match k with O => [] | S O => early n | _ => parts n end.

Lemma nothing_ptrs {A} (l : list A) : ptrs (nothing l) = [].
Proof. induction l; cbn; auto. Qed.
Lemma nothing_nil {A} (l : list A) : nothing l = [] -> l = [].
Proof. destruct l; [auto|discriminate]. Qed.

Lemma early_parts n x : In x (early n) -> In x (parts n).
Proof. unfold early, parts. rewrite !in_app_iff. tauto. Qed.
Lemma has_parts k n x : In x (has k n) -> In x (parts n).
Proof. destruct k as [|[|k]]; cbn [has]; [intros []|apply early_parts|auto]. Qed.

Lemma loop_parts_in l x : In x (loop_parts l) <-> In x (map fst l) \/ In x (flat_map snd l).
Proof.
  unfold loop_parts. induction l as [|[a b] l IH]; cbn [flat_map map fst snd]; [tauto|].
  cbn [In]. rewrite <- app_comm_cons. cbn [In]. rewrite !in_app_iff, IH. tauto.
Qed.

Lemma parts_in n x : In x (parts n) <->
  In x (ptrs (n_des n)) \/ In x (n_extras n) \/ In x (ptrs (n_slots n)) \/ In x (n_items n) \/ In x (map ed_curve (n_edges n))
  \/ In x (flat_map ends (n_edges n)) \/ In x (map fst (n_loops n)) \/ In x (flat_map snd (n_loops n)).
Proof. unfold parts. rewrite !in_app_iff, !nodup_In. reflexivity. Qed.

Lemma at_sub k n x : In x (tparts (at_ k n)) -> In x (parts n).
Proof.
  rewrite parts_in. unfold tparts, tgt, edge_curves. destruct k as [|[|k]].
  - cbn [at_ blank n_des n_extras n_slots n_items n_edges n_verts n_loops]. rewrite !nothing_ptrs. intros [].
  - cbn [at_ basis n_des n_extras n_slots n_items n_edges n_verts n_loops]. rewrite !nothing_ptrs, !in_app_iff. cbn. tauto.
  - cbn [at_ goal n_des n_extras n_slots n_items n_edges n_verts n_loops].
    rewrite !in_app_iff, loop_parts_in, tally_in. unfold uses. rewrite in_app_iff. cbn [map In]. tauto.
Qed.
Lemma at_type k n : n_type (at_ k n) = n_type n. Proof. destruct k as [|[|k]]; reflexivity. Qed.
Lemma at_null k n : n_null (at_ k n) = n_null n. Proof. destruct k as [|[|k]]; reflexivity. Qed.
Lemma at_form k n : n_form (at_ k n) = n_form n. Proof. destruct k as [|[|k]]; reflexivity. Qed.
Lemma at_points k n : n_points (at_ k n) = n_points n. Proof. destruct k as [|[|k]]; reflexivity. Qed.
Lemma at_own k n : n_own (at_ k n) = true. Proof. destruct k as [|[|k]]; reflexivity. Qed.

(* ---- the base class ---- *)
Section Base.
Variables (l : list node) (N : nat) (b0 : nat -> option node) (T0 : nat -> nat -> Prop) (e : nat).
Notation S1 := (S1 N b0 T0 e).
Notation free_for := (free_for b0 T0 e).

(* b0 gives the entities the classes of the plan *)
Definition classes : Prop := forall x m, nth_error l x = Some m -> x <> e ->
  (x < N)%nat /\ exists nx, b0 x = Some nx /\ n_type nx = n_type m /\ n_null nx = n_null m /\ n_form nx = n_form m /\ n_points nx = n_points m.

Lemma typed_look cur L g x ts te : classes -> S1 cur L g -> free_for te x -> typed l x ts ->
  (x < N)%nat /\ exists m rs nx, nth_error l x = Some m /\ In (n_type m) ts /\ look g x = Some (w_refs rs nx) /\
    b0 x = Some nx /\ n_type nx = n_type m /\ n_null nx = false /\ n_form nx = n_form m /\ n_points nx = n_points m.
Proof.
  intros C S F (m & E & I). pose proof F as (Ne & _ & nc & Bc & Nn & _). destruct (C x m E Ne) as (R & nx & Bx & A1 & A2 & A3 & A4).
  split; [exact R|]. rewrite Bc in Bx. injection Bx as <-. destruct (S1_other _ _ _ _ _ _ _ _ _ S F) as (n' & rs & B' & Lk).
  rewrite Bc in B'. injection B' as <-. exists m, rs, nc. auto 10.
Qed.

Lemma de_step cur L g k x v : classes -> S1 cur L g -> free_for (n_type cur) x -> ~ In x L -> (x < N)%nat ->
  v = (if signed k then - number x else number x) ->
  (k = 4%nat /\ typed l x [124]) \/ (k = 6%nat /\ typed l x [314]) \/ k = 0%nat ->
  exists g1, link_de N g e k v = Some (Fine, g1) /\ S1 (w_des (set_nth k (Some x) (n_des cur)) cur) (L ++ [x]) g1.
Proof.
  intros C S F NL R Ev K. pose proof (number_pos x) as Pos.
  assert (Nm : de_names k v = Some (number x)).
  { unfold de_names. destruct K as [[-> _]|[[-> _]| ->]]; cbn [mem existsb Nat.eqb orb signed] in *; subst v.
    - destruct (0 <? number x) eqn:Q; [reflexivity|lia].
    - destruct (- number x <? 0) eqn:Q; [now rewrite Z.opp_involutive|lia].
    - destruct (0 <? number x) eqn:Q; [reflexivity|lia]. }
  unfold link_de. rewrite Nm, index_number by exact R.
  destruct (S1_other _ _ _ _ _ _ _ _ _ S F) as (nc & rs & Bc & Lc). rewrite Lc.
  destruct (S1_set_de N b0 T0 e _ _ _ k (Some x) S) as (g0 & H0 & S0). rewrite H0.
  assert (K4 : Nat.eqb k 4 && negb (is_a 124 (w_refs rs nc)) = false).
  { destruct K as [[-> Ty]|[[-> _]| ->]]; [|reflexivity|reflexivity].
    destruct (typed_look _ _ _ _ _ _ C S F Ty) as (_ & m & rs' & nx & _ & I & _ & Bx & T1 & T2 & _).
    rewrite Bc in Bx. injection Bx as <-. unfold is_a. cbn [n_null n_type w_refs]. rewrite T2, T1. destruct I as [<-|[]]. reflexivity. }
  rewrite K4. assert (Ne : Nat.eqb x e = false) by (apply Nat.eqb_neq; apply F). rewrite Ne.
  destruct (S1_ref N b0 T0 e _ _ _ x S0 F NL) as (g1 & H1 & S1'). rewrite H1.
  assert (Ta : de_target k (w_refs rs nc) = true).
  { destruct K as [[-> _]|[[-> Ty]| ->]]; [reflexivity| |reflexivity].
    destruct (typed_look _ _ _ _ _ _ C S F Ty) as (_ & m & rs' & nx & _ & I & _ & Bx & T1 & T2 & _).
    rewrite Bc in Bx. injection Bx as <-. unfold de_target. cbn [n_type w_refs]. rewrite T1. destruct I as [<-|[]]. reflexivity. }
  rewrite Ta. exists g1. auto.
Qed.

Lemma des_loop (n : node) : classes -> forall vs ds p cur L g, S1 cur L g -> n_type cur = n_type n ->
  n_des cur = p ++ nothing ds -> length vs = length ds ->
  (forall j v, nth_error vs j = Some v -> match nth j ds None with
     | Some x => v = if signed (length p + j) then - number x else number x
     | None => if signed (length p + j) then 0 <= v else v <= 0 end) ->
  (forall j x, nth j ds None = Some x -> ((length p + j = 4)%nat /\ typed l x [124]) \/ ((length p + j = 6)%nat /\ typed l x [314]) \/ (length p + j = 0)%nat) ->
  Forall (fun x => (x < N)%nat) (ptrs ds) -> Forall (free_for (n_type n)) (ptrs ds) -> NoDup (ptrs ds) ->
  (forall c, In c (ptrs ds) -> ~ In c L) ->
  exists g1, link_des N g e (length p) vs Fine = Some (Fine, g1) /\ S1 (w_des (p ++ ds) cur) (L ++ ptrs ds) g1.
Proof.
  intros C. induction vs as [|v vs IH]; intros ds p cur L g S Ty De Len V K R F D NL; (destruct ds as [|o ds]; [|try discriminate]); try discriminate.
  - exists g. split; [reflexivity|]. cbn [nothing map] in De. rewrite app_nil_r in De. rewrite !app_nil_r, <- De. destruct cur; exact S.
  - cbn [link_des]. assert (Hl : forall o : option nat, length (p ++ [o]) = Datatypes.S (length p)) by (intros; rewrite app_length; cbn; lia).
    pose proof (V 0%nat v eq_refl) as V0. pose proof (fun x => K 0%nat x) as K0. rewrite Nat.add_0_r in V0, K0. cbn [nth] in V0, K0.
    assert (Vn : forall j w, nth_error vs j = Some w -> match nth j ds None with
       | Some x => w = if signed (length (p ++ [o]) + j) then - number x else number x
       | None => if signed (length (p ++ [o]) + j) then 0 <= w else w <= 0 end).
    { intros j w Hj. rewrite Hl, Nat.add_succ_comm. apply (V (Datatypes.S j) w Hj). }
    assert (Kn : forall j x, nth j ds None = Some x -> ((length (p ++ [o]) + j = 4)%nat /\ typed l x [124]) \/ ((length (p ++ [o]) + j = 6)%nat /\ typed l x [314]) \/ (length (p ++ [o]) + j = 0)%nat).
    { intros j x Hj. rewrite Hl, Nat.add_succ_comm. apply (K (Datatypes.S j) x Hj). }
    cbn [length] in Len. injection Len as Len. destruct o as [x|].
    + cbn [ptrs] in R, F, D, NL. apply Forall_cons_iff in R. destruct R as [R1 R2]. apply Forall_cons_iff in F. destruct F as [F1 F2].
      apply NoDup_cons_iff in D. destruct D as [D1 D2].
      destruct (de_step cur L g (length p) x v C S) as (g1 & H1 & S1'); auto.
      { now rewrite Ty. } { apply NL. now left. }
      rewrite H1. cbn [worse].
      destruct (IH ds (p ++ [Some x]) (w_des (set_nth (length p) (Some x) (n_des cur)) cur) (L ++ [x]) g1 S1') as (g2 & H2 & S2); auto.
      * cbn [n_des w_des]. rewrite De. cbn [nothing map]. now rewrite set_nth_mid, <- app_assoc.
      * intros y Hy. rewrite in_app_iff. cbn [In]. intros [X|[X|[]]]; [exact (NL y (or_intror Hy) X)|congruence].
      * exists g2. rewrite Hl in H2. split; [exact H2|]. rewrite <- !app_assoc in S2. exact S2.
    + cbn [ptrs] in R, F, D, NL. unfold link_de.
      assert (Nm : de_names (length p) v = None).
      { unfold de_names. destruct (mem (length p) [1; 2; 6]%nat) eqn:Q.
        - apply mem_in in Q. assert (Sg : signed (length p) = true) by (destruct Q as [<-|[<-|[<-|[]]]]; reflexivity).
          rewrite Sg in V0. destruct (v <? 0) eqn:W; [lia|reflexivity].
        - apply mem_notin in Q. assert (Sg : signed (length p) = false).
          { destruct (length p) as [|[|[|[|[|[|[|]]]]]]]; try reflexivity; exfalso; apply Q; cbn; auto. }
          rewrite Sg in V0. destruct (0 <? v) eqn:W; [lia|reflexivity]. }
      rewrite Nm. cbn [worse].
      destruct (IH ds (p ++ [None]) cur L g S) as (g2 & H2 & S2); auto.
      * rewrite De, <- app_assoc. reflexivity.
      * exists g2. rewrite Hl in H2. split; [exact H2|]. rewrite <- app_assoc in S2. exact S2.
Qed.

Lemma base_ok n q g done : classes -> says l n q -> fits l n -> S1 (blank n) [] g -> ~ In e done ->
  Forall (fun x => (x < N)%nat) (early n) -> Forall (free_for (n_type n)) (early n) -> NoDup (early n) ->
  exists g1, base_associate N q g done e = Some (true, g1, e :: done) /\ S1 (basis n) (early n) g1.
Proof.
  intros C Sy Ft S ND R F D. unfold base_associate. apply mem_notin in ND. rewrite ND.
  unfold early in *. apply Forall_app in R. destruct R as [R1 R2]. apply Forall_app in F. destruct F as [F1 F2].
  destruct (s_des _ _ _ Sy) as (L1 & L2 & V).
  assert (D1 : NoDup (ptrs (n_des n))) by (apply nodup_cnt; intros x; pose proof (cnt_nodup _ D x) as X; rewrite cnt_app in X; lia).
  assert (D2 : NoDup (n_extras n)) by (apply nodup_cnt; intros x; pose proof (cnt_nodup _ D x) as X; rewrite cnt_app in X; lia).
  assert (D3 : forall x, In x (n_extras n) -> ~ In x (ptrs (n_des n))).
  { intros x A B. pose proof (cnt_nodup _ D x) as X. rewrite cnt_app in X. apply cnt_in in A, B. lia. }
  destruct (des_loop n C (q_des q) (n_des n) [] (blank n) [] g S) as (g1 & H1 & S1'); auto.
  { congruence. }
  { intros j x Hj. destruct (f_des _ _ Ft j x Hj) as [X|[[X [Y _]]|[X _]]]; auto. }
  cbn [length] in H1. rewrite H1. rewrite (s_extras _ _ _ Sy). cbn [app] in S1'.
  destruct (extras_loop N b0 T0 e N (n_extras n) (w_des (n_des n) (blank n)) (ptrs (n_des n)) g1 S1') as (g2 & H2 & S2); auto.
  { apply Forall_forall. intros c Hc. split; [apply (proj1 (Forall_forall _ _) R2 c Hc)|].
    destruct (f_extras _ _ Ft c Hc) as (m & E & [I|[]]). pose proof (proj1 (Forall_forall _ _) F2 c Hc) as Fc.
    destruct (C c m E (proj1 Fc)) as (_ & nx & Bx & T1 & _). exists nx. split; [exact Bx|]. congruence. }
  rewrite H2. exists g2. split; [reflexivity|]. exact S2.
Qed.

(* pointers a class does not use are not there to be dropped *)
Lemma drops_nothing cur L g ks : S1 cur L g -> (forall k, In k ks -> nth k (n_des cur) None = None) -> drop_des g e ks = Some g.
Proof.
  intros S. induction ks as [|k ks IH]; intros H; cbn [drop_des]; [reflexivity|].
  unfold drop_de. destruct (S1_look N b0 T0 e _ _ _ S) as (rs & Lk). rewrite Lk. cbn [n_des w_refs].
  rewrite (H k (or_introl eq_refl)). apply IH. intros j Hj. apply H. now right.
Qed.
Lemma drops_fit n cur L g : fits l n -> n_null n = false -> n_des cur = n_des n -> S1 cur L g ->
  drop_des g e (unused_des (n_type n)) = Some g.
Proof.
  intros Ft Nn De S. apply (drops_nothing cur L g _ S). rewrite De. intros k Hk.
  destruct (nth k (n_des n) None) as [x|] eqn:E; [exfalso|reflexivity].
  pose proof (f_des _ _ Ft k x E) as K. rewrite Nn in K. unfold unused_des in Hk.
  destruct (zmem (n_type n) _) eqn:Q1 in Hk.
  - destruct Hk as [<-|[]]. destruct K as [[K _]|[[K _]|[_ K]]]; discriminate.
  - destruct (n_type n =? 124) eqn:Q2.
    + cbn [In] in Hk. destruct K as [[K _]|[[K [_ K2]]|[_ K]]]; lia || discriminate.
    + assert (B : In (n_type n) [314; 406] -> False).
      { intros B. pose proof (f_bare _ _ Ft B) as P. apply nth_ptrs in E. rewrite P in E. destruct E. }
      destruct (n_type n =? 314) eqn:Q3; [apply B; left; lia|].
      destruct (n_type n =? 406) eqn:Q4; [apply B; right; left; lia|]. destruct Hk.
Qed.
End Base.
