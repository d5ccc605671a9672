(** Round trips of colors, B-Rep entities and NURBS. *)

From Coq Require Import Lia ZifyBool ZifyNat ZifyN QArith Qabs Lqa.
From Verif Require Import Base Num Spec NumFacts IoModel FieldFacts LineFacts TokenFacts RealFacts RecordFacts
  ParamFacts PutModel BuildFacts StreamFacts PdModel PdFacts GlobBack EntModel EntSpec EntModel2 EntModel3 EntFacts
  EntProps EntProps2 EntItem.
Open Scope Z_scope.

Ltac Zify.zify_post_hook ::= Z.div_mod_to_equations.

(** ** Colors *)

Lemma clamp_in d v : (0 <= v)%Q -> (v <= 100)%Q -> clamp d v = v.
Proof. intros A B. unfold clamp. rewrite !Qlt_bool_false by lra. reflexivity. Qed.
Lemma clamp_out d v : (v < 0)%Q \/ (100 < v)%Q -> clamp d v = d.
Proof. intros [H|H]; unfold clamp; rewrite (Qlt_bool_true _ _ H), ?orb_true_r; reflexivity. Qed.

Lemma close_six u n k v q : real_close u v q -> (v == inject_Z n * (10 # 1) ^ k)%Q -> (1 # 100000000 <= Qabs v)%Q ->
  Z.abs n < 1000000 -> (q == v)%Q.
Proof. intros [_ H] E A B. destruct (H A) as (_ & _ & G). eapply G; eauto. Qed.

(** The clamped value written, then read and clamped again. *)
Lemma shade_read d v q : (d == 85 \/ d == 20)%Q -> shade_ok v -> real_close color_res (clamp d v) q -> shade d v (clamp d q).
Proof.
  intros Hd OK C.
  assert (R : (0 <= v)%Q /\ (v <= 9999 # 100)%Q -> real_close color_res v q -> (0 <= q)%Q /\ (q <= 100)%Q).
  { intros [A B] [C0 C1]. assert (AB : (Qabs v == v)%Q) by (apply Qabs_pos, A).
    destruct (Qlt_le_dec v (1 # 100000000)) as [L|L].
    - rewrite AB in C0. pose proof (C0 L). lra.
    - rewrite AB in C1. destruct (C1 L) as (_ & X & _). apply Qabs_Qle_condition in X. lra. }
  split.
  - intros [[A B]|E].
    + rewrite clamp_in in C by lra. destruct (R (conj A B) C). rewrite clamp_in by lra. exact C.
    + rewrite clamp_in in C by lra.
      assert (Q : (q == v)%Q).
      { assert (Z.abs 1 < 1000000) by lia. assert (1 # 100000000 <= Qabs v)%Q by (rewrite Qabs_pos by lra; lra).
        apply (close_six color_res 1 2 v q C E); assumption. }
      rewrite clamp_in by lra. exact C.
  - intros O. rewrite clamp_out in C by exact O.
    assert (Q : (q == d)%Q).
    { assert (1 # 100000000 <= Qabs d)%Q by (rewrite Qabs_pos by (destruct Hd; lra); destruct Hd; lra).
      assert (Z.abs 85 < 1000000) by lia. assert (Z.abs 20 < 1000000) by lia.
      destruct Hd as [E|E].
      - apply (close_six color_res 85 0 d q C E); assumption.
      - apply (close_six color_res 20 0 d q C E); assumption. }
    unfold clamp. rewrite !Qlt_bool_false by (destruct Hd; lra). exact Q.
Qed.

Lemma clamp_real300 d v : real300 d -> real300 v -> real300 (clamp d v).
Proof. intros A B. unfold clamp. destruct (_ || _); assumption. Qed.

Lemma hand_len s fd : (length s <= 60)%nat -> (length (hand_text s fd) <= 64)%nat.
Proof.
  intros L. unfold hand_text. rewrite app_length. cbn [length]. rewrite app_length. cbn [length].
  assert ((length (showZ (Z.of_nat (length s))) <= 2)%nat).
  { unfold showZ. replace (Z.of_nat (length s) <? 0) with false by lia.
    pose proof (showN_len (Z.of_nat (length s)) 2 ltac:(lia) ltac:(lia)). change (10 ^ Z.of_nat 2) with 100 in H. lia. }
  lia.
Qed.

Lemma real300_small n : (Qabs n <= 100)%Q -> real300 n.
Proof.
  intros H. unfold real300. eapply Qle_trans; [exact H|]. discriminate.
Qed.

Lemma round314 c extras k seq pd rd : settings_ok pd rd seq k extras ->
  shade_ok (co_r c) -> shade_ok (co_g c) -> shade_ok (co_b c) -> (length (co_name c) <= 60)%nat -> ~ In nl (co_name c) ->
  (co_name c = [] -> extras = []) -> room k 4 2 extras ->
  round_trip (format314 c extras [] k seq pd rd) (fun n f => readPD314 seq k n pd rd f)
    seq k (extras_ptrs extras) (shades c).
Proof.
  intros S Or Og Ob LN NN EE RM. pose proof S as (D & Hs & Hk & _).
  assert (CR : forall d v, (d == 85 \/ d == 20)%Q -> real300 (clamp d v)).
  { intros d v Hd. apply real300_small. unfold clamp. destruct (Qlt_bool v 0 || Qlt_bool 100 v) eqn:E.
    - apply Qabs_Qle_condition. destruct Hd; lra.
    - apply orb_false_iff in E. unfold Qlt_bool in E. destruct E as [E1 E2].
      apply negb_false_iff, Qle_bool_iff in E1. apply negb_false_iff, Qle_bool_iff in E2. apply Qabs_Qle_condition. lra. }
  assert (R85 : (85 == 85 \/ 85 == 20)%Q) by (left; reflexivity).
  assert (R20 : (20 == 85 \/ 20 == 20)%Q) by (right; reflexivity).
  assert (FR : Forall real300 [clamp 85 (co_r c); clamp 20 (co_g c); clamp 20 (co_b c)]) by (repeat constructor; auto).
  assert (CU : (0 < color_res)%Q) by reflexivity.
  unfold format314, readPD314. destruct (co_name c) as [|ch nm] eqn:EN.
  - rewrite (EE eq_refl) in *. rewrite app_nil_r.
    apply (frame_round_at 314 seq k pd rd [] [] (fun d => reals_acts color_res [clamp 85 (co_r c); clamp 20 (co_g c); clamp 20 (co_b c)] pd d)
      (uni color_res (map PReal [clamp 85 (co_r c); clamp 20 (co_g c); clamp 20 (co_b c)])) []); auto; try lia.
    + constructor. + apply Nat.leb_le; reflexivity.
    + apply opens_reals; auto.
    + apply closes_reals; auto; discriminate.
    + rewrite ucosts_uni, costs_reals. unfold room in RM. cbn [length] in *. lia.
    + apply no_nl_reals.
    + intros ps' W data n idx C. apply uwrote_reals in W. inv2. cbn [app] in C. unfold parse314. cbn [parse_reals].
      do 3 real_step C. destruct (cursor_end _ _ _ _ _ _ C) as [-> _]. cbn [pbind].
      eexists. eexists. eexists. split; [reflexivity|]. split; [|exact C].
      unfold shades. cbn [co_r co_g co_b co_name]. rewrite EN. repeat split; try reflexivity; apply shade_read; auto.
  - rewrite <- EN in *. assert (NE : co_name c <> []) by (rewrite EN; discriminate). clear EE.
    apply (frame_round 314 seq k pd rd [] []
      (fun d => reals_acts color_res [clamp 85 (co_r c); clamp 20 (co_g c); clamp 20 (co_b c)] pd pd ++ [WItem (hand_text (co_name c) d)])
      (uni color_res (map PReal [clamp 85 (co_r c); clamp 20 (co_g c); clamp 20 (co_b c)]) ++ [(1%Q, PStr (co_name c))]) extras); auto; try lia.
    + constructor. + apply Nat.leb_le; reflexivity.
    + apply opens_app; [apply opens_reals; auto|].
      apply opens_hand; auto. apply hand_len, LN.
    + apply closes_app; [apply opens_reals; auto|].
      apply closes_hand; auto. apply hand_len, LN.
    + rewrite ucosts_app, ucosts_uni, costs_reals. unfold room in RM. unfold ucosts. cbn [length map snd costs fold_right cost]. unfold str_cost. lia.
    + cbn [app]. rewrite map_app. apply no_nl_app; [apply no_nl_reals|]. repeat constructor. exact NN.
    + intros ps' W data n idx ex C. apply uwrote_app in W. destruct W as (p1 & p2 & -> & W1 & W2). apply uwrote_reals in W1.
      apply uwrote_cons_text in W2. destruct W2 as (q2 & -> & W2). inv2. cbn [app] in C. unfold parse314. cbn [parse_reals].
      do 3 real_step C. pose proof (cursor_open _ _ _ _ _ _ _ _ C) as ->.
      destruct (st_text pd rd data n D _ _ _ _ C) as (i2 & e2 & P2 & C2). rewrite P2. cbn [pbind].
      eexists. eexists. eexists. split; [reflexivity|]. split; [|exact C2].
      unfold shades. cbn [co_r co_g co_b co_name]. repeat split; try reflexivity; apply shade_read; auto.
Qed.

(** ** B-Rep *)

Lemma zb_flag b : flag01 (zb b) = true /\ is_int32 (zb b) /\ (zb b =? 1) = b.
Proof. destruct b; repeat split; cbn; unfold is_int32; lia. Qed.

Lemma st_pairs pd rd data n l : delims pd rd -> Forall (fun p => any_ptr (fst p) = true) l -> forall idx eor ps,
  cursor pd rd data n idx eor (ptr_params (pairs_ints l) ++ ps) ->
  exists i e, parse_pairs (length l) data idx eor pd rd = POk (l, i, e) /\ cursor pd rd data n i e ps.
Proof.
  intros D. induction 1 as [|[p b] l H F IH]; intros idx eor ps C.
  - exists idx, eor. split; [reflexivity|exact C].
  - cbn [length parse_pairs]. cbn [pairs_ints flat_map fst snd app ptr_params map] in C. cbn [fst] in H.
    destruct (zb_flag b) as (B1 & B2 & B3). apply any_ptr_range in H as H'.
    int_step C. int_step C. destruct (IH _ _ _ C) as (i2 & e2 & P & C2). rewrite P. cbn [pbind]. rewrite B3.
    exists i2, e2. auto.
Qed.

Lemma pairs_int32 l : Forall (fun p => any_ptr (fst p) = true) l -> Forall is_int32 (pairs_ints l).
Proof.
  induction 1 as [|[p b] l H F IH]; [constructor|]. cbn [pairs_ints flat_map app fst snd]. apply any_ptr_range in H. cbn [fst] in H.
  constructor; [unfold is_int32; lia|]. constructor; [apply zb_flag|exact IH].
Qed.

Lemma pairs_len l : length (pairs_ints l) = (2 * length l)%nat.
Proof. induction l as [|p l IH]; [reflexivity|]. cbn [pairs_ints flat_map app length]. unfold pairs_ints in IH. rewrite IH. lia. Qed.

Lemma round514 l extras k seq pd rd : settings_ok pd rd seq k extras -> l <> [] ->
  Forall (fun p => any_ptr (fst p) = true) l -> room k (2 * Z.of_nat (length l)) 0 extras ->
  round_trip (format514 l extras [] k seq pd rd) (fun n f => readPD514 seq k n pd rd f) seq k (extras_ptrs extras)
    (fun l' => l' = l).
Proof.
  intros S NE F RM. pose proof S as (D & Hs & Hk & _).
  assert (LL : 1 <= Z.of_nat (length l) <= 9999999) by (unfold room in RM; destruct l; [congruence|cbn [length] in *; lia]).
  unfold format514, readPD514. replace (9999997 <? k) with false by (unfold room in RM; lia).
  replace (match l with [] => _ | _ :: _ => _ end) with
    (format_frame (showZ 514 ++ pd :: showZ (Z.of_nat (length l)) ++ [pd])
      (ints_acts (pairs_ints l) pd (fdel extras pd rd)) extras [] k seq pd rd) by (destruct l; [congruence|reflexivity]).
  apply (ints_round 514 seq k pd rd _ [PInt (Z.of_nat (length l))] (pairs_ints l)); auto; try lia.
  - hdr.
  - lens. pose proof (showZ_ptr_len _ (conj (Z.le_trans 0 1 _ ltac:(lia) (proj1 LL)) (proj2 LL))). lia.
  - repeat constructor.
  - destruct l as [|[? ?] ?]; [congruence|discriminate].
  - apply pairs_int32, F.
  - rewrite pairs_len. unfold room in *. lia.
  - intros data n idx ex C. cbn [app] in C. unfold parse514. int_step C.
    rewrite Nat2Z.id. destruct (st_pairs pd rd data n l D F _ _ _ C) as (i2 & e2 & P & C2). exists l, i2, e2. auto.
Qed.

Lemma round186 s o extras k seq pd rd : settings_ok pd rd seq k extras -> any_ptr s = true -> room k 1 0 extras ->
  round_trip (format186 (mkBrep (Some s) o []) extras [] k seq pd rd) (fun n f => readPD186 seq k n pd rd f)
    seq k (extras_ptrs extras) (fun b => b = mkBrep (Some s) o []).
Proof.
  intros S Os RM. pose proof S as (D & Hs & Hk & _). apply any_ptr_range in Os as Os'. destruct (zb_flag o) as (B1 & B2 & B3).
  unfold format186, readPD186. cbn [br_shell br_sof br_voids]. replace (9999997 <? k) with false by (unfold room in RM; lia).
  apply (ints_round 186 seq k pd rd _ [PInt s; PInt (zb o)] [0]); auto; try lia.
  - hdr.
  - lens. pose proof (showZ_ptr_len s ltac:(lia)). pose proof (showZ_len31 _ B2). lia.
  - repeat constructor.
  - discriminate.
  - repeat constructor; unfold is_int32; lia.
  - intros data n idx ex C. cbn [app ptr_params map] in C. unfold parse186. do 3 int_step C. cbn [Z.to_nat parse_pairs pbind].
    rewrite B3. eexists. eexists. eexists. split; [reflexivity|]. auto.
Qed.

Lemma round510 s o l extras k seq pd rd : settings_ok pd rd seq k extras -> any_ptr s = true -> l <> [] ->
  Forall (fun v => any_ptr v = true) l -> room k (Z.of_nat (length l)) 0 extras ->
  round_trip (format510 (mkFace (Some s) o l) extras [] k seq pd rd) (fun n f => readPD510 seq k n pd rd f)
    seq k (extras_ptrs extras) (fun b => b = mkFace (Some s) o l).
Proof.
  intros S Os NE F RM. pose proof S as (D & Hs & Hk & _). apply any_ptr_range in Os as Os'. destruct (zb_flag o) as (B1 & B2 & B3).
  assert (HA : forall v, any_ptr v = true -> is_int32 v) by (intros v V; apply any_ptr_range in V; unfold is_int32; lia).
  destruct (ptrs_int32 _ _ HA F) as [F1 F2].
  assert (LL : 1 <= Z.of_nat (length l) <= 9999999) by (unfold room in RM; destruct l; [congruence|cbn [length] in *; lia]).
  unfold format510, readPD510. cbn [fc_surf fc_outer fc_loops]. replace (9999997 <? k) with false by (unfold room in RM; lia).
  replace (match l with [] => _ | _ :: _ => _ end) with
    (format_frame (showZ 510 ++ pd :: showZ s ++ pd :: showZ (Z.of_nat (length l)) ++ pd :: showZ (zb o) ++ [pd])
      (ints_acts l pd (fdel extras pd rd)) extras [] k seq pd rd) by (destruct l; [congruence|reflexivity]).
  apply (ints_round 510 seq k pd rd _ [PInt s; PInt (Z.of_nat (length l)); PInt (zb o)] l); auto; try lia.
  - hdr.
  - lens. pose proof (showZ_ptr_len s ltac:(lia)). pose proof (showZ_len31 _ B2).
    pose proof (showZ_ptr_len (Z.of_nat (length l)) ltac:(lia)). lia.
  - repeat constructor.
  - intros data n idx ex C. cbn [app] in C. unfold parse510. do 3 int_step C.
    rewrite Nat2Z.id. destruct (st_ints pd rd data n D any_ptr l _ _ _ C F2) as (i4 & e4 & P4 & X5). rewrite P4. cbn [pbind].
    rewrite B3. eexists. exists i4, e4. auto.
Qed.

(** ** Edge lists *)

Definition edges_params (l : list edge) : list param := ptr_params (flat_map edge_ints l).

Lemma edges_open pd rd l : delims pd rd -> Forall edge_ok l -> opens pd rd (edge_acts l pd pd) (uni 1 (edges_params l)).
Proof.
  intros D. induction 1 as [|e l [H1 H2] F IH]; [apply opens_nil|].
  assert (E : edge_acts (e :: l) pd pd = [WItem (ints_text (edge_ints e) pd pd)] ++ edge_acts l pd pd) by (destruct l; reflexivity).
  rewrite E. unfold edges_params. cbn [flat_map]. unfold ptr_params, uni. rewrite !map_app. apply opens_app; [|exact IH].
  apply opens_ints_item; auto; discriminate.
Qed.

Lemma edges_close pd rd l : delims pd rd -> Forall edge_ok l -> l <> [] -> closes pd rd (edge_acts l pd rd) (uni 1 (edges_params l)).
Proof.
  intros D. induction 1 as [|e l [H1 H2] F IH]; [congruence|]. intros _.
  unfold edges_params. cbn [flat_map]. unfold ptr_params, uni. rewrite !map_app. destruct l as [|e2 l].
  - cbn [flat_map map edge_acts]. rewrite app_nil_r. apply closes_ints_item; auto; discriminate.
  - change (edge_acts (e :: e2 :: l) pd rd) with ([WItem (ints_text (edge_ints e) pd pd)] ++ edge_acts (e2 :: l) pd rd).
    apply closes_app; [apply opens_ints_item; auto; discriminate|]. apply IH. discriminate.
Qed.

Lemma st_edges pd rd data n l : delims pd rd -> Forall edge_ok l -> forall idx eor ps,
  cursor pd rd data n idx eor (edges_params l ++ ps) ->
  exists i e, parse_edges (length l) data idx eor pd rd = POk (l, i, e) /\ cursor pd rd data n i e ps.
Proof.
  intros D. induction 1 as [|x l [H1 H2] F IH]; intros idx eor ps C.
  - exists idx, eor. split; [reflexivity|exact C].
  - cbn [length parse_edges]. unfold edges_params in C. cbn [flat_map] in C. unfold ptr_params in C. rewrite map_app, <- app_assoc in C.
    destruct (st_ints pd rd data n D (fun _ => true) (edge_ints x) _ _ _ C) as (i1 & e1 & P1 & C1).
    { eapply Forall_impl; [|exact H2]. auto. }
    change (length (edge_ints x)) with 5%nat in P1. rewrite P1. cbn [pbind].
    destruct (IH _ _ _ C1) as (i2 & e2 & P & C2). rewrite P. cbn [pbind].
    exists i2, e2. split; [|exact C2]. unfold edge_ints. destruct x as [[c|] [sv|] s [tv|] t]; try discriminate. reflexivity.
Qed.

Lemma edges_len l : Z.of_nat (length (flat_map edge_ints l)) = 5 * Z.of_nat (length l).
Proof. induction l as [|p l IH]; [reflexivity|]. cbn [flat_map]. rewrite app_length. cbn [edge_ints length]. lia. Qed.

Lemma round504 l extras k seq pd rd : settings_ok pd rd seq k extras -> l <> [] -> Forall edge_ok l ->
  room k (5 * Z.of_nat (length l)) 0 extras ->
  round_trip (format504 l extras [] k seq pd rd) (fun n f => readPD504 seq k n pd rd f)
    seq k (extras_ptrs extras) (fun l' => l' = l).
Proof.
  intros S NE F RM. pose proof S as (D & Hs & Hk & _).
  assert (LL : 1 <= Z.of_nat (length l) <= 9999999) by (unfold room in RM; destruct l; [congruence|cbn [length] in *; lia]).
  unfold format504, readPD504. replace ((k <? 1) || (9999999 <? k)) with false by (unfold room in RM; lia).
  assert (EN : existsb edge_null l = false).
  { clear -F. induction F as [|e l [H _] F IH]; [reflexivity|]. cbn [existsb]. rewrite H, IH. reflexivity. }
  rewrite EN. replace (match l with [] => _ | _ :: _ => _ end) with
    (format_frame (showZ 504 ++ pd :: showZ (Z.of_nat (length l)) ++ [pd])
      (edge_acts l pd (fdel extras pd rd)) extras [] k seq pd rd) by (destruct l; [congruence|reflexivity]).
  apply (frame_round 504 seq k pd rd _ [PInt (Z.of_nat (length l))] (fun d => edge_acts l pd d)
    (uni 1 (edges_params l)) extras); auto; try lia.
  - hdr.
  - lens. pose proof (showZ_ptr_len (Z.of_nat (length l)) ltac:(lia)). pose proof (showZ_type_len 504 ltac:(lia)). lia.
  - apply edges_open; auto.
  - apply edges_close; auto.
  - rewrite ucosts_uni. unfold edges_params. rewrite costs_ints, edges_len. unfold room in RM. lia.
  - apply no_nl_app; [repeat constructor|apply no_nl_ints].
  - intros ps' W data n idx ex C. apply uwrote_ints in W. subst ps'. cbn [app] in C. unfold parse504. int_step C.
    rewrite Nat2Z.id. destruct (st_edges pd rd data n l D F _ _ _ C) as (i2 & e2 & P & C2). exists l, i2, e2. auto.
Qed.

(** ** NURBS *)

Lemma st_points pd rd data n u pts : delims pd rd -> forall qs idx eor ps, cursor pd rd data n idx eor (qs ++ ps) ->
  Forall2 (rwrote u) (flat_map pt_reals pts) qs ->
  exists l i e, parse_points (length pts) data idx eor pd rd = POk (l, i, e) /\ Forall2 (point_close u) pts l /\
    cursor pd rd data n i e ps.
Proof.
  intros D. induction pts as [|[[x y] z] pts IH]; intros qs idx eor ps C W.
  - inversion W; subst. exists [], idx, eor. split; [reflexivity|]. split; [constructor|exact C].
  - cbn [flat_map pt_reals app] in W. inversion W as [|? p1 ? r1 W1 W']; subst. inversion W' as [|? p2 ? r2 W2 W'']; subst.
    inversion W'' as [|? p3 ? r3 W3 W4]; subst. clear W W' W''. cbn [app] in C. cbn [length parse_points].
    do 3 real_step C. destruct (IH _ _ _ _ C W4) as (l & i2 & e2 & P & Q & C2). rewrite P. cbn [pbind].
    eexists. exists i2, e2. split; [reflexivity|]. split; [|exact C2]. constructor; [|exact Q]. cbn. auto.
Qed.

Lemma st_weights pd rd data n u ws : delims pd rd -> Forall (fun w => 1 # 100000000 <= w)%Q ws ->
  forall qs idx eor ps, cursor pd rd data n idx eor (qs ++ ps) -> Forall2 (rwrote u) ws qs ->
  exists l i e, parse_weights (length ws) data idx eor pd rd = POk (l, i, e) /\ Forall2 (real_close u) ws l /\
    cursor pd rd data n i e ps.
Proof.
  intros D. induction 1 as [|w ws H F IH]; intros qs idx eor ps C W.
  - inversion W; subst. exists [], idx, eor. split; [reflexivity|]. split; [constructor|exact C].
  - inversion W as [|? p1 ? r1 W1 W']; subst. clear W. cbn [app] in C. cbn [length parse_weights].
    real_step C. destruct (close_pos_ge _ _ _ K H) as [G _].
    replace (negb (Qle_bool q 0)) with true.
    2: { destruct (Qle_bool q 0) eqn:E; [|reflexivity]. apply Qle_bool_iff in E. lra. }
    unfold guard. destruct (IH _ _ _ _ C W') as (l & i2 & e2 & P & Q & C2). rewrite P. cbn [pbind].
    eexists. exists i2, e2. split; [reflexivity|]. split; [|exact C2]. constructor; auto.
Qed.

Lemma flags_ok l : Forall (fun v => v = 0 \/ v = 1) l -> forallb flag01 l = true /\ Forall (fun v => flag01 v = true /\ is_int32 v) l.
Proof.
  intros F. split.
  - apply forallb_forall. rewrite Forall_forall in F. intros v I. destruct (F v I); subst; reflexivity.
  - eapply Forall_impl; [|exact F]. cbn. intros v [-> | ->]; split; try reflexivity; unfold is_int32; lia.
Qed.

Lemma head_open pd l : spaced_open pd (ptr_params l) (head_text l pd).
Proof.
  induction l as [|n l IH]; [constructor|]. cbn [ptr_params map head_text flat_map]. rewrite <- app_assoc. cbn [app].
  apply open_int, IH.
Qed.

Lemma head_flags_len pd l : Forall (fun v => v = 0 \/ v = 1) l -> length (head_text l pd) = (2 * length l)%nat.
Proof.
  induction 1 as [|v l H F IH]; [reflexivity|]. cbn [head_text flat_map]. rewrite app_length. unfold head_text in IH. rewrite IH.
  destruct H as [-> | ->]; cbn [length app]; rewrite app_length; change (length (showZ 0)) with 1%nat; change (length (showZ 1)) with 1%nat; cbn [length]; lia.
Qed.

Lemma repeat_ones n : Forall (fun w => 1 # 100000000 <= w)%Q (repeat 1%Q n).
Proof. apply Forall_forall. intros w I. apply repeat_spec in I. subst. discriminate. Qed.
Lemma repeat_real n : Forall real300 (repeat 1%Q n).
Proof. apply Forall_forall. intros w I. apply repeat_spec in I. subst. discriminate. Qed.

Lemma pts_len pts : length (flat_map pt_reals pts) = (3 * length pts)%nat.
Proof. induction pts as [|[[x y] z] l IH]; [reflexivity|]. cbn [flat_map pt_reals app length]. rewrite IH. lia. Qed.

Lemma round126 c i j k extras n seq pd rd : settings_ok pd rd seq n extras -> ncurve_ok c -> Forall real300 [i; j; k] ->
  room n (ncurve_size c) 0 extras ->
  round_trip (format126 c i j k extras [] n seq pd rd) (fun m f => readPD126 seq n m pd rd f)
    seq n (extras_ptrs extras)
    (fun a => ncurve_close c (fst a) /\
       if nth 0 (n_props c) 0 =? 1 then direction_close nurbs_res i j k (snd a) else snd a = Exact 0 0 1).
Proof.
  intros S [OK OM OP OF OKn OPt OW OR] FN RM. pose proof S as (D & Hs & Hk & _).
  destruct (flags_ok _ OF) as [FB F2]. apply Forall_app in OR. destruct OR as [R1 OR]. apply Forall_app in OR. destruct OR as [R2 OR].
  apply Forall_app in OR. destruct OR as [R3 R4].
  set (ws := if rational (n_props c) then n_wts c else repeat 1%Q (length (n_pts c))).
  assert (WL : length ws = length (n_pts c)).
  { unfold ws, rational. destruct (_ =? 0); [apply OW|apply repeat_length]. }
  assert (WP : Forall (fun w => 1 # 100000000 <= w)%Q ws).
  { unfold ws, rational. destruct (_ =? 0); [apply OW|apply repeat_ones]. }
  assert (WR : Forall real300 ws).
  { unfold ws, rational. destruct (_ =? 0); [exact R2|apply repeat_real]. }
  unfold ncurve_size, room in RM.
  unfold format126, readPD126.
  replace ((n_K c <? 1) || _ || _ || _ || _) with false by (rewrite FB; cbn [negb]; lia).
  fold ws.
  assert (FL : Forall real300 [n_v0 c; n_v1 c; i; j; k]).
  { inversion R4 as [|? ? A1 A2]; subst. inversion A2; subst. constructor; auto. }
  apply (frame_round 126 seq n pd rd (head_text (n_K c :: n_M c :: n_props c) pd) (ptr_params (n_K c :: n_M c :: n_props c))
    (fun d => reals_acts nurbs_res (n_knots c) pd pd ++ reals_acts weight_res ws pd pd ++
              reals_acts nurbs_res (flat_map pt_reals (n_pts c)) pd pd ++ reals_acts nurbs_res [n_v0 c; n_v1 c; i; j; k] pd d)
    (uni nurbs_res (map PReal (n_knots c)) ++ uni weight_res (map PReal ws) ++
     uni nurbs_res (map PReal (flat_map pt_reals (n_pts c))) ++ uni nurbs_res (map PReal [n_v0 c; n_v1 c; i; j; k])) extras); auto; try lia.
  - apply head_open.
  - lens. pose proof (showZ_type_len 126 ltac:(lia)). change (head_text (n_K c :: n_M c :: n_props c) pd) with
      ((showZ (n_K c) ++ [pd]) ++ (showZ (n_M c) ++ [pd]) ++ head_text (n_props c) pd). lens.
    rewrite head_flags_len by exact OF. rewrite OP. pose proof (showZ_ptr_len (n_K c) ltac:(lia)). pose proof (showZ_ptr_len (n_M c) ltac:(lia)). lia.
  - repeat apply opens_app; apply opens_reals; auto; reflexivity.
  - repeat (apply closes_app; [apply opens_reals; auto; reflexivity|]). apply closes_reals; auto; [reflexivity|discriminate].
  - rewrite !ucosts_app, !ucosts_uni, !costs_reals, WL, pts_len. cbn [length]. lia.
  - apply no_nl_app; [apply Forall_map, Forall_forall; cbn; auto|]. rewrite !map_app.
    repeat apply no_nl_app; apply no_nl_reals.
  - intros ps' W data m idx ex C.
    apply uwrote_app in W. destruct W as (p1 & p' & -> & W1 & W). apply uwrote_app in W. destruct W as (p2 & p'' & -> & W2 & W).
    apply uwrote_app in W. destruct W as (p3 & p4 & -> & W3 & W4). apply uwrote_reals in W1, W2, W3, W4.
    rewrite <- !app_assoc in C. change (ptr_params (n_K c :: n_M c :: n_props c)) with (ptr_params [n_K c; n_M c] ++ ptr_params (n_props c)) in C.
    rewrite <- app_assoc in C. unfold parse126.
    destruct (st_ints pd rd data m D (fun n => 1 <=? n) [n_K c; n_M c] _ _ _ C) as (i1 & e1 & P1 & C1).
    { repeat constructor; unfold is_int32; lia. }
    change (length [n_K c; n_M c]) with 2%nat in P1. rewrite P1. cbn [pbind]. clear C P1.
    destruct (st_ints pd rd data m D flag01 (n_props c) _ _ _ C1 F2) as (i2 & e2 & P2 & C2). rewrite OP in P2. rewrite P2. cbn [pbind]. clear C1 P2.
    replace (int_max <? 2 + n_K c + n_M c) with false by (unfold int_max; lia).
    destruct (st_reals pd rd data m D nurbs_res (n_knots c) p1 _ _ _ C2 W1) as (l3 & i3 & e3 & P3 & Q3 & C3).
    replace (Z.to_nat (2 + n_K c + n_M c)) with (length (n_knots c)) by lia. rewrite P3. cbn [pbind]. clear P3 C2.
    replace (Z.to_nat (n_K c + 1)) with (length (n_pts c)) by lia.
    destruct (st_weights pd rd data m weight_res ws D WP p2 _ _ _ C3 W2) as (l4 & i4 & e4 & P4 & Q4 & C4). rewrite WL in P4.
    rewrite P4. cbn [pbind]. clear P4 C3.
    destruct (st_points pd rd data m nurbs_res (n_pts c) D p3 _ _ _ C4 W3) as (l5 & i5 & e5 & P5 & Q5 & C5).
    rewrite P5. cbn [pbind]. clear P5 C4.
    inv2. cbn [app] in C5. cbn [parse_reals]. real_step C5. real_step C5. unfold curve_normal.
    pose proof (cursor_open _ _ _ _ _ _ _ _ C5) as ->. cbn [parse_points]. do 3 real_step C5. cbn [last].
    eexists. eexists. eexists. split; [reflexivity|]. split; [|exact C5]. cbn [fst snd].
    split.
    + unfold ncurve_close. cbn [n_K n_M n_props n_knots n_wts n_pts n_v0 n_v1]. do 4 (split; [auto; fail|]).
      split; [|split; [assumption|close2]].
      revert Q4. unfold ws, rational. destruct (nth 2 (n_props c) 0 =? 0); [auto|]. rewrite OW. constructor.
    + destruct (nth 0 (n_props c) 0 =? 1); [|reflexivity]. eexists _, _, _. split; [|apply CheckNormal_spec]. close2.
Qed.

Lemma round128 s extras n seq pd rd : settings_ok pd rd seq n extras -> nsurf_ok s ->
  room n (nsurf_size s) 0 extras ->
  round_trip (format128 s extras [] n seq pd rd) (fun m f => readPD128 seq n m pd rd f)
    seq n (extras_ptrs extras) (nsurf_close s).
Proof.
  intros S [OK1 OK2 OM1 OM2 OP OF OKn1 OKn2 OPt OW OR] RM. pose proof S as (D & Hs & Hk & _).
  destruct (flags_ok _ OF) as [FB F2]. apply Forall_app in OR. destruct OR as [R1 OR]. apply Forall_app in OR. destruct OR as [R1b OR].
  apply Forall_app in OR. destruct OR as [R2 OR]. apply Forall_app in OR. destruct OR as [R3 R4].
  set (ws := if rational (s_props s) then s_wts s else repeat 1%Q (length (s_pts s))).
  set (wr := if rational (s_props s) then weight_res else color_res).
  assert (WA : (if rational (s_props s) then reals_acts weight_res (s_wts s) pd pd
      else reals_acts color_res (repeat 1%Q (length (s_pts s))) pd pd) = reals_acts wr ws pd pd).
  { unfold wr, ws. destruct (rational _); reflexivity. }
  assert (WU : (0 < wr)%Q) by (unfold wr; destruct (rational _); reflexivity).
  assert (WL : length ws = length (s_pts s)).
  { unfold ws, rational. destruct (_ =? 0); [apply OW|apply repeat_length]. }
  assert (WP : Forall (fun w => 1 # 100000000 <= w)%Q ws).
  { unfold ws, rational. destruct (_ =? 0); [apply OW|apply repeat_ones]. }
  assert (WR : Forall real300 ws).
  { unfold ws, rational. destruct (_ =? 0); [exact R2|apply repeat_real]. }
  unfold nsurf_size, room in RM.
  unfold format128, readPD128.
  replace ((s_K1 s <? 1) || _ || _ || _ || _ || _ || _ || _) with false.
  2: { rewrite FB. cbn [negb]. replace ((s_K1 s + 1) * (s_K2 s + 1) =? Z.of_nat (length (s_pts s))) with true by (symmetry; apply Z.eqb_eq; auto).
       clear OPt. lia. }
  rewrite WA.
  apply (frame_round 128 seq n pd rd (head_text (s_K1 s :: s_K2 s :: s_M1 s :: s_M2 s :: s_props s) pd)
    (ptr_params (s_K1 s :: s_K2 s :: s_M1 s :: s_M2 s :: s_props s))
    (fun d => reals_acts surf_res (s_knots1 s) pd pd ++ reals_acts surf_res (s_knots2 s) pd pd ++ reals_acts wr ws pd pd ++
              reals_acts surf_res (flat_map pt_reals (s_pts s)) pd pd ++ reals_acts surf_res [s_u0 s; s_u1 s; s_v0 s; s_v1 s] pd d)
    (uni surf_res (map PReal (s_knots1 s)) ++ uni surf_res (map PReal (s_knots2 s)) ++ uni wr (map PReal ws) ++
     uni surf_res (map PReal (flat_map pt_reals (s_pts s))) ++ uni surf_res (map PReal [s_u0 s; s_u1 s; s_v0 s; s_v1 s])) extras); auto; try lia.
  - apply head_open.
  - change (head_text (s_K1 s :: s_K2 s :: s_M1 s :: s_M2 s :: s_props s) pd) with
      ((showZ (s_K1 s) ++ [pd]) ++ (showZ (s_K2 s) ++ [pd]) ++ (showZ (s_M1 s) ++ [pd]) ++ (showZ (s_M2 s) ++ [pd]) ++ head_text (s_props s) pd).
    lens. pose proof (showZ_type_len 128 ltac:(lia)).
    rewrite head_flags_len by exact OF. rewrite OP. clear OPt. pose proof (showZ_ptr_len (s_K1 s) ltac:(lia)). pose proof (showZ_ptr_len (s_M1 s) ltac:(lia)).
    pose proof (showZ_ptr_len (s_K2 s) ltac:(lia)). pose proof (showZ_ptr_len (s_M2 s) ltac:(lia)). lia.
  - repeat apply opens_app; apply opens_reals; auto; reflexivity.
  - repeat (apply closes_app; [apply opens_reals; auto; reflexivity|]). apply closes_reals; auto; [reflexivity|discriminate].
  - rewrite !ucosts_app, !ucosts_uni, !costs_reals, WL, pts_len. cbn [length]. clear OPt. lia.
  - apply no_nl_app; [apply Forall_map, Forall_forall; cbn; auto|]. rewrite !map_app.
    repeat apply no_nl_app; apply no_nl_reals.
  - intros ps' W data m idx ex C.
    apply uwrote_app in W. destruct W as (p1 & p' & -> & W1 & W). apply uwrote_app in W. destruct W as (p1b & pb & -> & W1b & W).
    apply uwrote_app in W. destruct W as (p2 & p'' & -> & W2 & W).
    apply uwrote_app in W. destruct W as (p3 & p4 & -> & W3 & W4). apply uwrote_reals in W1, W1b, W2, W3, W4.
    rewrite <- !app_assoc in C.
    change (ptr_params (s_K1 s :: s_K2 s :: s_M1 s :: s_M2 s :: s_props s)) with (ptr_params [s_K1 s; s_K2 s; s_M1 s; s_M2 s] ++ ptr_params (s_props s)) in C.
    rewrite <- app_assoc in C. unfold parse128.
    destruct (st_ints pd rd data m D (fun n => 1 <=? n) [s_K1 s; s_K2 s; s_M1 s; s_M2 s] _ _ _ C) as (i1 & e1 & P1 & C1).
    { clear OPt. repeat constructor; unfold is_int32; lia. }
    change (length [s_K1 s; s_K2 s; s_M1 s; s_M2 s]) with 4%nat in P1. rewrite P1. cbn [pbind]. clear C P1.
    destruct (st_ints pd rd data m D flag01 (s_props s) _ _ _ C1 F2) as (i2 & e2 & P2 & C2). rewrite OP in P2. rewrite P2. cbn [pbind]. clear C1 P2.
    unfold sizes_ok. rewrite <- OPt.
    replace ((2 + s_K1 s + s_M1 s <=? int_max) && (2 + s_K2 s + s_M2 s <=? int_max) && (4 * Z.of_nat (length (s_pts s)) <=? int_max)) with true
      by (unfold int_max; clear OPt; lia).
    unfold parse128b. rewrite <- OPt, Nat2Z.id.
    destruct (st_reals pd rd data m D surf_res (s_knots1 s) p1 _ _ _ C2 W1) as (l3 & i3 & e3 & P3 & Q3 & C3).
    replace (Z.to_nat (2 + s_K1 s + s_M1 s)) with (length (s_knots1 s)) by (clear OPt; lia). rewrite P3. cbn [pbind]. clear P3 C2.
    destruct (st_reals pd rd data m D surf_res (s_knots2 s) p1b _ _ _ C3 W1b) as (l3b & i3b & e3b & P3 & Q3b & C3b).
    replace (Z.to_nat (2 + s_K2 s + s_M2 s)) with (length (s_knots2 s)) by (clear OPt; lia). rewrite P3. cbn [pbind]. clear P3 C3.
    destruct (st_weights pd rd data m wr ws D WP p2 _ _ _ C3b W2) as (l4 & i4 & e4 & P4 & Q4 & C4). rewrite WL in P4.
    rewrite P4. cbn [pbind]. clear P4 C3b.
    destruct (st_points pd rd data m surf_res (s_pts s) D p3 _ _ _ C4 W3) as (l5 & i5 & e5 & P5 & Q5 & C5).
    rewrite P5. cbn [pbind]. clear P5 C4.
    inv2. cbn [app] in C5. cbn [parse_reals]. do 4 real_step C5.
    eexists. eexists. eexists. split; [reflexivity|]. split; [|exact C5].
    unfold nsurf_close. cbn [s_K1 s_K2 s_M1 s_M2 s_props s_knots1 s_knots2 s_wts s_pts s_u0 s_u1 s_v0 s_v1]. do 7 (split; [auto; fail|]).
    split; [|split; [assumption|close2]].
    revert Q4. unfold wr, ws, rational. destruct (nth 2 (s_props s) 0 =? 0); [auto|]. rewrite OW. constructor.
Qed.
