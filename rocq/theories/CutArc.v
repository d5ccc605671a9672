(** An arc with a circle or another arc. *)

From Coq Require Import Reals Lra Psatz List Bool ZArith Lia.
From Verif Require Import SegModel SegSpec SegTrig SegFacts SegBox SegSplit SegSplitArc CutModel CutSpec CutFacts CutCircle.
Import ListNotations.
Open Scope R_scope.

(* an arc or a circle as SetParams makes it *)
Lemma round_facts s : round_ok s -> 0 < s_rad s /\ - PI < start_angle s <= PI /\ start_angle s < end_angle s <= start_angle s + 2 * PI /\ in_plane (s_cen s) /\
  (s_ty s = SArc \/ s_ty s = SCircle) /\ (s_ty s = SCircle -> start_angle s = 0 /\ end_angle s = 2 * PI) /\ (s_ty s = SArc -> end_angle s < start_angle s + 2 * PI).
Proof.
  pose proof PI_RGT_0 as P. intros [(T & R & A & B & C & Z)|((d & T & R & A0 & A1 & L & L2 & _) & Q & Z)].
  - assert (start_angle s = 0 /\ end_angle s = 2 * PI) as [E F] by (unfold start_angle, end_angle; rewrite C; auto).
    rewrite E, F. split; [exact R|]. split; [lra|]. split; [lra|]. split; [exact Z|]. split; [now right|]. split; [auto|]. rewrite T. discriminate.
  - split; [exact R|]. split; [lra|]. split; [lra|]. split; [exact Z|]. split; [now left|]. split; [rewrite T; discriminate|]. intros _. lra.
Qed.

Definition lift (a b : R) : R := if ltb b a then b + 2 * PI else b.

Lemma turn_to_lift c a p w : - PI < a <= PI -> turn_to c a p w -> w = lift a (atan2 (py p - py c) (px p - px c)).
Proof.
  intros A (W & r & R & O). pose proof two_pi as T. pose proof (atan2_range (py p - py c) (px p - px c)) as B.
  destruct (on_round_atan2 c r w p R O) as (k & K). unfold lift. set (b := atan2 _ _) in *.
  assert (IZR (-1) < IZR k) as K0 by (apply (Rmult_lt_reg_l (2 * PI)); [lra|]; change (IZR (-1)) with (-1); lra).
  assert (IZR k < IZR 2) as K1 by (apply (Rmult_lt_reg_l (2 * PI)); [lra|]; change (IZR 2) with 2; lra).
  apply lt_IZR in K0. apply lt_IZR in K1.
  destruct (ltb b a) eqn:E; [apply ltb_true in E|apply ltb_false in E]; assert (k = 0 \/ k = 1)%Z as [-> | ->] by lia; rewrite K; try ring; exfalso; lra.
Qed.

Lemma within_arc_spec c r p b0 b1 : - PI < b0 <= PI -> b0 < b1 <= b0 + 2 * PI -> 0 < r -> dist p c = r ->
  within_arc (atan2 (py p - py c) (px p - px c)) b0 b1 = true <-> exists w, b0 <= w <= b1 /\ on_round c r w p.
Proof.
  intros B0 B1 R D. pose proof two_pi as T. destruct (direction c p ltac:(lra)) as [X Y]. rewrite D in X, Y.
  pose proof (atan2_range (py p - py c) (px p - px c)) as B. set (b := atan2 _ _) in *.
  assert (O : on_round c r b p) by (split; assumption).
  assert (O1 : on_round c r (b + 2 * PI) p) by (replace (b + 2 * PI) with (b + 2 * PI * IZR 1) by ring; now apply on_round_turns).
  unfold within_arc, ltb, leb. split.
  - intro H. destruct (Rlt_dec b1 b).
    + destruct (Rlt_dec (b - 2 * PI) b0); [|lra]. destruct (Rle_dec (b - 2 * PI + 2 * PI) b1); [lra|discriminate].
    + destruct (Rlt_dec b b0).
      * destruct (Rle_dec (b + 2 * PI) b1); [|discriminate]. exists (b + 2 * PI). split; [lra|exact O1].
      * exists b. split; [lra|exact O].
  - intros (w & W & Q). destruct (on_round_atan2 c r w p R Q) as (k & K). fold b in K.
    assert (IZR (-1) < IZR k) as K0 by (apply (Rmult_lt_reg_l (2 * PI)); [lra|]; change (IZR (-1)) with (-1); lra).
    assert (IZR k < IZR 3) as K1 by (apply (Rmult_lt_reg_l (2 * PI)); [lra|]; change (IZR 3) with 3; lra).
    apply lt_IZR in K0. apply lt_IZR in K1. assert (k = 0 \/ k = 1 \/ k = 2)%Z as [-> |[-> | ->]] by lia.
    + destruct (Rlt_dec b1 b); [lra|]. destruct (Rlt_dec b b0); [lra|]. destruct (Rle_dec b b1); [reflexivity|lra].
    + destruct (Rlt_dec b1 b).
      * destruct (Rlt_dec (b - 2 * PI) b0); [|lra]. destruct (Rle_dec (b - 2 * PI + 2 * PI) b1); [reflexivity|lra].
      * destruct (Rlt_dec b b0); [destruct (Rle_dec (b + 2 * PI) b1); [reflexivity|lra]|destruct (Rle_dec b b1); [reflexivity|lra]].
    + exfalso. change (IZR 2) with 2 in K. lra.
Qed.

(* both ends of two arcs in the same places *)
Lemma ends_test s o :
  (point_matches (get_start s) (get_start o) e3 && point_matches (get_end s) (get_end o) e3)
  || (point_matches (get_start s) (get_end o) e3 && point_matches (get_end s) (get_start o) e3) = true <-> ends_match s o.
Proof. rewrite orb_true_iff, !andb_true_iff, !point_matches_spec. reflexivity. Qed.

Lemma ty_round s : round_ok s -> segty_eqb (s_ty s) SCircle = negb (segty_eqb (s_ty s) SArc).
Proof. intro O. destruct (round_facts s O) as (_ & _ & _ & _ & [-> | ->] & _); reflexivity. Qed.

Lemma arcs_reduce s o : round_ok s -> round_ok o -> (s_ty s = SArc \/ s_ty o = SArc) -> intersections s o = check_arcs s o.
Proof.
  intros A B H. destruct (round_facts s A) as (_ & _ & _ & _ & TA & _). destruct (round_facts o B) as (_ & _ & _ & _ & TB & _).
  unfold intersections. destruct TA as [E|E]; destruct TB as [F|F]; rewrite E, F; try reflexivity. rewrite E, F in H. destruct H; discriminate.
Qed.

Lemma arcs_apart s o : round_ok s -> round_ok o -> (s_ty s = SArc \/ s_ty o = SArc) ->
  let d := dist (s_cen s) (s_cen o) in
  (s_rad s + s_rad o < d \/ d + s_rad o < s_rad s \/ d + s_rad s < s_rad o) -> intersections s o = nothing INone /\ forall p, ~ common s o p.
Proof.
  intros A B H d L. rewrite arcs_reduce by assumption. unfold check_arcs. cbv zeta. rewrite centre_gap_dist. fold d. split.
  - assert (E : ltb (s_rad s + s_rad o) d || ltb (d + s_rad o) (s_rad s) || ltb (d + s_rad s) (s_rad o) = true).
    { rewrite !orb_true_iff, !ltb_true. lra. }
    now rewrite E.
  - intros p [P Q].
    assert (G : forall x, round_ok x -> covers x p -> dist p (s_cen x) = s_rad x).
    { intros x X C. destruct (round_facts x X) as (R & _ & _ & _ & T & _). unfold covers in C. destruct T as [T|T]; rewrite T in C.
      - destruct C as (w & _ & O). apply dist2_sq_dist; [lra|]. rewrite (on_round_dist _ _ _ _ O). ring.
      - apply dist2_sq_dist; [lra|exact C]. }
    pose proof (G s A P) as G1. pose proof (G o B Q) as G2.
    pose proof (dist_tri (s_cen s) p (s_cen o)) as T1. pose proof (dist_tri p (s_cen o) (s_cen s)) as T2. pose proof (dist_tri p (s_cen s) (s_cen o)) as T3.
    rewrite (dist_sym (s_cen s) p) in T1. rewrite (dist_sym (s_cen o) (s_cen s)) in T2. fold d in T1, T2, T3. lra.
Qed.

Lemma arcs_points s o : round_ok s -> round_ok o -> (s_ty s = SArc \/ s_ty o = SArc) -> clear s o ->
  (s_ty s = SArc -> s_ty o = SArc -> ~ ends_match s o) ->
  let d := dist (s_cen s) (s_cen o) in
  s_rad s < d + s_rad o -> s_rad o < d + s_rad s ->
  exists l, lists l (seen s o) /\ (length l <= 2)%nat /\
    intersections s o = (match l with [] => nothing INone | _ => found l INone end) /\
    (forall p q, l = [p; q] -> before (s_cen s) (start_angle s) p q).
Proof.
  intros A B H (Cd & Ct & Ca & C1 & C2) E d S1 S2. rewrite arcs_reduce by assumption.
  destruct (round_facts s A) as (R & SA & LA & ZA & TA & FA & GA). destruct (round_facts o B) as (R2 & SB & LB & ZB & TB & FB & GB).
  assert (Dp : 0 <= d) by apply dist_pos.
  assert (D0 : 0 < d).
  { destruct (Rle_lt_or_eq_dec _ _ Dp) as [X|X]; [exact X|]. exfalso. fold d in C1, C2. apply Ca. split.
    - left. rewrite gap2_flat by assumption. rewrite <- dist_sq. fold d. rewrite <- X. unfold e3. lra.
    - replace (s_rad s - s_rad o) with 0 by lra. rewrite Rabs_R0. unfold e3. lra. }
  assert (Sl : d < s_rad s + s_rad o).
  { destruct (Rle_lt_or_eq_dec _ _ Cd) as [X|X]; [exact X|]. exfalso. apply Ct. unfold touching. fold d in X. fold d. rewrite X. replace (s_rad s + s_rad o - s_rad s - s_rad o) with 0 by ring. rewrite Rabs_R0. unfold e3. lra. }
  unfold check_arcs. cbv zeta. rewrite centre_gap_dist. fold d.
  rewrite (ltb_f (s_rad s + s_rad o)), (ltb_f (d + s_rad o)), (ltb_f (d + s_rad s)) by lra. cbn [orb].
  rewrite (ltb_f (Rabs (d - s_rad s - s_rad o))) by (unfold touching in Ct; fold d in Ct; lra).
  assert (NA : point_matches (s_cen s) (s_cen o) e3 && ltb (Rabs (s_rad s - s_rad o)) e3 = false).
  { destruct (_ && _) eqn:Q; [|reflexivity]. apply alike_test in Q. contradiction. }
  rewrite NA.
  assert (NE : segty_eqb (s_ty s) SArc && segty_eqb (s_ty o) SArc &&
     (point_matches (get_start s) (get_start o) e3 && point_matches (get_end s) (get_end o) e3
      || point_matches (get_start s) (get_end o) e3 && point_matches (get_end s) (get_start o) e3) = false).
  { destruct TA as [TA|TA]; rewrite TA; [|reflexivity]. destruct TB as [TB|TB]; rewrite TB; [|reflexivity]. cbn [segty_eqb andb].
    destruct (_ || _) eqn:Q; [|reflexivity]. apply ends_test in Q. now destruct (E TA TB). }
  rewrite NE. clear NE NA.
  destruct (circle_points_spec s (s_cen o) (s_rad o) D0 R R2 Cd C1 C2) as (p & q & EQ & _ & _ & All & Ord & Ap).
  fold d in EQ, Ap. specialize (Ap Sl S1 S2). rewrite EQ. cbv beta iota.
  set (x0 := atan2 (py p - py (s_cen s)) (px p - px (s_cen s))). set (x1 := atan2 (py q - py (s_cen s)) (px q - px (s_cen s))).
  assert (Dd : forall v, same_place v p \/ same_place v q -> dist v (s_cen s) = s_rad s /\ dist v (s_cen o) = s_rad o).
  { intros v V. apply All in V. destruct V as [V W]. split; apply dist2_sq_dist; try lra; assumption. }
  destruct (Dd p ltac:(left; split; reflexivity)) as [Dp1 Dp2]. destruct (Dd q ltac:(right; split; reflexivity)) as [Dq1 Dq2].
  assert (On : forall v, dist v (s_cen s) = s_rad s -> dist v (s_cen o) = s_rad o ->
    (segty_eqb (s_ty o) SCircle || within_arc (atan2 (py v - py (s_cen s)) (px v - px (s_cen s))) (start_angle o) (end_angle o)) &&
    (segty_eqb (s_ty s) SCircle || within_arc (atan2 (py v - py (s_cen s)) (px v - px (s_cen s))) (start_angle s) (end_angle s)) = true <-> seen s o v).
  { intros v V1 V2. rewrite andb_true_iff, !orb_true_iff. rewrite !(within_arc_spec (s_cen s) (s_rad s) v) by (try assumption; lra).
    unfold seen. split.
    - intros [X Y]. split; [exact V1|]. split; [exact V2|]. split; intro T.
      + apply covers_arc; [exact T|]. destruct Y as [Y|Y]; [rewrite T in Y; discriminate|exact Y].
      + destruct X as [X|X]; [rewrite T in X; discriminate|exact X].
    - intros (_ & _ & X & Y). split.
      + destruct TB as [TB|TB]; [right; now apply Y|left; now rewrite TB].
      + destruct TA as [TA|TA]; [right; apply covers_arc; [exact TA|now apply X]|left; now rewrite TA]. }
  pose proof (On p Dp1 Dp2) as Op. pose proof (On q Dq1 Dq2) as Oq. fold x0 in Op. fold x1 in Oq.
  assert (Any : forall v, seen s o v -> same_place v p \/ same_place v q).
  { intros v (V & W & _). apply All. split; apply dist2_sq_dist; try lra; assumption. }
  assert (Tr : forall v w, same_place v w -> seen s o v -> seen s o w).
  { intros v w [X Y] (V1 & V2 & V3 & V4). unfold seen, dist, dist2, covers, on_round in *. rewrite <- X, <- Y. split; [exact V1|]. split; [exact V2|]. split; [|exact V4].
    intro T. specialize (V3 T). rewrite T in *. exact V3. }
  set (b0 := (segty_eqb (s_ty o) SCircle || within_arc x0 (start_angle o) (end_angle o)) && (segty_eqb (s_ty s) SCircle || within_arc x0 (start_angle s) (end_angle s))) in *.
  set (b1 := (segty_eqb (s_ty o) SCircle || within_arc x1 (start_angle o) (end_angle o)) && (segty_eqb (s_ty s) SCircle || within_arc x1 (start_angle s) (end_angle s))) in *.
  pose proof two_pi as TP.
  assert (Fit : forall v, dist v (s_cen s) = s_rad s -> seen s o v ->
    let x := atan2 (py v - py (s_cen s)) (px v - px (s_cen s)) in
    let u := if ltb x (start_angle s) then x + 2 * PI else x in
    (if ltb u (start_angle s) then u + 2 * PI else if ltb (end_angle s) u then u - 2 * PI else u) = lift (start_angle s) x /\
    turn_to (s_cen s) (start_angle s) v (lift (start_angle s) x)).
  { intros v V (_ & _ & SV & _). cbv zeta. pose proof (atan2_range (py v - py (s_cen s)) (px v - px (s_cen s))) as Bx.
    destruct (turn_to_exists (s_cen s) (start_angle s) v ltac:(lra)) as (t & Ht). pose proof (turn_to_lift _ _ _ _ SA Ht) as Et.
    set (x := atan2 (py v - py (s_cen s)) (px v - px (s_cen s))) in *. rewrite Et in Ht. split; [|exact Ht]. unfold lift in *. set (u := if ltb x (start_angle s) then x + 2 * PI else x) in *.
    destruct Ht as ((L1 & L2) & _). rewrite (ltb_f u) by lra. rewrite ltb_f; [reflexivity|].
    destruct TA as [TA|TA].
    - specialize (SV TA). apply covers_arc in SV; [|exact TA]. destruct SV as (w & W & O).
      assert (TW : turn_to (s_cen s) (start_angle s) v w) by (specialize (GA TA); split; [lra|exists (s_rad s); split; [exact R|exact O]]).
      pose proof (turn_to_lift _ _ _ _ SA TW) as E2. unfold lift in E2. fold x in E2. fold u in E2. lra.
    - destruct (FA TA) as [F1 F2]. rewrite F2. rewrite F1 in L2. lra. }
  destruct b0 eqn:E0; destruct b1 eqn:E1.
  - pose proof (proj1 Op eq_refl) as Sp. pose proof (proj1 Oq eq_refl) as Sq.
    destruct (Fit p Dp1 Sp) as [F1 T1]. destruct (Fit q Dq1 Sq) as [F2 T2]. fold x0 in F1, T1. fold x1 in F2, T2. cbv zeta in F1, F2. rewrite F1, F2.
    assert (Dist2 : dist2 p (s_cen s) = s_rad s ^ 2 /\ dist2 q (s_cen s) = s_rad s ^ 2) by (split; apply dist2_sq_dist; lra || assumption).
    destruct Dist2 as [G1 G2].
    assert (Ap' : ~ same_place q p) by (intros [X Y]; apply Ap; split; auto).
    destruct (ltb (lift (start_angle s) x1) (lift (start_angle s) x0)) eqn:L; [apply ltb_true in L|apply ltb_false in L].
    + exists [q; p]. split; [apply lists_two; try assumption; intros v V; destruct (Any v V); auto|]. split; [cbn; lia|]. split; [reflexivity|].
      intros ? ? X. injection X as <- <-. exists (lift (start_angle s) x1), (lift (start_angle s) x0). auto.
    + exists [p; q]. split; [apply lists_two; try assumption; intros v V; destruct (Any v V); auto|]. split; [cbn; lia|]. split; [reflexivity|].
      intros ? ? X. injection X as <- <-. exists (lift (start_angle s) x0), (lift (start_angle s) x1). split; [exact T1|]. split; [exact T2|].
      apply (strictly_before (s_cen s) (s_rad s) (start_angle s) p q _ _ R G1 G2 Ap T1 T2 L).
  - exists [p]. pose proof (proj1 Op eq_refl) as Sp. split.
    + apply lists_one; [exact Sp|]. intros v V. destruct (Any v V) as [X|X]; [exact X|]. apply (Tr v q X) in V. apply Oq in V. discriminate.
    + split; [cbn; lia|]. split; [reflexivity|]. discriminate.
  - exists [q]. pose proof (proj1 Oq eq_refl) as Sq. split.
    + apply lists_one; [exact Sq|]. intros v V. destruct (Any v V) as [X|X]; [|exact X]. apply (Tr v p X) in V. apply Op in V. discriminate.
    + split; [cbn; lia|]. split; [reflexivity|]. discriminate.
  - exists []. split.
    + apply lists_none. intros v V. destruct (Any v V) as [X|X]; [apply (Tr v p X) in V; apply Op in V|apply (Tr v q X) in V; apply Oq in V]; discriminate.
    + split; [cbn; lia|]. split; [reflexivity|]. discriminate.
Qed.

(* with a circle as the second the points seen are the common ones *)
Lemma seen_common s o p : arc_ok s -> full_circle o -> seen s o p <-> common s o p.
Proof.
  intros A O. destruct (round_facts s (or_intror A)) as (R & _). pose proof A as ((d & T & _) & _). pose proof O as (T2 & R2 & _).
  unfold seen, common. split.
  - intros (D1 & D2 & C & _). split; [now apply C|]. now apply covers_circle.
  - intros [C D]. apply covers_circle in D; try assumption. pose proof C as C'. apply covers_arc in C'; [|exact T]. destruct C' as (w & _ & X).
    split; [apply dist2_sq_dist; [lra|]; rewrite (on_round_dist _ _ _ _ X); ring|]. split; [exact D|]. split; [auto|]. rewrite T2. discriminate.
Qed.
