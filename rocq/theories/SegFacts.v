(** Facts about matching points and setting parameters. *)

From Coq Require Import Reals Lra Psatz List Bool ZArith Lia.
From Verif Require Import SegModel SegSpec SegTrig.
Import ListNotations.
Open Scope R_scope.

Lemma gap2_pos p q : 0 <= gap2 p q.
Proof. unfold gap2. pose proof (pow2_ge_0 (px p - px q)). pose proof (pow2_ge_0 (py p - py q)). pose proof (pow2_ge_0 (pz p - pz q)). lra. Qed.
Lemma dist2_pos p q : 0 <= dist2 p q.
Proof. unfold dist2. pose proof (pow2_ge_0 (px p - px q)). pose proof (pow2_ge_0 (py p - py q)). lra. Qed.
Lemma norm2_gap p : norm2 p = gap2 p origin. Proof. unfold norm2, gap2, origin; cbn [px py pz]. ring. Qed.
Lemma gap2_sym p q : gap2 p q = gap2 q p. Proof. unfold gap2. ring. Qed.
Lemma gap2_refl p : gap2 p p = 0. Proof. unfold gap2. ring. Qed.

Lemma point_matches_spec p q res : point_matches p q res = true <-> one_point p q res.
Proof.
  unfold point_matches. rewrite !norm2_gap. pose proof (gap2_pos p origin) as P. pose proof (gap2_pos q origin) as Q.
  rewrite !Rabs_pos_eq by assumption. set (A := gap2 p origin) in *. set (B := gap2 q origin) in *.
  rewrite negb_true_iff. pose proof (gap2_pos p q) as G.
  assert (FarA : far p <-> 10^15 < A) by reflexivity. assert (FarB : far q <-> 10^15 < B) by reflexivity.
  destruct (ltb (10^15) A || ltb (10^15) B) eqn:E.
  - assert (F : far p \/ far q).
    { apply orb_true_iff in E. rewrite !ltb_true in E. tauto. }
    set (M := Rmax A B). assert (M0 : 10^15 < M).
    { unfold M. destruct F as [F|F]; [change (10^15 < A) in F; pose proof (Rmax_l A B)|change (10^15 < B) in F; pose proof (Rmax_r A B)]; lra. }
    set (k := 1 / sqrt M). assert (K : k * k * M = 1).
    { unfold k. replace (1 / sqrt M * (1 / sqrt M) * M) with (M / (sqrt M * sqrt M)).
      - rewrite sqrt_sqrt by lra. field. lra.
      - field. intro Z. apply sqrt_eq_0 in Z; lra. }
    unfold scale_pt. cbn [px py pz].
    replace ((px q * k - px p * k) * (px q * k - px p * k) + (py q * k - py p * k) * (py q * k - py p * k) +
             (pz q * k - pz p * k) * (pz q * k - pz p * k)) with (k * k * gap2 p q) by (unfold gap2; ring).
    replace (res * k * (30001 / 10000 * (res * k))) with (k * k * (30001 / 10000 * res^2)) by ring.
    assert (KP : 0 < k * k) by nra.
    unfold one_point. fold A B M.
    assert (Sc : forall u v, k * k * u <= k * k * v <-> u <= v) by (intros; split; intro; nra).
    assert (Sm : forall u, k * k * u <= 3 / 10^30 <-> u <= 3 / 10^30 * M).
    { intro u. rewrite <- (Sc u). replace (k * k * (3 / 10^30 * M)) with (3 / 10^30 * (k * k * M)) by ring. rewrite K. lra. }
    destruct (ltb (k * k * (30001 / 10000 * res^2)) (3 / 10^30)) eqn:L; rewrite ltb_false.
    + rewrite Sm. apply ltb_true in L. split; [tauto|]. intros [H|[H|H]]; [|tauto|tauto].
      apply Sm. apply Sc in H. lra.
    + rewrite Sc. apply ltb_false in L. split; [tauto|]. intros [H|[H|H]]; [tauto|tauto|].
      destruct H as [_ H]. apply Sm in H. apply Sc. lra.
  - apply orb_false_iff in E. rewrite !ltb_false in E.
    assert (NA : ~ far p) by (rewrite FarA; lra). assert (NB : ~ far q) by (rewrite FarB; lra).
    replace ((px q - px p) * (px q - px p) + (py q - py p) * (py q - py p) + (pz q - pz p) * (pz q - pz p)) with (gap2 p q) by (unfold gap2; ring).
    replace (res * (30001 / 10000 * res)) with (30001 / 10000 * res^2) by ring.
    unfold one_point.
    destruct (ltb (30001 / 10000 * res^2) (3 / 10^30)) eqn:L; rewrite ltb_false.
    + apply ltb_true in L. split; [tauto|]. intros [H|[H|H]]; [lra|tauto|tauto].
    + apply ltb_false in L. split; [tauto|]. intros [H|[H|H]]; [tauto|lra|tauto].
Qed.

Lemma point_matches_not p q res : point_matches p q res = false <-> ~ one_point p q res.
Proof. rewrite <- point_matches_spec. destruct (point_matches p q res); split; congruence. Qed.

Lemma one_point_refl p res : one_point p p res.
Proof. left. rewrite gap2_refl. nra. Qed.

Lemma one_point_sym p q res : one_point p q res -> one_point q p res.
Proof. unfold one_point. rewrite (gap2_sym q p), (Rmax_comm (gap2 q origin)). tauto. Qed.

(* nearer than the resolution *)
Lemma close_one_point p q res : gap2 p q <= res^2 -> one_point p q res.
Proof. intro H. left. pose proof (gap2_pos p q). nra. Qed.

Lemma gap2_flat p q : pz p = 0 -> pz q = 0 -> gap2 p q = dist2 p q.
Proof. intros H I. unfold gap2, dist2. rewrite H, I. ring. Qed.

Lemma z_test p : negb (eqb 0 (pz p)) = false <-> in_plane p.
Proof. unfold in_plane. rewrite negb_false_iff, eqb_true. split; congruence. Qed.

(** ** Lines *)

Lemma set_line_spec a b :
  (fst (set_line a b) = true <-> in_plane a /\ in_plane b /\ ~ one_point a b e8) /\
  snd (set_line a b) = (if fst (set_line a b) then mkSeg SLine 0 0 0 false origin a b else seg_init).
Proof.
  unfold set_line. destruct (negb (eqb 0 (pz a)) || negb (eqb 0 (pz b))) eqn:E.
  - split; [|reflexivity]. split; [discriminate|]. intros (A & B & _). apply z_test in A. apply z_test in B.
    rewrite A, B in E. discriminate.
  - apply orb_false_iff in E. rewrite !z_test in E. destruct (point_matches a b e8) eqn:M; cbn [fst snd].
    + apply point_matches_spec in M. split; [|reflexivity]. split; [discriminate|tauto].
    + apply point_matches_not in M. split; [|reflexivity]. tauto.
Qed.

(** ** Arcs *)

Lemma dist_sqrt p q : dist p q = sqrt ((px p - px q) * (px p - px q) + (py p - py q) * (py p - py q)).
Proof. unfold dist, dist2. f_equal. ring. Qed.
Lemma dist_sym p q : dist p q = dist q p.
Proof. unfold dist, dist2. f_equal. ring. Qed.
Lemma dist_pos p q : 0 <= dist p q. Proof. apply sqrt_pos. Qed.
Lemma dist_sq p q : dist p q * dist p q = dist2 p q.
Proof. unfold dist. apply sqrt_sqrt, dist2_pos. Qed.

Lemma apart_dist p q : pz p = 0 -> pz q = 0 -> ~ one_point p q e8 -> 0 < dist p q.
Proof.
  intros A B H. destruct (Rle_lt_or_eq_dec _ _ (dist_pos p q)) as [L|L]; [exact L|]. exfalso. apply H. left.
  rewrite gap2_flat by assumption. rewrite <- dist_sq, <- L. unfold e8. lra.
Qed.

Lemma direction c a : 0 < dist a c ->
  px a = px c + dist a c * cos (atan2 (py a - py c) (px a - px c)) /\
  py a = py c + dist a c * sin (atan2 (py a - py c) (px a - px c)).
Proof.
  intro H. assert (N : px a - px c <> 0 \/ py a - py c <> 0).
  { destruct (Req_EM_T (px a - px c) 0) as [E|E]; [|now left]. destruct (Req_EM_T (py a - py c) 0) as [F|F]; [|now right].
    exfalso. rewrite dist_sqrt, E, F in H. replace (0 * 0 + 0 * 0) with 0 in H by ring. rewrite sqrt_0 in H. lra. }
  destruct (atan2_point _ _ N) as [C S]. rewrite <- dist_sqrt in C, S. lra.
Qed.

Lemma dist2_bound p q d : 0 <= d -> dist p q <= d -> dist2 p q <= d * d.
Proof. intros. rewrite <- dist_sq. pose proof (dist_pos p q). nra. Qed.

Lemma dist2_le_dist p q d : 0 <= d -> dist2 p q <= d * d -> dist p q <= d.
Proof. intros H I. rewrite <- dist_sq in I. pose proof (dist_pos p q). nra. Qed.

Definition arc_of (c a b : pt) (cw : bool) : seg :=
  let sa := atan2 (py a - py c) (px a - px c) in
  let ea := atan2 (py b - py c) (px b - px c) in
  mkSeg SArc (dist a c) (if cw && ltb sa ea then sa + 2 * PI else sa) (if negb cw && ltb ea sa then ea + 2 * PI else ea) cw c a b.
Definition circle_of (c a : pt) : seg :=
  let q := mkPt (px c + dist a c) (py c) (pz c) in mkSeg SCircle (dist a c) 0 (2 * PI) false c q q.

Lemma set_arc_spec c a b cw :
  (fst (set_arc c a b cw) = true <->
     in_plane c /\ in_plane a /\ in_plane b /\ ~ one_point c a e8 /\ ~ one_point c b e8 /\
     (one_point a b e8 \/ Rabs (dist b c - dist a c) <= e8)) /\
  (fst (set_arc c a b cw) = false -> snd (set_arc c a b cw) = seg_init) /\
  (fst (set_arc c a b cw) = true -> one_point a b e8 -> snd (set_arc c a b cw) = circle_of c a) /\
  (fst (set_arc c a b cw) = true -> ~ one_point a b e8 -> snd (set_arc c a b cw) = arc_of c a b cw).
Proof.
  unfold set_arc. rewrite <- !dist_sqrt.
  destruct (negb (eqb 0 (pz c)) || negb (eqb 0 (pz a)) || negb (eqb 0 (pz b))) eqn:E; cbn [fst snd].
  - split; [|split; [reflexivity|split; discriminate]]. split; [discriminate|]. intros (C & A & B & _).
    apply z_test in A. apply z_test in B. apply z_test in C. rewrite A, B, C in E. discriminate.
  - apply orb_false_iff in E. destruct E as [E EB]. apply orb_false_iff in E. destruct E as [EC EA].
    rewrite z_test in EA, EB, EC.
    destruct (point_matches c a e8 || point_matches c b e8) eqn:M; cbn [fst snd].
    + split; [|split; [reflexivity|split; discriminate]]. split; [discriminate|]. intros (_ & _ & _ & A & B & _).
      apply point_matches_not in A. apply point_matches_not in B. rewrite A, B in M. discriminate.
    + apply orb_false_iff in M. rewrite !point_matches_not in M. destruct M as [MA MB].
      destruct (point_matches a b e8) eqn:N; cbn [fst snd].
      * apply point_matches_spec in N. split; [|split; [discriminate|split]].
        -- tauto.
        -- reflexivity.
        -- tauto.
      * apply point_matches_not in N. destruct (ltb e8 (Rabs (dist b c - dist a c))) eqn:L; cbn [fst snd].
        -- apply ltb_true in L. split; [|split; [reflexivity|split; discriminate]]. split; [discriminate|].
           intros (_ & _ & _ & _ & _ & [H|H]); [tauto|lra].
        -- apply ltb_false in L. split; [|split; [discriminate|split]].
           ++ tauto.
           ++ tauto.
           ++ reflexivity.
Qed.

Lemma arc_of_order c a b cw : in_plane c -> in_plane a -> in_plane b -> ~ one_point c a e8 -> ~ one_point c b e8 ->
  ~ one_point a b e8 -> Rabs (dist b c - dist a c) <= e8 ->
  arc_in_order e8 (arc_of c a b cw) /\ - PI < start_angle (arc_of c a b cw) <= PI /\ course (arc_of c a b cw) 0 a.
Proof.
  intros C A B CA CB AB R.
  assert (DA : 0 < dist a c) by (rewrite dist_sym; now apply apart_dist).
  assert (DB : 0 < dist b c) by (rewrite dist_sym; now apply apart_dist).
  destruct (direction c a DA) as [XA YA]. destruct (direction c b DB) as [XB YB].
  set (sa := atan2 (py a - py c) (px a - px c)) in *. set (ea := atan2 (py b - py c) (px b - px c)) in *.
  assert (RA : - PI < sa <= PI) by apply atan2_range. assert (RB : - PI < ea <= PI) by apply atan2_range.
  pose proof two_pi as T.
  assert (NE : sa <> ea).
  { intro Q. apply AB. apply close_one_point. rewrite gap2_flat by assumption. unfold dist2.
    rewrite XA, YA, XB, YB, Q. pose proof (sin2_cos2 ea) as W. unfold Rsqr in W.
    replace ((px c + dist a c * cos ea - (px c + dist b c * cos ea))^2 + (py c + dist a c * sin ea - (py c + dist b c * sin ea))^2)
      with ((dist b c - dist a c)^2 * (sin ea * sin ea + cos ea * cos ea)) by ring.
    rewrite W. pose proof (Rabs_pos (dist b c - dist a c)). rewrite Rmult_1_r, <- (pow2_abs (dist b c - dist a c)). nra. }
  assert (O0 : course (arc_of c a b cw) 0 a).
  { unfold arc_of, course, on_round; cbn [s_ty s_cen s_rad s_sang s_eang]. fold sa ea.
    replace ((if cw && ltb sa ea then sa + 2 * PI else sa) + 0 * ((if negb cw && ltb ea sa then ea + 2 * PI else ea) - (if cw && ltb sa ea then sa + 2 * PI else sa)))
      with (if cw && ltb sa ea then sa + 2 * PI else sa) by ring.
    destruct (cw && ltb sa ea); [rewrite cos_turn, sin_turn|]; split; assumption. }
  assert (O1 : forall p, course (arc_of c a b cw) 1 p -> dist p b <= e8).
  { intros p. unfold arc_of, course, on_round; cbn [s_ty s_cen s_rad s_sang s_eang]. fold sa ea.
    replace ((if cw && ltb sa ea then sa + 2 * PI else sa) + 1 * ((if negb cw && ltb ea sa then ea + 2 * PI else ea) - (if cw && ltb sa ea then sa + 2 * PI else sa)))
      with (if negb cw && ltb ea sa then ea + 2 * PI else ea) by ring.
    intros [HX HY]. assert (H : px p = px c + dist a c * cos ea /\ py p = py c + dist a c * sin ea).
    { destruct (negb cw && ltb ea sa); [rewrite cos_turn in HX; rewrite sin_turn in HY|]; now split. }
    destruct H as [H1 H2]. apply dist2_le_dist; [pose proof e8_pos; lra|]. unfold dist2. rewrite H1, H2.
    rewrite XB at 1. rewrite YB at 1.
    pose proof (sin2_cos2 ea) as W. unfold Rsqr in W.
    replace ((px c + dist a c * cos ea - (px c + dist b c * cos ea))^2 + (py c + dist a c * sin ea - (py c + dist b c * sin ea))^2)
      with ((dist b c - dist a c)^2 * (sin ea * sin ea + cos ea * cos ea)) by ring.
    rewrite W, Rmult_1_r, <- (pow2_abs (dist b c - dist a c)). pose proof (Rabs_pos (dist b c - dist a c)). nra. }
  assert (O0' : forall p, course (arc_of c a b cw) 0 p -> dist p a <= e8).
  { intros p H. unfold arc_of, course, on_round in H, O0; cbn [s_ty s_cen s_rad s_sang s_eang] in H, O0. apply dist2_le_dist; [pose proof e8_pos; lra|]. unfold dist2.
    destruct H as [H1 H2]. destruct O0 as [G1 G2]. rewrite H1, H2. rewrite <- G1, <- G2. unfold e8. lra. }
  split; [|split].
  - unfold arc_in_order. split; [reflexivity|]. split; [exact DA|].
    unfold arc_of, start_angle, end_angle in *; cbn [s_cw s_sang s_eang] in *. fold sa ea in O0, O1, O0' |- *.
    split; [|split; [|split; [|split; [|split; [exact O0'|exact O1]]]]];
    destruct cw; cbn [andb negb];
    try (destruct (ltb sa ea) eqn:L; [apply ltb_true in L|apply ltb_false in L]; lra);
    (destruct (ltb ea sa) eqn:L; [apply ltb_true in L|apply ltb_false in L]; lra).
  - unfold arc_of, start_angle; cbn [s_cw s_sang s_eang]. fold sa ea. destruct cw; cbn [andb negb]; lra.
  - exact O0.
Qed.
