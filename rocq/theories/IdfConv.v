(** Facts about the segments of IDF outlines: what they become in an [MCAD_OUTLINE]. *)

From Coq Require Import Reals Lra List Bool ZArith Psatz.
From Verif Require Import SegModel SegSpec SegTrig SegFacts SegProps OutModel IdfGeo IdfGeoSpec IdfArc.
Import ListNotations.
Open Scope R_scope.

Lemma full_turn_true d : full_turn d = true <-> circle_deg d.
Proof. unfold full_turn, circle_deg, min_ang. rewrite andb_true_iff, !ltb_true. split; intro; lra. Qed.

Lemma full_turn_line d : line_deg d -> full_turn d = false.
Proof.
  intros [L U]. destruct (full_turn d) eqn:E; [|reflexivity]. apply full_turn_true in E. destruct E as [E _].
  unfold Rabs in E. destruct (Rcase_abs d); lra.
Qed.
Lemma full_turn_arc d : arc_deg d -> full_turn d = false.
Proof. intros [L U]. destruct (full_turn d) eqn:E; [|reflexivity]. apply full_turn_true in E. destruct E as [E _]. lra. Qed.

Lemma made_line a b d : line_deg d -> arc_seg a b d false = line_seg a b.
Proof.
  intro H. unfold arc_seg. rewrite (full_turn_line d H). destruct H as [L U]. cbn [negb]. rewrite orb_true_r.
  unfold min_ang. rewrite ltb_f by lra. rewrite ltb_f by lra. reflexivity.
Qed.
Lemma made_arc a b d : arc_deg d ->
  arc_seg a b d false = mkSg a b (arc_centre a b d) d (angle_deg (arc_centre a b d) a) (arc_radius a b d).
Proof.
  intro H. unfold arc_seg. rewrite (full_turn_arc d H). destruct H as [L U]. cbn [negb]. rewrite orb_true_r. unfold min_ang.
  assert (E : ltb (1 / 100) d || ltb d (- (1 / 100)) = true).
  { apply orb_true_iff. rewrite !ltb_true. unfold Rabs in L. destruct (Rcase_abs d); [right|left]; lra. }
  rewrite E. reflexivity.
Qed.
Lemma made_circle a b d k : circle_deg d -> arc_seg a b d k = mkSg a b a 360 0 (idf_dist a b).
Proof. intro H. apply full_turn_true in H. unfold arc_seg. now rewrite H. Qed.

(** ** Points which are apart *)

Lemma gap_away p q : gap2 (to3 p) (to3 q) = away p q * away p q.
Proof.
  unfold gap2, away, to3; cbn [px py pz]. rewrite sqrt_sqrt; [ring|].
  pose proof (pow2_ge_0 (ix p - ix q)). pose proof (pow2_ge_0 (iy p - iy q)). lra.
Qed.
Lemma near_norm p : near_board p -> gap2 (to3 p) origin <= 2 * 10^14.
Proof.
  intros [X Y]. unfold gap2, to3, origin; cbn [px py pz]. assert (X2 : (ix p)^2 <= (10^7)^2) by (rewrite <- pow2_abs; apply pow_incr; split; [apply Rabs_pos|exact X]).
  assert (Y2 : (iy p)^2 <= (10^7)^2) by (rewrite <- pow2_abs; apply pow_incr; split; [apply Rabs_pos|exact Y]).
  replace ((ix p - 0)^2 + (iy p - 0)^2 + (0 - 0)^2) with ((ix p)^2 + (iy p)^2) by ring. lra.
Qed.
Lemma norm_tri p q : gap2 (to3 q) origin <= 2 * gap2 (to3 p) origin + 2 * (away p q * away p q).
Proof.
  rewrite <- gap_away. unfold gap2, to3, origin; cbn [px py pz].
  pose proof (pow2_ge_0 (2 * ix p - ix q)). pose proof (pow2_ge_0 (2 * iy p - iy q)). nra.
Qed.

Lemma not_one p q : near_board p -> 4 / 10^7 <= away p q -> ~ one_point (to3 p) (to3 q) e8.
Proof.
  intros N A H. unfold one_point in H. rewrite gap_away in H. set (r := away p q) in *.
  pose proof (near_norm p N) as NP. pose proof (norm_tri p q) as T. fold r in T.
  assert (R2 : 16 / 10^14 <= r * r) by nra.
  destruct H as [H|[(_ & _ & H)|(_ & H)]].
  - unfold e8 in H. lra.
  - lra.
  - assert (M : Rmax (gap2 (to3 p) origin) (gap2 (to3 q) origin) <= 4 * 10^14 + 2 * (r * r)) by (apply Rmax_lub; nra). nra.
Qed.
Lemma not_match p q : near_board p -> 4 / 10^7 <= away p q -> point_matches (to3 p) (to3 q) e8 = false /\ point_matches (to3 q) (to3 p) e8 = false.
Proof.
  intros N A. pose proof (not_one p q N A) as H. split; apply point_matches_not; [exact H|]. intro O. apply H. now apply one_point_sym.
Qed.

(** ** What is made of a segment *)

Lemma far_apart_ne a b : far_apart a b -> a <> b.
Proof. intros (_ & _ & H) ->. unfold away in H. replace ((ix b - ix b)^2 + (iy b - iy b)^2) with 0 in H by ring. rewrite sqrt_0 in H. lra. Qed.

Lemma convert_line a b : far_apart a b -> convert_seg (line_seg a b) = mkSeg SLine 0 0 0 false origin (to3 a) (to3 b).
Proof.
  intros (NA & NB & A). unfold convert_seg, seg_circle. cbn [line_seg g_ang g_rad g_start g_end].
  rewrite full_turn_line by (unfold line_deg; lra). rewrite ltb_f by lra. unfold set_line.
  cbn [to3 pz]. rewrite eqb_t by reflexivity. cbn [negb orb].
  destruct (not_match a b NA ltac:(lra)) as [M _]. unfold to3 in *. rewrite M. reflexivity.
Qed.

Lemma convert_circle a b d : far_apart a b -> circle_deg d -> exists p,
  convert_seg (arc_seg a b d false) = mkSeg SCircle (away a b) 0 (2 * PI) false (to3 a) p p /\ p = mkPt (ix a + away a b) (iy a) 0.
Proof.
  intros (NA & NB & A) H. rewrite made_circle by exact H. rewrite idf_dist_away, away_sym. eexists. split; [|reflexivity].
  unfold convert_seg, seg_circle. cbn [g_ang g_rad g_cen].
  replace (full_turn 360) with true by (symmetry; apply full_turn_true; unfold circle_deg; rewrite Rabs_pos_eq; lra).
  set (r := away a b) in *.
  assert (E : away a (mkI (ix a + r) (iy a)) = r).
  { unfold away; cbn [ix iy]. transitivity (sqrt (r * r)); [f_equal; ring|apply sqrt_square; lra]. }
  destruct (not_match a (mkI (ix a + r) (iy a)) NA ltac:(rewrite E; lra)) as [M _].
  change (mkPt (ix a + r) (iy a) 0) with (to3 (mkI (ix a + r) (iy a))).
  unfold set_arc. cbn [to3 pz]. rewrite eqb_t by reflexivity. cbn [negb orb].
  change (mkPt (ix a) (iy a) 0) with (to3 a). change (mkPt (ix (mkI (ix a + r) (iy a))) (iy (mkI (ix a + r) (iy a))) 0) with (to3 (mkI (ix a + r) (iy a))).
  rewrite M. cbn [orb]. rewrite (proj2 (point_matches_spec _ _ e8) (one_point_refl _ e8)). cbn [snd].
  assert (S : sqrt ((px (to3 (mkI (ix a + r) (iy a))) - px (to3 a)) * (px (to3 (mkI (ix a + r) (iy a))) - px (to3 a)) +
    (py (to3 (mkI (ix a + r) (iy a))) - py (to3 a)) * (py (to3 (mkI (ix a + r) (iy a))) - py (to3 a))) = r).
  { cbn [to3 px py ix iy]. transitivity (sqrt (r * r)); [f_equal; ring|apply sqrt_square; lra]. }
  rewrite S. reflexivity.
Qed.

(** The bearing of a point rotated. *)
Lemma bearing c p r : 0 < r -> away p c = r ->
  r * cos (atan2 (iy p - iy c) (ix p - ix c)) = ix p - ix c /\ r * sin (atan2 (iy p - iy c) (ix p - ix c)) = iy p - iy c /\
  - PI < atan2 (iy p - iy c) (ix p - ix c) <= PI.
Proof.
  intros R E. assert (N : ix p - ix c <> 0 \/ iy p - iy c <> 0).
  { destruct (Req_EM_T (ix p - ix c) 0) as [X|X]; [|tauto]. destruct (Req_EM_T (iy p - iy c) 0) as [Y|Y]; [|tauto].
    exfalso. unfold away in E. rewrite X, Y in E. replace (0^2 + 0^2) with 0 in E by ring. rewrite sqrt_0 in E. lra. }
  destruct (atan2_point _ _ N) as [A B].
  replace (sqrt ((ix p - ix c) * (ix p - ix c) + (iy p - iy c) * (iy p - iy c))) with r in A, B by (rewrite <- E; unfold away; f_equal; ring).
  split; [exact A|]. split; [exact B|apply atan2_range].
Qed.

Lemma is_arc_far a b d c r : arc_deg d -> is_arc a b d c r -> 1 / 2 * away a b <= r.
Proof.
  intros A (R & EA & EB & _). assert (TA : (ix a - ix c)^2 + (iy a - iy c)^2 = r * r).
  { rewrite <- EA. unfold away. rewrite sqrt_sqrt; [reflexivity|]. pose proof (pow2_ge_0 (ix a - ix c)). pose proof (pow2_ge_0 (iy a - iy c)). lra. }
  assert (TB : (ix b - ix c)^2 + (iy b - iy c)^2 = r * r).
  { rewrite <- EB. unfold away. rewrite sqrt_sqrt; [reflexivity|]. pose proof (pow2_ge_0 (ix b - ix c)). pose proof (pow2_ge_0 (iy b - iy c)). lra. }
  assert (L : away a b <= 2 * r); [|lra].
  rewrite <- (sqrt_square (2 * r)) by lra. unfold away. apply sqrt_le_1_alt.
  pose proof (pow2_ge_0 ((ix a - ix c) + (ix b - ix c))). pose proof (pow2_ge_0 ((iy a - iy c) + (iy b - iy c))). nra.
Qed.

Lemma convert_arc a b d : far_apart a b -> arc_deg d -> exists sa ea c r,
  is_arc a b d c r /\ ea - sa = rad d /\
  convert_seg (arc_seg a b d false) = mkSeg SArc r sa ea (ltb d 0) (to3 c) (to3 a) (to3 b) /\
  ix a = ix c + r * cos sa /\ iy a = iy c + r * sin sa.
Proof.
  intros F H. pose proof (far_apart_ne a b F) as N. destruct F as (NA & NB & A).
  pose proof (arc_right a b d N H) as K. pose proof (is_arc_far a b d _ _ H K) as RF.
  rewrite made_arc by exact H. unfold convert_seg, seg_circle. cbn [g_ang g_rad g_cen g_start g_end].
  rewrite full_turn_arc by exact H. set (c := arc_centre a b d) in *. set (r := arc_radius a b d) in *.
  destruct K as (RP & EA & EB & T). rewrite (ltb_t 0 r RP).
  destruct (not_match a c NA ltac:(lra)) as [_ M1]. destruct (not_match b c NB ltac:(lra)) as [_ M2].
  destruct (not_match a b NA ltac:(lra)) as [M3 _].
  destruct (bearing c a r RP EA) as (CA & SA & RA). destruct (bearing c b r RP EB) as (CB & SB & RB).
  unfold set_arc.
  replace (negb (eqb 0 (pz (to3 c))) || negb (eqb 0 (pz (to3 a))) || negb (eqb 0 (pz (to3 b)))) with false
    by (cbn [to3 pz]; rewrite eqb_t by reflexivity; reflexivity).
  rewrite M1, M2, M3. cbn [orb to3 px py].
  replace (sqrt ((ix a - ix c) * (ix a - ix c) + (iy a - iy c) * (iy a - iy c))) with r by (rewrite <- EA; unfold away; f_equal; ring).
  replace (sqrt ((ix b - ix c) * (ix b - ix c) + (iy b - iy c) * (iy b - iy c))) with r by (rewrite <- EB; unfold away; f_equal; ring).
  replace (r - r) with 0 by ring. rewrite Rabs_R0, (ltb_f e8 0) by (unfold e8; lra). cbn [snd].
  set (sa := atan2 (iy a - iy c) (ix a - ix c)) in *. set (ea := atan2 (iy b - iy c) (ix b - ix c)) in *.
  pose proof PI_RGT_0 as PP.
  assert (B : 0 < d < 360 \/ - 360 < d < 0). { destruct H as [L U]. unfold Rabs in *. destruct (Rcase_abs d); lra. }
  assert (TX : cos ea = cos (sa + rad d) /\ sin ea = sin (sa + rad d)).
  { assert (BX : ix b - ix c = (ix a - ix c) * cos (rad d) - (iy a - iy c) * sin (rad d)) by (rewrite <- T; unfold rotated; cbn [ix iy]; ring).
    assert (BY : iy b - iy c = (ix a - ix c) * sin (rad d) + (iy a - iy c) * cos (rad d)) by (rewrite <- T; unfold rotated; cbn [ix iy]; ring).
    rewrite cos_plus, sin_plus. split; apply (Rmult_eq_reg_l r); try lra.
    - rewrite CB, BX, <- CA, <- SA. ring.
    - rewrite SB, BY, <- CA, <- SA. ring. }
  destruct TX as [TC TS].
  assert (BD : forall x, 0 < x < 360 -> 0 < rad x < 2 * PI) by (intros x Hx; unfold rad; nra).
  destruct B as [B|B].
  - rewrite (ltb_t 0 d) by lra. rewrite (ltb_f d 0) by lra. cbn [negb andb].
    exists sa, (if ltb ea sa then ea + 2 * PI else ea), c, r.
    split; [exact (conj RP (conj EA (conj EB T)))|].
    split; [|split; [reflexivity|split; [lra|lra]]]. specialize (BD d B).
    destruct (ltb ea sa) eqn:E.
    + apply ltb_true in E. assert (ea + 2 * PI = sa + rad d); [|lra]. apply angle_unique; [rewrite cos_turn; exact TC|rewrite sin_turn; exact TS|lra].
    + apply ltb_false in E. assert (ea = sa + rad d); [|lra]. apply angle_unique; [exact TC|exact TS|lra].
  - rewrite (ltb_f 0 d) by lra. rewrite (ltb_t d 0) by lra. cbn [negb andb].
    exists (if ltb sa ea then sa + 2 * PI else sa), ea, c, r.
    split; [exact (conj RP (conj EA (conj EB T)))|].
    assert (BD' : - (2 * PI) < rad d < 0). { specialize (BD (- d) ltac:(lra)). replace (rad (- d)) with (- rad d) in BD by (unfold rad; field). lra. }
    destruct (ltb sa ea) eqn:E.
    + apply ltb_true in E. split. { assert (ea = sa + 2 * PI + rad d); [|lra].
        replace (sa + 2 * PI + rad d) with (sa + rad d + 2 * PI) by ring.
        apply angle_unique; [rewrite cos_turn; exact TC|rewrite sin_turn; exact TS|lra]. }
      split; [reflexivity|]. rewrite cos_turn, sin_turn. lra.
    + apply ltb_false in E. split. { assert (ea = sa + rad d); [|lra]. apply angle_unique; [exact TC|exact TS|lra]. }
      split; [reflexivity|]. lra.
Qed.

(** Every place of the way is the start rotated by that part of the angle. *)
Lemma arc_course a b d : far_apart a b -> arc_deg d -> exists c r, is_arc a b d c r /\
  let s := convert_seg (arc_seg a b d false) in
  s_ty s = SArc /\ s_cen s = to3 c /\ s_rad s = r /\ s_start s = to3 a /\ s_end s = to3 b /\
  forall t, 0 <= t <= 1 -> course s t (to3 (rotated c (t * rad d) a)).
Proof.
  intros F H. destruct (convert_arc a b d F H) as (sa & ea & c & r & K & E & S & X & Y). exists c, r. split; [exact K|].
  cbv zeta. rewrite S. cbn [s_ty s_cen s_rad s_start s_end]. do 5 (split; [reflexivity|]).
  intros t _. unfold course, on_round. cbn [s_ty s_cen s_rad s_sang s_eang]. rewrite E.
  unfold rotated, to3. cbn [px py ix iy]. rewrite X, Y, cos_plus, sin_plus. split; ring.
Qed.
