(** Facts about the segments of IDF outlines: the centre of an arc. *)

From Coq Require Import Reals Lra List Bool ZArith Psatz.
From Verif Require Import SegModel SegSpec SegTrig SegFacts SegProps OutModel IdfGeo IdfGeoSpec.
Import ListNotations.
Open Scope R_scope.

Lemma idf_dist_away a b : idf_dist a b = away b a.
Proof. unfold idf_dist, away. f_equal. ring. Qed.
Lemma away_sym a b : away a b = away b a.
Proof. unfold away. f_equal. ring. Qed.

Lemma apart a b : a <> b -> ix b - ix a <> 0 \/ iy b - iy a <> 0.
Proof.
  intro H. destruct a as [x y], b as [u v]. cbn. destruct (Req_EM_T (u - x) 0); [|tauto]. destruct (Req_EM_T (v - y) 0); [|tauto].
  exfalso. apply H. f_equal; lra.
Qed.

Lemma dist_polar a b : a <> b ->
  0 < idf_dist a b /\ idf_dist a b * cos (angle_rad a b) = ix b - ix a /\ idf_dist a b * sin (angle_rad a b) = iy b - iy a.
Proof.
  intro H. apply apart in H. unfold idf_dist, angle_rad. destruct (atan2_point _ _ H) as [A B].
  split; [|split; [exact A|exact B]]. apply sqrt_lt_R0. apply sq_sum_pos. tauto.
Qed.

(** The half angle. *)
Lemma half_angle d : arc_deg d -> - PI < d * PI / 360 < PI /\ (0 < d -> 0 < sin (d * PI / 360)) /\ (d < 0 -> sin (d * PI / 360) < 0) /\
  (0 < d \/ d < 0) /\ (- 180 <= d <= 180 -> 0 <= cos (d * PI / 360)) /\ (180 < d \/ d < - 180 -> cos (d * PI / 360) <= 0).
Proof.
  intros [L U]. pose proof PI_RGT_0 as P.
  assert (B : - 360 < d < 360). { unfold Rabs in U. destruct (Rcase_abs d); lra. }
  assert (W : - PI < d * PI / 360 < PI) by nra.
  split; [exact W|]. split; [intro; apply sin_gt_0; nra|].
  split. { intro. rewrite <- (Ropp_involutive (d * PI / 360)), sin_neg. assert (0 < sin (- (d * PI / 360))) by (apply sin_gt_0; nra). lra. }
  split. { unfold Rabs in L. destruct (Rcase_abs d); lra. }
  split; [intro; apply cos_ge_0; nra|].
  intros [H|H].
  - apply cos_le_0; nra.
  - rewrite <- cos_neg. apply cos_le_0; nra.
Qed.

Lemma arc_radius_eq a b d : a <> b -> arc_deg d -> 0 < arc_radius a b d /\ arc_radius a b d = idf_dist a b / 2 / Rabs (sin (d * PI / 360)).
Proof.
  intros N A. destruct (half_angle d A) as (_ & P & M & C & _). destruct (dist_polar a b N) as (D & _).
  unfold arc_radius. set (s := sin (d * PI / 360)) in *. set (D0 := idf_dist a b) in *.
  destruct C as [C|C].
  - specialize (P C). rewrite Rabs_pos_eq by lra. assert (0 < D0 / 2 / s) by (apply Rdiv_lt_0_compat; lra).
    rewrite ltb_f by lra. split; [assumption|reflexivity].
  - specialize (M C). rewrite Rabs_left by lra. assert (E : D0 / 2 / - s = - (D0 / 2 / s)) by (field; lra).
    assert (0 < D0 / 2 / - s) by (apply Rdiv_lt_0_compat; lra).
    rewrite ltb_t by lra. rewrite <- E. split; [assumption|reflexivity].
Qed.

Lemma arc_centre_eq a b d : a <> b -> arc_deg d ->
  let k := cos (d * PI / 360) / sin (d * PI / 360) in
  arc_centre a b d = mkI ((ix a + ix b) / 2 - k * (iy b - iy a) / 2) ((iy a + iy b) / 2 + k * (ix b - ix a) / 2).
Proof.
  intros N A k. destruct (half_angle d A) as (_ & P & M & C & C1 & C2). destruct (dist_polar a b N) as (D & DX & DY).
  destruct (arc_radius_eq a b d N A) as [RP RE]. unfold arc_centre.
  set (s := sin (d * PI / 360)) in *. set (c := cos (d * PI / 360)) in *. set (D0 := idf_dist a b) in *. set (r := arc_radius a b d) in *.
  assert (S0 : s <> 0) by (destruct C as [C|C]; [specialize (P C)|specialize (M C)]; lra).
  assert (SC : s * s + c * c = 1). { pose proof (sin2_cos2 (d * PI / 360)) as Q. unfold Rsqr in Q. exact Q. }
  assert (AS : Rabs s * Rabs s = s * s). { rewrite <- Rabs_mult. apply Rabs_pos_eq. nra. }
  assert (AP : 0 < Rabs s) by now apply Rabs_pos_lt.
  assert (H2 : r * r - D0 / 2 * (D0 / 2) = (D0 / 2 * Rabs c / Rabs s) * (D0 / 2 * Rabs c / Rabs s)).
  { rewrite RE. replace (D0 / 2 * Rabs c / Rabs s * (D0 / 2 * Rabs c / Rabs s)) with (D0 / 2 * (D0 / 2) * (Rabs c * Rabs c) / (Rabs s * Rabs s)) by (field; lra).
    replace (D0 / 2 / Rabs s * (D0 / 2 / Rabs s)) with (D0 / 2 * (D0 / 2) / (Rabs s * Rabs s)) by (field; lra). rewrite AS.
    assert (AC : Rabs c * Rabs c = 1 - s * s). { rewrite <- Rabs_mult, Rabs_pos_eq by nra. lra. }
    rewrite AC. field. exact S0. }
  assert (HP : 0 <= D0 / 2 * Rabs c / Rabs s).
  { apply Rmult_le_pos; [|apply Rlt_le, Rinv_0_lt_compat; exact AP]. pose proof (Rabs_pos c). nra. }
  rewrite ltb_f by (rewrite H2; nra). rewrite H2, sqrt_square by exact HP.
  set (u := angle_rad a b) in *.
  assert (UP : cos (u + PI / 2) = - sin u /\ sin (u + PI / 2) = cos u).
  { rewrite cos_plus, sin_plus, cos_PI2, sin_PI2. split; ring. }
  assert (UM : cos (u - PI / 2) = sin u /\ sin (u - PI / 2) = - cos u).
  { rewrite cos_minus, sin_minus, cos_PI2, sin_PI2. split; ring. }
  assert (T : forall z, cos (z + PI) = - cos z /\ sin (z + PI) = - sin z) by (intro; rewrite neg_cos, neg_sin; tauto).
  assert (F : forall x y, x = (D0 / 2 * c / s) * - sin u -> y = (D0 / 2 * c / s) * cos u ->
    mkI (x + (ix a + ix b) * (1 / 2)) (y + (iy a + iy b) * (1 / 2)) =
    mkI ((ix a + ix b) / 2 - k * (iy b - iy a) / 2) ((iy a + iy b) / 2 + k * (ix b - ix a) / 2)).
  { intros x y -> ->. rewrite <- DX, <- DY. unfold k. f_equal; field; exact S0. }
  destruct C as [C|C].
  - specialize (P C). rewrite (ltb_t 0 d C). rewrite (Rabs_pos_eq s) by lra.
    destruct (Rle_lt_dec d 180) as [L|L].
    + rewrite ltb_f by lra. rewrite ltb_f by lra. cbn [orb]. rewrite (Rabs_pos_eq c) by (apply C1; lra).
      destruct UP as [U1 U2]. rewrite U1, U2. apply F; field; exact S0.
    + rewrite ltb_t by lra. cbn [orb]. destruct (T (u + PI / 2)) as [T1 T2]. destruct UP as [U1 U2]. rewrite T1, T2, U1, U2.
      rewrite (Rabs_left1 c) by (apply C2; lra). apply F; field; exact S0.
  - specialize (M C). rewrite (ltb_f 0 d) by lra. rewrite (Rabs_left s) by lra.
    destruct (Rle_lt_dec (-180) d) as [L|L].
    + rewrite ltb_f by lra. rewrite ltb_f by lra. cbn [orb]. rewrite (Rabs_pos_eq c) by (apply C1; lra).
      destruct UM as [U1 U2]. rewrite U1, U2. apply F; field; exact S0.
    + rewrite ltb_f by lra. rewrite ltb_t by lra. cbn [orb]. destruct (T (u - PI / 2)) as [T1 T2]. destruct UM as [U1 U2]. rewrite T1, T2, U1, U2.
      rewrite (Rabs_left1 c) by (apply C2; lra). apply F; field; exact S0.
Qed.

Lemma arc_right a b d : a <> b -> arc_deg d -> is_arc a b d (arc_centre a b d) (arc_radius a b d).
Proof.
  intros N A. destruct (arc_radius_eq a b d N A) as [RP RE]. pose proof (arc_centre_eq a b d N A) as CE. cbv zeta in CE.
  destruct (half_angle d A) as (_ & P & M & C & _). destruct (dist_polar a b N) as (D & DX & DY).
  assert (D2 : idf_dist a b * idf_dist a b = (ix b - ix a) * (ix b - ix a) + (iy b - iy a) * (iy b - iy a)).
  { unfold idf_dist. apply sqrt_sqrt. nra. }
  unfold is_arc. rewrite CE. unfold rad. replace (d * PI / 180) with (2 * (d * PI / 360)) by field.
  set (w := d * PI / 360) in *. pose proof (sin2_cos2 w) as SC. unfold Rsqr in SC.
  set (s := sin w) in *. set (c := cos w) in *. set (r := arc_radius a b d) in *.
  assert (S0 : s <> 0) by (destruct C as [C|C]; [specialize (P C)|specialize (M C)]; lra).
  assert (R2 : r * r * (4 * (s * s)) = (ix b - ix a) * (ix b - ix a) + (iy b - iy a) * (iy b - iy a)).
  { rewrite RE, <- D2. assert (AS : Rabs s * Rabs s = s * s) by (rewrite <- Rabs_mult; apply Rabs_pos_eq; nra). rewrite <- AS.
    field. apply Rabs_no_R0. exact S0. }
  assert (RR : r * r = ((ix b - ix a) * (ix b - ix a) + (iy b - iy a) * (iy b - iy a)) / (4 * (s * s))).
  { rewrite <- R2. field. exact S0. }
  assert (K : (c / s) * (c / s) = 1 / (s * s) - 1). { replace (c / s * (c / s)) with ((c * c) / (s * s)) by (field; exact S0). replace (c * c) with (1 - s * s) by lra. field. exact S0. }
  split; [exact RP|]. split; [|split].
  - unfold away; cbn [ix iy]. rewrite <- (sqrt_square r) by lra. f_equal. rewrite RR.
    set (k := c / s) in *.
    replace ((ix a - ((ix a + ix b) / 2 - k * (iy b - iy a) / 2)) ^ 2 + (iy a - ((iy a + iy b) / 2 + k * (ix b - ix a) / 2)) ^ 2)
      with (((ix b - ix a) * (ix b - ix a) + (iy b - iy a) * (iy b - iy a)) * (1 + k * k) / 4) by field.
    rewrite K. field. exact S0.
  - unfold away; cbn [ix iy]. rewrite <- (sqrt_square r) by lra. f_equal. rewrite RR.
    set (k := c / s) in *.
    replace ((ix b - ((ix a + ix b) / 2 - k * (iy b - iy a) / 2)) ^ 2 + (iy b - ((iy a + iy b) / 2 + k * (ix b - ix a) / 2)) ^ 2)
      with (((ix b - ix a) * (ix b - ix a) + (iy b - iy a) * (iy b - iy a)) * (1 + k * k) / 4) by field.
    rewrite K. field. exact S0.
  - unfold rotated; cbn [ix iy]. rewrite cos_2a_sin, sin_2a. fold s c. destruct b as [bx by0]; cbn [ix iy].
    assert (C2 : c * c = 1 - s * s) by lra.
    f_equal; field_simplify_eq; try exact S0; ring [C2].
Qed.
