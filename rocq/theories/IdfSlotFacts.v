(** Facts about slots (IdfSlot.v, IdfSlotSpec.v). *)

From Coq Require Import Reals Lra List Bool Psatz.
From Verif Require Import SegModel SegSpec SegTrig SegFacts OutModel IdfGeo IdfGeoSpec IdfArc IdfConv IdfWind IdfStar IdfSlot IdfSlotSpec.
Import ListNotations.
Open Scope R_scope.

Lemma sin_small t : sin t ^ 2 <= t ^ 2.
Proof.
  destruct (Rtotal_order 0 t) as [H|[<-|H]].
  - destruct (Rle_dec t PI) as [L|L].
    + pose proof (sin_lt_x t H). pose proof (sin_ge_0 t ltac:(lra) L). nra.
    + pose proof (SIN_bound t). pose proof PI2_3_2. assert (1 < t) by lra. nra.
  - rewrite sin_0. lra.
  - replace (sin t ^ 2) with (sin (- t) ^ 2) by (rewrite sin_neg; ring). replace (t ^ 2) with ((- t) ^ 2) by ring. set (u := - t). assert (0 < u) by (unfold u; lra). clearbody u.
    destruct (Rle_dec u PI) as [L|L].
    + pose proof (sin_lt_x u ltac:(lra)). pose proof (sin_ge_0 u ltac:(lra) L). nra.
    + pose proof (SIN_bound u). pose proof PI2_3_2. assert (1 < u) by lra. nra.
Qed.

Lemma chord_small e : 2 - 2 * cos e <= e ^ 2.
Proof.
  replace (cos e) with (1 - 2 * sin (e / 2) * sin (e / 2)) by (rewrite <- cos_2a_sin; f_equal; field).
  pose proof (sin_small (e / 2)). nra.
Qed.

(** Half a turn ends opposite to its start, but for the error of the angle. *)
Lemma half_turn c v1 v2 e r : 0 <= r -> v1 ^ 2 + v2 ^ 2 = r ^ 2 ->
  away (rotated c (rad (- 180) - e) (mkI (ix c + v1) (iy c + v2))) (mkI (ix c - v1) (iy c - v2)) <= r * Rabs e.
Proof.
  intros R0 V. unfold rotated, away. cbn [ix iy].
  replace (rad (- 180) - e) with (- (e + PI)) by (unfold rad; field). rewrite cos_neg, sin_neg, neg_cos, neg_sin.
  replace (_ ^ 2 + _ ^ 2) with ((v1 ^ 2 + v2 ^ 2) * ((1 - cos e) ^ 2 + sin e ^ 2)) by ring.
  replace ((1 - cos e) ^ 2 + sin e ^ 2) with (2 - 2 * cos e) by (pose proof (sin2_cos2 e) as T; unfold Rsqr in T; nra).
  rewrite V. replace (r * Rabs e) with (sqrt ((r * Rabs e) ^ 2)) by (apply sqrt_pow2; pose proof (Rabs_pos e); nra).
  apply sqrt_le_1_alt. rewrite Rpow_mult_distr, pow2_abs.
  pose proof (chord_small e). pose proof (pow2_ge_0 r). nra.
Qed.

Lemma line_no_circle a b : seg_circle (line_seg a b) = false.
Proof. unfold seg_circle. cbn [line_seg g_ang]. apply full_turn_line. unfold line_deg. lra. Qed.
Lemma half_no_circle : full_turn (- 180) = false.
Proof.
  unfold full_turn, min_ang. rewrite Rabs_left by lra. replace (- - 180 - 360) with (- 180) by ring.
  rewrite (ltb_f (- (1 / 100)) (- 180)) by lra. apply andb_false_r.
Qed.

Lemma near_matches p q r : 0 <= r -> away p q <= r -> idf_matches q p r = true.
Proof.
  intros R0 A. unfold idf_matches, away in *. apply leb_t.
  pose proof (Rplus_le_le_0_compat _ _ (pow2_ge_0 (ix p - ix q)) (pow2_ge_0 (iy p - iy q))) as X. pose proof (sqrt_sqrt _ X) as Y.
  pose proof (sqrt_pos ((ix p - ix q) ^ 2 + (iy p - iy q) ^ 2)) as Z. set (d := sqrt _) in *.
  replace (_ + _) with (d * d) by (rewrite Y; ring). apply Rmult_le_compat; assumption.
Qed.

Lemma self_matches p : idf_matches p p e3 = true.
Proof. unfold idf_matches. apply leb_t. unfold e3. lra. Qed.

(** Four segments which meet are all taken. *)
Lemma four_pushed a b c d : seg_circle a = false -> seg_circle b = false -> seg_circle c = false -> seg_circle d = false ->
  idf_matches (g_start b) (g_end a) e3 = true -> idf_matches (g_start c) (g_end b) e3 = true -> idf_matches (g_start d) (g_end c) e3 = true ->
  l_segs (push_all [a; b; c; d]) = [a; b; c; d].
Proof.
  intros A B C D M1 M2 M3. unfold push_all. cbn [fold_left]. unfold push at 4. cbn [iout_init l_segs snd].
  unfold push at 3. cbn [l_segs last snd app]. rewrite A, B, M1. cbn [negb snd].
  unfold push at 2. cbn [l_segs last snd app]. rewrite B, C, M2. cbn [negb snd].
  unfold push at 1. cbn [l_segs last snd app]. rewrite C, D, M3. reflexivity.
Qed.

Lemma ipt_eq p q : ix p = ix q -> iy p = iy q -> p = q.
Proof. destruct p, q. cbn. intros -> ->. reflexivity. Qed.

(** A cap about [c] from [c + v]. *)
Lemma cap_made c v1 v2 r p q : 0 < r -> v1 ^ 2 + v2 ^ 2 = r ^ 2 -> p = mkI (ix c + v1) (iy c + v2) -> q = mkI (ix c - v1) (iy c - v2) ->
  cap c p q r (r * rad (1 / 10000)) (arc_seg c p (- 180) true).
Proof.
  intros R0 V EP EQ.
  assert (N : c <> p). { intros E. rewrite EP in E. assert (v1 = 0 /\ v2 = 0) as (-> & ->) by (pose proof (f_equal ix E); pose proof (f_equal iy E); cbn in *; lra). nra. }
  destruct (kicad_arc c p (- 180) N half_no_circle) as (e & E & G1 & G2 & G3 & G4 & G5). { rewrite Rabs_left; lra. }
  split; [exact G1|]. split; [exact G2|]. split; [exact G3|]. split.
  - rewrite G4, EP. unfold away. cbn [ix iy]. replace (_ ^ 2 + _ ^ 2) with (r ^ 2) by (rewrite <- V; ring). apply sqrt_pow2. lra.
  - rewrite G5, EP, EQ. eapply Rle_trans; [apply (half_turn c v1 v2 e r); [lra|exact V]|]. apply Rmult_le_compat_l; lra.
Qed.

Lemma slot_made width length a x y : 1 / 1000 <= width <= 900 -> 1 / 1000 <= length ->
  exists o, add_slot width length a x y = Some o /\ is_slot width length a x y (width / 2 * rad (1 / 10000)) (l_segs o).
Proof.
  intros (W & U) L. unfold add_slot. rewrite !ltb_f by lra. eexists. split; [reflexivity|].
  replace (a / 180 * PI) with (rad a) by (unfold rad; field). unfold is_slot, along.
  rewrite cos_plus, sin_plus, cos_PI2, sin_PI2. pose proof (sin2_cos2 (rad a)) as T. unfold Rsqr in T.
  set (C := cos (rad a)) in *. set (S := sin (rad a)) in *. clearbody C S. cbn [ix iy].
  set (c0 := mkI (x + length / 2 * C) (y + length / 2 * S)). set (c1 := mkI (x - length / 2 * C) (y - length / 2 * S)).
  set (p0 := mkI (x + length / 2 * C - _) _). set (p1 := mkI (x - length / 2 * C - _) _).
  set (p2 := mkI (x - length / 2 * C + _) _). set (p3 := mkI (x + length / 2 * C + _) _).
  replace (mkI (x + 1 * (length / 2) * C + 1 * (width / 2) * S) (y + 1 * (length / 2) * S - 1 * (width / 2) * C)) with p0 by (apply ipt_eq; cbn; ring).
  replace (mkI (x + -1 * (length / 2) * C + 1 * (width / 2) * S) (y + -1 * (length / 2) * S - 1 * (width / 2) * C)) with p1 by (apply ipt_eq; cbn; ring).
  replace (mkI (x + -1 * (length / 2) * C + -1 * (width / 2) * S) (y + -1 * (length / 2) * S - -1 * (width / 2) * C)) with p2 by (apply ipt_eq; cbn; ring).
  replace (mkI (x + 1 * (length / 2) * C + -1 * (width / 2) * S) (y + 1 * (length / 2) * S - -1 * (width / 2) * C)) with p3 by (apply ipt_eq; cbn; ring).
  replace (mkI (x + -1 * (length / 2) * C + 0 * (width / 2) * S) (y + -1 * (length / 2) * S - 0 * (width / 2) * C)) with c1 by (apply ipt_eq; cbn; ring).
  replace (mkI (x + 1 * (length / 2) * C + 0 * (width / 2) * S) (y + 1 * (length / 2) * S - 0 * (width / 2) * C)) with c0 by (apply ipt_eq; cbn; ring).
  assert (K1 : cap c1 p1 p2 (width / 2) (width / 2 * rad (1 / 10000)) (arc_seg c1 p1 (- 180) true)).
  { apply (cap_made c1 (width / 2 * S) (- (width / 2 * C))); [lra|nra| |]; apply ipt_eq; cbn; ring. }
  assert (K2 : cap c0 p3 p0 (width / 2) (width / 2 * rad (1 / 10000)) (arc_seg c0 p3 (- 180) true)).
  { apply (cap_made c0 (- (width / 2 * S)) (width / 2 * C)); [lra|nra| |]; apply ipt_eq; cbn; ring. }
  exists (arc_seg c1 p1 (- 180) true), (arc_seg c0 p3 (- 180) true). split; [|split; assumption].
  assert (B : width / 2 * rad (1 / 10000) <= e3). { unfold rad, e3. pose proof PI_4. pose proof PI_RGT_0. nra. }
  destruct K1 as (_ & S1 & A1 & _ & E1). destruct K2 as (_ & S2 & A2 & _ & _).
  apply four_pushed; try apply line_no_circle.
  - unfold seg_circle. rewrite A1. exact half_no_circle.
  - unfold seg_circle. rewrite A2. exact half_no_circle.
  - rewrite S1. apply self_matches.
  - apply near_matches; [unfold e3; lra|]. cbn [line_seg g_start]. lra.
  - rewrite S2. apply self_matches.
Qed.

Lemma slot_refused width length a x y : add_slot width length a x y = None <-> width < 1 / 1000 \/ length < 1 / 1000.
Proof.
  unfold add_slot. destruct (ltb width (1 / 1000)) eqn:W; [apply ltb_true in W; tauto|].
  destruct (ltb length (1 / 1000)) eqn:L; [apply ltb_true in L; tauto|].
  split; [discriminate|]. intros [H|H]; [rewrite (ltb_t _ _ H) in W|rewrite (ltb_t _ _ H) in L]; discriminate.
Qed.

Lemma slot_case : 1 / 1000 <= 3 / 2 <= 900 /\ 1 / 1000 <= 4.
Proof. lra. Qed.

Lemma along_away x y a l l' : l' <= l -> away (along x y a l 0) (along x y a l' 0) = l - l'.
Proof.
  intros L. unfold away, along. cbn [ix iy]. pose proof (sin2_cos2 (rad a)) as T. unfold Rsqr in T.
  replace (_ ^ 2 + _ ^ 2) with ((l - l') ^ 2 * (sin (rad a) * sin (rad a) + cos (rad a) * cos (rad a))) by ring. rewrite T, Rmult_1_r. apply sqrt_pow2. lra.
Qed.
Lemma extent width length a x y : 0 <= width -> 0 <= length ->
  away (along x y a (length / 2 + width / 2) 0) (along x y a (- (length / 2) - width / 2) 0) = length + width /\
  away (along x y a (length / 2 + width / 2) 0) (along x y a (1 * (length / 2)) 0) = width / 2 /\
  away (along x y a (- (length / 2) - width / 2) 0) (along x y a (-1 * (length / 2)) 0) = width / 2.
Proof.
  intros W L. split; [rewrite along_away by lra; field|]. split; [rewrite along_away by lra; field|].
  unfold away. replace (_ + _) with ((ix (along x y a (-1 * (length / 2)) 0) - ix (along x y a (- (length / 2) - width / 2) 0)) ^ 2 +
    (iy (along x y a (-1 * (length / 2)) 0) - iy (along x y a (- (length / 2) - width / 2) 0)) ^ 2) by ring.
  fold (away (along x y a (-1 * (length / 2)) 0) (along x y a (- (length / 2) - width / 2) 0)). rewrite along_away by lra. field.
Qed.
