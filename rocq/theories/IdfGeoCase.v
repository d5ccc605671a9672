(** Concrete outlines of IDF boards. *)

From Coq Require Import Reals Lra List Bool ZArith Psatz Lia.
From Verif Require Import SegModel SegSpec SegTrig SegFacts SegProps SegSplit CutModel CutSpec CutCases OutModel OutSpec OutFacts OutBox OutCases
  IdfGeo IdfGeoSpec IdfArc IdfConv IdfLoop IdfWind.
Import ListNotations.
Open Scope R_scope.

Lemma near_by x y : -10 <= x <= 10 -> -10 <= y <= 10 -> near_board (mkI x y).
Proof. intros X Y. split; cbn [ix iy]; apply Rabs_le; lra. Qed.

Lemma apart_by x y u v : -10 <= x <= 10 -> -10 <= y <= 10 -> -10 <= u <= 10 -> -10 <= v <= 10 ->
  1 / 10^12 <= (x - u)^2 + (y - v)^2 -> far_apart (mkI x y) (mkI u v).
Proof.
  intros. split; [now apply near_by|]. split; [now apply near_by|]. unfold away; cbn [ix iy].
  replace (1 / 10^6) with (sqrt (1 / 10^6 * (1 / 10^6))) by (apply sqrt_square; lra). apply sqrt_le_1_alt. lra.
Qed.

Ltac apart := apply apart_by; lra.

(** ** A quarter circle *)

Definition east : ipt := mkI 1 0.
Definition north : ipt := mkI 0 1.
Definition south : ipt := mkI 0 (-1).

Lemma north_apart : far_apart east north. Proof. apart. Qed.
Lemma deg90 : arc_deg 90. Proof. unfold arc_deg. rewrite Rabs_pos_eq; lra. Qed.

Lemma quarter : is_arc east north 90 izero 1.
Proof.
  unfold is_arc, away, rotated, rad, east, north, izero; cbn [ix iy].
  replace (90 * PI / 180) with (PI / 2) by field. rewrite cos_PI2, sin_PI2.
  split; [lra|]. split; [|split].
  - transitivity (sqrt 1); [f_equal; ring|exact sqrt_1].
  - transitivity (sqrt 1); [f_equal; ring|exact sqrt_1].
  - f_equal; ring.
Qed.

(** ** A turn by more than 360 degrees *)

Definition h : R := 1 / sqrt 2.
Lemma h_sq : h * h = 1 / 2.
Proof. unfold h. pose proof (sqrt_lt_R0 2 ltac:(lra)). replace (1 / sqrt 2 * (1 / sqrt 2)) with (1 / (sqrt 2 * sqrt 2)) by (field; lra). rewrite sqrt_sqrt; lra. Qed.
Lemma h_pos : 0 < h.
Proof. unfold h. apply Rdiv_lt_0_compat; [lra|]. apply sqrt_lt_R0. lra. Qed.

Lemma sin_225 : sin (450 * PI / 360) = - h.
Proof. replace (450 * PI / 360) with (PI / 4 + PI) by field. rewrite neg_sin, sin_PI4. reflexivity. Qed.
Lemma dist_en : idf_dist east north / 2 = h.
Proof.
  unfold idf_dist, east, north; cbn [ix iy]. replace ((0 - 1) * (0 - 1) + (1 - 0) * (1 - 0)) with 2 by ring.
  pose proof (sqrt_lt_R0 2 ltac:(lra)). unfold h. apply (Rmult_eq_reg_r (2 * sqrt 2)); [|nra].
  replace (sqrt 2 / 2 * (2 * sqrt 2)) with (sqrt 2 * sqrt 2) by field. rewrite sqrt_sqrt by lra. field. lra.
Qed.

Lemma round_again : g_cen (arc_seg east north 450 false) = mkI 1 1 /\ g_rad (arc_seg east north 450 false) = 1 /\ g_ang (arc_seg east north 450 false) = 450.
Proof.
  pose proof h_pos as HP. pose proof h_sq as HS.
  assert (R1 : arc_radius east north 450 = 1).
  { unfold arc_radius. rewrite sin_225, dist_en. replace (h / - h) with (-1) by (field; lra). rewrite ltb_t by lra. ring. }
  assert (F : full_turn 450 = false).
  { unfold full_turn, min_ang. rewrite Rabs_pos_eq by lra. rewrite ltb_f by lra. reflexivity. }
  unfold arc_seg. rewrite F. unfold min_ang. rewrite (ltb_f 450) by lra. cbn [andb orb negb]. rewrite (ltb_t (1 / 100)) by lra. cbn [orb g_cen g_rad g_ang].
  split; [|split; [exact R1|reflexivity]].
  unfold arc_centre. rewrite R1, dist_en, HS. replace (1 * 1 - 1 / 2) with (1 / 2) by lra. rewrite (ltb_f (1 / 2)) by lra.
  rewrite <- HS, sqrt_square by lra. rewrite (ltb_t 0 450) by lra. rewrite (ltb_t 180 450) by lra. cbn [orb].
  assert (A : angle_rad east north = 3 * (PI / 4)).
  { unfold angle_rad, east, north; cbn [ix iy]. replace (1 - 0) with (sqrt 2 * sin (3 * (PI / 4))); [|].
    - replace (0 - 1) with (sqrt 2 * cos (3 * (PI / 4))).
      + apply atan2_polar; [apply sqrt_lt_R0; lra|]. pose proof PI_RGT_0. lra.
      + replace (3 * (PI / 4)) with (PI / 4 + PI / 2) by field. rewrite cos_plus, cos_PI2, sin_PI2, sin_PI4. pose proof (sqrt_lt_R0 2 ltac:(lra)). field. lra.
    - replace (3 * (PI / 4)) with (PI / 4 + PI / 2) by field. rewrite sin_plus, cos_PI2, sin_PI2, cos_PI4. pose proof (sqrt_lt_R0 2 ltac:(lra)). field. lra. }
  rewrite A. replace (3 * (PI / 4) + PI / 2 + PI) with (PI / 4 + 2 * PI) by field. rewrite cos_turn, sin_turn, cos_PI4, sin_PI4.
  fold h. unfold east, north; cbn [ix iy]. f_equal; lra.
Qed.

(** 450 degrees are 90 degrees; the arc which is made is not that one. *)
Lemma beyond_full : ~ is_arc east north 450 (g_cen (arc_seg east north 450 false)) (g_rad (arc_seg east north 450 false)) /\
  is_arc east north 450 izero 1.
Proof.
  destruct round_again as (C & R0 & _). rewrite C, R0.
  assert (T : cos (rad 450) = 0 /\ sin (rad 450) = 1).
  { unfold rad. replace (450 * PI / 180) with (PI / 2 + 2 * PI) by field. rewrite cos_turn, sin_turn, cos_PI2, sin_PI2. tauto. }
  destruct T as [T1 T2]. split.
  - intros (_ & _ & _ & T). unfold rotated in T. rewrite T1, T2 in T. unfold east, north in T. cbn [ix iy] in T. injection T. intros. lra.
  - destruct quarter as (A & B & C0 & _). split; [exact A|]. split; [exact B|]. split; [exact C0|].
    unfold rotated, izero, east, north. cbn [ix iy]. rewrite T1, T2. f_equal; ring.
Qed.

(** ** A crescent: three quarters of a circle and lines inside it *)

Lemma deg270 : arc_deg 270. Proof. unfold arc_deg. rewrite Rabs_pos_eq; lra. Qed.
Definition sw : ipt := mkI (- (7 / 10)) (- (7 / 10)).
Definition nw : ipt := mkI (- (7 / 10)) (7 / 10).
Definition ne : ipt := mkI (7 / 10) (7 / 10).
Definition crescent : list iseg := [arc_seg east south 270 false; line_seg south sw; line_seg sw nw; line_seg nw ne; line_seg ne east].

Lemma es_apart : far_apart east south. Proof. apart. Qed.

Lemma crescent_segs : Forall loop_seg crescent.
Proof.
  unfold crescent. constructor; [right; exists east, south, 270; split; [exact es_apart|split; [exact deg270|reflexivity]]|].
  repeat (constructor; [left; eexists _, _; split; [|reflexivity]; apart|]). constructor.
Qed.

Lemma crescent_arc : arc_seg east south 270 false = mkSg east south izero 270 0 1.
Proof.
  rewrite (made_arc _ _ _ deg270). pose proof (far_apart_ne _ _ es_apart) as N.
  pose proof (arc_centre_eq east south 270 N deg270) as C. cbv zeta in C.
  assert (T : sin (270 * PI / 360) = h /\ cos (270 * PI / 360) = - h).
  { replace (270 * PI / 360) with (PI / 4 + PI / 2) by field. rewrite sin_plus, cos_plus, cos_PI2, sin_PI2, cos_PI4, sin_PI4. unfold h.
    pose proof (sqrt_lt_R0 2 ltac:(lra)). split; field; lra. }
  destruct T as [TS TC]. pose proof h_pos as HP. rewrite TS, TC in C.
  assert (CE : arc_centre east south 270 = izero).
  { rewrite C. unfold east, south, izero; cbn [ix iy]. f_equal; field; lra. }
  pose proof (arc_right east south 270 N deg270) as (_ & A & _). rewrite CE in *.
  assert (R1 : arc_radius east south 270 = 1).
  { rewrite <- A. unfold away, east, izero; cbn [ix iy]. transitivity (sqrt 1); [f_equal; ring|exact sqrt_1]. }
  rewrite R1. f_equal. unfold angle_deg, angle_rad, east, izero; cbn [ix iy].
  replace (atan2 (0 - 0) (1 - 0)) with 0.
  - replace (0 / PI * 1800000) with 0 by (field; pose proof PI_RGT_0; lra). unfold trunc. rewrite leb_t by lra.
    replace (Int_part 0) with 0%Z; [lra|].
    destruct (base_Int_part 0) as [L U]. assert (IZR (Int_part 0) < 1 /\ -1 < IZR (Int_part 0)) as [U1 U2] by lra.
    change 1 with (IZR 1) in U1. change (-1) with (IZR (-1)) in U2. apply lt_IZR in U1. apply lt_IZR in U2. lia.
  - unfold atan2. destruct (Rlt_dec 0 (1 - 0)); [|lra]. replace ((0 - 0) / (1 - 0)) with 0 by field. symmetry. exact atan_0.
Qed.

Lemma crescent_wrong : exists o, pushes iout_init crescent = Some o /\ Forall loop_seg crescent /\ follows east crescent east /\
  0 < seg_area2 crescent /\ is_ccw o = false.
Proof.
  assert (FO : follows east crescent east). { unfold crescent. rewrite crescent_arc. cbn. tauto. }
  exists (mkIo crescent (sum_dir crescent)). split; [exact (push_list east crescent crescent_segs east FO)|].
  split; [exact crescent_segs|]. split; [exact FO|].
  assert (B : forall a b, bulge (line_seg a b) = 0) by (intros; unfold bulge; cbn [line_seg g_ang]; rewrite bent_zero; reflexivity).
  split.
  - unfold crescent. rewrite crescent_arc. cbn [seg_area2 g_start g_end]. rewrite !B. unfold bulge. cbn [g_ang g_rad]. rewrite (bent_arc _ deg270).
    replace (rad 270) with (PI / 2 + PI) by (unfold rad; field). rewrite neg_sin, sin_PI2.
    unfold cross, east, south, sw, nw, ne; cbn [line_seg g_start g_end ix iy]. pose proof PI2_3_2 as P. unfold PI2 in P. lra.
  - unfold is_ccw, crescent. cbn [l_segs l_dir]. rewrite negb_false_iff. apply ltb_true. cbn [sum_dir last]. rewrite !dir_line, crescent_arc.
    unfold dir_of. cbn [g_ang g_start g_end g_off g_cen g_rad line_seg]. rewrite (bent_arc _ deg270).
    replace ((0 + 270 / 2) * PI / 180) with (PI / 4 + PI / 2) by field. rewrite cos_plus, sin_plus, cos_PI2, sin_PI2, cos_PI4, sin_PI4.
    fold h. unfold cross, east, south, sw, nw, ne, izero; cbn [ix iy]. pose proof h_pos as HP. pose proof h_sq as HS. nra.
Qed.

(** ** A triangle, closed and not quite closed *)

Definition corner : ipt := mkI 0 0.
Definition right_c : ipt := mkI 4 0.
Definition top_c : ipt := mkI 0 3.
Definition tri_loop : list iseg := [line_seg corner right_c; line_seg right_c top_c; line_seg top_c corner].

Lemma tri_apart : far_apart corner right_c /\ far_apart right_c top_c /\ far_apart top_c corner.
Proof. split; [apart|]. split; apart. Qed.

Lemma line_home a b : far_apart a b -> - 10 <= ix a <= 10 -> - 10 <= iy a <= 10 -> - 10 <= ix b <= 10 -> - 10 <= iy b <= 10 ->
  forall t, covers (convert_seg (line_seg a b)) t -> near_home t.
Proof.
  intros F X Y U V t. rewrite (convert_line a b F). unfold covers. cbn [s_ty s_start s_end to3 px py]. intros (k & K & PX & PY).
  unfold near_home. rewrite PX, PY. split; nra.
Qed.

Lemma tri_segs : Forall loop_seg tri_loop.
Proof. destruct tri_apart as (A & B & C). unfold tri_loop. repeat (constructor; [left; eexists _, _; split; [|reflexivity]; assumption|]). constructor. Qed.
Lemma tri_follows : follows corner tri_loop corner.
Proof. cbn. tauto. Qed.
Lemma tri_home s t : In s tri_loop -> covers (convert_seg s) t -> near_home t.
Proof.
  destruct tri_apart as (A & B & C).
  intros [<-|[<-|[<-|[]]]]; apply line_home; try assumption; unfold corner, right_c, top_c; cbn [ix iy]; lra.
Qed.

Lemma away_by x y u v : 1 / 10^12 <= (x - u)^2 + (y - v)^2 -> -10 <= x <= 10 -> -10 <= y <= 10 -> -10 <= u <= 10 -> -10 <= v <= 10 ->
  ~ one_point (to3 (mkI x y)) (to3 (mkI u v)) e8.
Proof. intros. assert (F : far_apart (mkI x y) (mkI u v)) by (apply apart_by; lra). destruct F as (N & _ & A). apply not_one; [exact N|lra]. Qed.

Lemma tri_open : Forall (fun s => ~ one_point (to3 (g_end s)) (to3 corner) e8) [line_seg corner right_c; line_seg right_c top_c].
Proof. constructor; [apply away_by; lra|]. constructor; [apply away_by; lra|constructor]. Qed.

Lemma tri_ccw : is_ccw (mkIo tri_loop (sum_dir tri_loop)) = true.
Proof.
  unfold is_ccw, tri_loop. cbn [l_segs l_dir]. rewrite negb_true_iff. apply ltb_false. cbn [sum_dir last]. rewrite !dir_line.
  unfold cross, corner, right_c, top_c; cbn [ix iy line_seg g_start g_end]. lra.
Qed.
Lemma tri_area : seg_area2 tri_loop = 12.
Proof.
  assert (B : forall a b, bulge (line_seg a b) = 0) by (intros; unfold bulge; cbn [line_seg g_ang]; rewrite bent_zero; reflexivity).
  unfold tri_loop. cbn [seg_area2]. rewrite !B. unfold cross, corner, right_c, top_c; cbn [ix iy line_seg g_start g_end]. lra.
Qed.

Definition nearly : ipt := mkI 0 (5 / 10^6).
Definition nearly_loop : list iseg := [line_seg corner right_c; line_seg right_c top_c; line_seg top_c nearly].
Lemma nearly_apart : far_apart top_c nearly.
Proof. apply apart_by; lra. Qed.

Lemma nearly_open : exists o, idf_matches nearly corner e5 = true /\ convert_oln out_init nearly_loop = Some (true, o) /\
  o_closed o = false /\ o_segs o = map convert_seg nearly_loop.
Proof.
  destruct tri_apart as (A & B & _).
  destruct (convert_nearly corner nearly_loop nearly) as (o & E & C & S).
  - discriminate.
  - unfold nearly_loop. repeat (constructor; [left; eexists _, _; split; [|reflexivity]; first [assumption|exact nearly_apart]|]). constructor.
  - cbn. tauto.
  - constructor; [apply away_by; lra|]. constructor; [apply away_by; lra|]. constructor; [apply away_by; lra|constructor].
  - intros s t [<-|[<-|[<-|[]]]]; apply line_home; try assumption; try exact nearly_apart; unfold corner, right_c, top_c, nearly; cbn [ix iy]; lra.
  - exists o. split; [|tauto]. unfold idf_matches, nearly, corner, e5; cbn [ix iy]. apply leb_t. lra.
Qed.
