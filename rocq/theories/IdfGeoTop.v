(** The statements of PropIdfGeo.v, put together. *)

From Coq Require Import Reals Lra List Bool ZArith Psatz Lia.
From Verif Require Import SegModel SegSpec SegTrig OutModel IdfGeo IdfGeoSpec IdfArc IdfConv IdfMono IdfWind IdfGeoCase.
Import ListNotations.
Open Scope R_scope.

Lemma arc_claim a b d : a <> b -> arc_deg d -> let s := arc_seg a b d false in
  g_start s = a /\ g_end s = b /\ g_ang s = d /\ is_arc a b d (g_cen s) (g_rad s).
Proof. intros N H. cbv zeta. rewrite made_arc by exact H. cbn [g_start g_end g_ang g_cen g_rad]. do 3 (split; [reflexivity|]). now apply arc_right. Qed.

Lemma arc_unique a b d c r c' r' : arc_deg d -> is_arc a b d c r -> is_arc a b d c' r' -> c = c' /\ r = r'.
Proof.
  intros H (_ & A & _ & T) (_ & A' & _ & T'). assert (C : c = c').
  { destruct (half_angle d H) as (_ & P & M & X & _). unfold rotated in *. rewrite <- T' in T. injection T as TX TY.
    replace (rad d) with (2 * (d * PI / 360)) in * by (unfold rad; field). set (w := d * PI / 360) in *.
    rewrite cos_2a_sin, sin_2a in *. pose proof (sin2_cos2 w) as SC. unfold Rsqr in SC.
    assert (S0 : sin w <> 0) by (destruct X as [X|X]; [specialize (P X)|specialize (M X)]; lra).
    set (s := sin w) in *. set (k := cos w) in *. set (u := ix c - ix c'). set (v := iy c - iy c').
    assert (E1 : u * (s * s) + v * (s * k) = 0) by (unfold u, v; nra).
    assert (E2 : v * (s * s) - u * (s * k) = 0) by (unfold u, v; nra).
    assert (F1 : u * s + v * k = 0) by (apply (Rmult_eq_reg_l s); [nra|exact S0]).
    assert (F2 : v * s - u * k = 0) by (apply (Rmult_eq_reg_l s); [nra|exact S0]).
    assert (U : u = 0). { replace u with (u * (s * s + k * k)) by (rewrite SC; ring). replace (u * (s * s + k * k)) with (s * (u * s + v * k) - k * (v * s - u * k)) by ring. rewrite F1, F2. ring. }
    assert (V : v = 0). { replace v with (v * (s * s + k * k)) by (rewrite SC; ring). replace (v * (s * s + k * k)) with (k * (u * s + v * k) + s * (v * s - u * k)) by ring. rewrite F1, F2. ring. }
    unfold u, v in *. destruct c, c'; cbn in *. f_equal; lra. }
  split; [exact C|]. subst. reflexivity.
Qed.

Lemma line_circle_claim a b d :
  (line_deg d -> arc_seg a b d false = line_seg a b) /\
  (circle_deg d -> let s := arc_seg a b d false in g_cen s = a /\ g_rad s = away a b /\ g_ang s = 360).
Proof.
  split; [apply made_line|]. intro H. cbv zeta. rewrite made_circle by exact H. cbn. split; [reflexivity|]. split; [|reflexivity].
  rewrite idf_dist_away. apply away_sym.
Qed.

Lemma beyond_refuted :
  ~ (forall a b d, a <> b -> 1 / 100 < Rabs d -> ~ circle_deg d -> let s := arc_seg a b d false in
     (exists c r, is_arc a b d c r) -> is_arc a b d (g_cen s) (g_rad s)).
Proof.
  intro H. destruct beyond_full as [A B]. apply A. apply H.
  - exact (far_apart_ne _ _ north_apart).
  - rewrite Rabs_pos_eq; lra.
  - unfold circle_deg. rewrite Rabs_pos_eq; lra.
  - exists izero, 1. exact B.
Qed.

Lemma convert_again o l : o_closed o = true -> convert_oln o l = Some (false, o).
Proof.
  intro C. destruct l as [|s l]; [reflexivity|]. cbn [convert_oln convert_segs]. unfold add_segment.
  destruct (segty_eqb (s_ty (convert_seg s)) SNone); [reflexivity|]. rewrite C. reflexivity.
Qed.

Lemma pushed_claim p l q : Forall loop_seg l -> follows p l q -> exists o, pushes iout_init l = Some o /\ l_segs o = l.
Proof. intros F O. eexists. split; [exact (push_list p l F q O)|reflexivity]. Qed.

Lemma area_lines p l q : Forall (fun s => g_ang s = 0) l -> follows p l q -> seg_area2 l + cross q p = area2 p (map g_end l).
Proof.
  unfold area2. intros F O.
  assert (L : last (map g_end l) p = q /\ seg_area2 l = crosses p (map g_end l)).
  { revert p O. induction F as [|s l E _ IH]; intros p O; cbn [map seg_area2 crosses].
    - cbn in *. split; [exact O|reflexivity].
    - destruct O as [S O]. destruct (IH _ O) as [A B]. rewrite last_cons, B. split; [exact A|].
      unfold bulge. rewrite E, bent_zero, S. ring. }
  destruct L as [L1 L2]. rewrite L1, L2. reflexivity.
Qed.

Lemma ccw_lines p l q o : (3 <= length l)%nat -> Forall loop_seg l -> Forall (fun s => g_ang s = 0) l -> follows p l q ->
  pushes iout_init l = Some o -> (is_ccw o = true <-> 0 <= area2 p (map g_end l)).
Proof.
  intros N F Z O P. rewrite (push_list p l F q O) in P. injection P as <-.
  destruct (ccw_long p l q N F O) as (v & V & C). rewrite (lines_lose_nothing l Z) in V. rewrite <- (area_lines p l q Z O), C.
  assert (v = 0). { unfold Rabs in V. destruct (Rcase_abs v); lra. } subst. reflexivity.
Qed.

Lemma ccw_arcs p l q o : (3 <= length l)%nat -> Forall loop_seg l -> follows p l q -> pushes iout_init l = Some o ->
  all_lost l < Rabs (seg_area2 l + cross q p) -> (is_ccw o = true <-> 0 < seg_area2 l + cross q p).
Proof.
  intros N F O P L. rewrite (push_list p l F q O) in P. injection P as <-.
  destruct (ccw_long p l q N F O) as (v & V & C). rewrite C. unfold Rabs in *. destruct (Rcase_abs v); destruct (Rcase_abs (seg_area2 l + cross q p)); split; intro; lra.
Qed.

Lemma ccw_two_pushed p s t o : loop_seg s -> loop_seg t -> follows p [s; t] p -> pushes iout_init [s; t] = Some o ->
  seg_area2 [s; t] <> 0 -> (is_ccw o = true <-> 0 < seg_area2 [s; t]).
Proof.
  intros S T O P. rewrite (push_list p [s; t] (Forall_cons _ S (Forall_cons _ T (Forall_nil _))) p O) in P. injection P as <-. now apply ccw_two with (p := p).
Qed.

Lemma tri_pushed : pushes iout_init tri_loop = Some (mkIo tri_loop (-12)) /\ is_ccw (mkIo tri_loop (-12)) = true /\
  area2 corner (map g_end tri_loop) = 12.
Proof.
  assert (S : sum_dir tri_loop = -12).
  { unfold tri_loop. cbn [sum_dir]. rewrite !dir_line. unfold cross, corner, right_c, top_c; cbn [ix iy]. lra. }
  rewrite <- S. split; [exact (push_list corner tri_loop tri_segs corner tri_follows)|]. split; [exact tri_ccw|].
  unfold area2, tri_loop, cross, corner, right_c, top_c. cbn [map last crosses line_seg g_end]. unfold cross. cbn [ix iy]. lra.
Qed.

(** Two lines and a quarter of a circle. *)
Definition slice : list iseg := [arc_seg east north 90 false; line_seg north izero; line_seg izero east].
Lemma slice_arc : exists f, arc_seg east north 90 false = mkSg east north izero 90 f 1.
Proof.
  pose proof (far_apart_ne _ _ north_apart) as N. rewrite (made_arc _ _ _ deg90). pose proof (arc_right east north 90 N deg90) as A.
  destruct (arc_unique _ _ _ _ _ _ _ deg90 A quarter) as [E1 E2]. rewrite E1, E2. eexists. reflexivity.
Qed.
Lemma slice_segs : Forall loop_seg slice.
Proof.
  constructor; [right; exists east, north, 90; exact (conj north_apart (conj deg90 eq_refl))|].
  constructor; [left; exists north, izero; split; [apart|reflexivity]|].
  constructor; [left; exists izero, east; split; [apart|reflexivity]|constructor].
Qed.

Lemma slice_case : Forall loop_seg slice /\ follows east slice east /\ all_lost slice < Rabs (seg_area2 slice + cross east east).
Proof.
  split; [exact slice_segs|]. unfold slice. destruct slice_arc as (f & ->). split; [cbn; tauto|].
  assert (B : forall a b, bulge (line_seg a b) = 0 /\ lost (line_seg a b) = 0) by (intros; unfold bulge, lost; cbn [line_seg g_ang]; rewrite bent_zero; tauto).
  cbn [seg_area2 all_lost]. rewrite (proj2 (B north izero)), (proj2 (B izero east)), (proj1 (B north izero)), (proj1 (B izero east)).
  unfold bulge, lost. cbn [g_ang g_rad g_start g_end line_seg]. rewrite (bent_arc _ deg90), (Rabs_pos_eq 90) by lra.
  replace (rad 90) with (PI / 2) by (unfold rad; field). rewrite sin_PI2. replace (PI / 2 / 2) with (PI / 4) by field. rewrite sin_PI4.
  fold h. unfold cross, east, north, izero; cbn [ix iy]. pose proof h_pos as HP. pose proof h_sq as HS.
  assert (H1 : 7 / 10 < h) by nra. pose proof PI_RGT_0 as P. pose proof PI_4 as P4.
  assert (K : (rad (1 / 10000))^2 <= 1 / 100). { unfold rad. assert (0 <= 1 / 10000 * PI / 180 <= 1 / 10) by lra. nra. }
  rewrite Rabs_pos_eq by lra. lra.
Qed.

Lemma two_case : loop_seg (arc_seg east south 270 false) /\ loop_seg (line_seg south east) /\
  follows east [arc_seg east south 270 false; line_seg south east] east /\ seg_area2 [arc_seg east south 270 false; line_seg south east] <> 0.
Proof.
  split; [right; exists east, south, 270; exact (conj es_apart (conj deg270 eq_refl))|].
  split; [left; exists south, east; split; [apart|reflexivity]|].
  rewrite crescent_arc. split; [cbn; tauto|]. cbn [seg_area2 g_start g_end line_seg].
  assert (B : bulge (line_seg south east) = 0) by (unfold bulge; cbn [line_seg g_ang]; rewrite bent_zero; reflexivity). rewrite B.
  unfold bulge. cbn [g_ang g_rad]. rewrite (bent_arc _ deg270). replace (rad 270) with (PI / 2 + PI) by (unfold rad; field). rewrite neg_sin, sin_PI2.
  unfold cross, east, south; cbn [ix iy]. pose proof PI_RGT_0. intro. lra.
Qed.

(** ** Ends exchanged *)

Lemma arc_back a b d c r : is_arc a b d c r -> is_arc b a (- d) c r.
Proof.
  intros (P & A & B & T). split; [exact P|]. split; [exact B|]. split; [exact A|]. rewrite <- T. unfold rotated. cbn [ix iy].
  replace (rad (- d)) with (- rad d) by (unfold rad; field). rewrite cos_neg, sin_neg. set (w := rad d).
  pose proof (sin2_cos2 w) as SC. unfold Rsqr in SC. destruct a as [x y]. cbn [ix iy]. f_equal.
  - transitivity (ix c + (x - ix c) * (sin w * sin w + cos w * cos w)); [ring|rewrite SC; ring].
  - transitivity (iy c + (y - iy c) * (sin w * sin w + cos w * cos w)); [ring|rewrite SC; ring].
Qed.

Lemma swapped a b d : a <> b ->
  swap_ends (line_seg a b) = line_seg b a /\
  (arc_deg d -> swap_ends (arc_seg a b d false) = arc_seg b a (- d) false) /\
  (circle_deg d -> swap_ends (arc_seg a b d false) = mkSg a b a (- 360) 0 (away a b)).
Proof.
  intros N. split; [|split].
  - unfold swap_ends, seg_circle. cbn [line_seg g_ang g_start g_end g_cen g_off g_rad]. rewrite full_turn_line by (unfold line_deg; lra).
    unfold min_ang. rewrite !ltb_t by lra. reflexivity.
  - intros H. assert (H' : arc_deg (- d)) by (unfold arc_deg in *; rewrite Rabs_Ropp; exact H).
    destruct (arc_claim a b d N H) as (_ & _ & _ & A). destruct (arc_claim b a (- d) (not_eq_sym N) H') as (_ & _ & _ & A').
    rewrite (made_arc a b d H) in *. rewrite (made_arc b a (- d) H') in *. cbn [g_cen g_rad] in A, A'.
    destruct (arc_unique b a (- d) _ _ _ _ H' (arc_back _ _ _ _ _ A) A') as [EC ER].
    unfold swap_ends, seg_circle. cbn [g_ang g_start g_end g_cen g_off g_rad]. rewrite (full_turn_arc d H).
    assert (X : ltb d min_ang && ltb (- min_ang) d = false).
    { destruct (_ && _) eqn:E; [|reflexivity]. apply andb_true_iff in E as [E1 E2]. apply ltb_true in E1. apply ltb_true in E2.
      unfold min_ang in *. destruct H as [L _]. assert (Rabs d < 1 / 100) by (apply Rabs_def1; lra). lra. }
    rewrite X, EC, ER. reflexivity.
  - intros H. destruct (line_circle_claim a b d) as (_ & C). destruct (C H) as (C1 & C2 & C3).
    unfold arc_seg in *. rewrite (proj2 (full_turn_true d) H) in *. cbn [g_cen g_rad g_ang] in *.
    unfold swap_ends, seg_circle. cbn [g_cen g_rad g_ang g_start g_end g_off]. rewrite C2.
    replace (full_turn 360) with true by (symmetry; apply full_turn_true; unfold circle_deg; rewrite Rabs_right; lra). reflexivity.
Qed.
