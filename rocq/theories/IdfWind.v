(** Facts about IDF outlines: which way round they go. *)

From Coq Require Import Reals Lra List Bool ZArith Psatz Lia.
From Verif Require Import SegModel SegTrig OutModel IdfGeo IdfGeoSpec IdfArc IdfConv IdfMono.
Import ListNotations.
Open Scope R_scope.

(** ** The list and the sum which [push] keeps *)

Fixpoint sum_dir (l : list iseg) : R := match l with [] => 0 | s :: l' => dir_of s + sum_dir l' end.
Lemma sum_dir_app l s : sum_dir (l ++ [s]) = sum_dir l + dir_of s.
Proof. induction l as [|t l IH]; cbn; [ring|]. rewrite IH. ring. Qed.

Lemma loop_not_circle s : loop_seg s -> seg_circle s = false.
Proof.
  intros [(a & b & F & ->)|(a & b & d & F & H & ->)]; unfold seg_circle.
  - cbn [line_seg g_ang]. apply full_turn_line. unfold line_deg. lra.
  - rewrite made_arc by exact H. cbn [g_ang]. now apply full_turn_arc.
Qed.

Lemma last_cons {A} (x : A) l d : last (x :: l) d = last l x.
Proof. revert x d. induction l as [|y l IH]; intros x d; [reflexivity|]. change (last (x :: y :: l) d) with (last (y :: l) d). rewrite !IH. reflexivity. Qed.
Lemma last_in {A} (l : list A) d : In (last l d) (d :: l).
Proof. revert d. induction l as [|x l IH]; intro d; [left; reflexivity|]. rewrite last_cons. right. apply IH. Qed.

Lemma push_joined f l s : Forall loop_seg (f :: l) -> loop_seg s -> g_end (last l f) = g_start s ->
  push (mkIo (f :: l) (sum_dir (f :: l))) s = (true, mkIo ((f :: l) ++ [s]) (sum_dir ((f :: l) ++ [s]))).
Proof.
  intros FA S E. unfold push. cbn [l_segs l_dir]. rewrite (loop_not_circle s S).
  assert (L : loop_seg (last l f)) by (rewrite Forall_forall in FA; apply FA; apply last_in).
  rewrite (loop_not_circle _ L), E. unfold idf_matches. rewrite leb_t.
  - cbn [negb]. rewrite sum_dir_app. reflexivity.
  - unfold e3. nra.
Qed.

Lemma push_list p l : Forall loop_seg l -> forall q, follows p l q -> pushes iout_init l = Some (mkIo l (sum_dir l)).
Proof.
  assert (G : forall l2 l1, Forall loop_seg (l1 ++ l2) -> forall f l', l1 = f :: l' -> forall q, follows (g_end (last l' f)) l2 q ->
    pushes (mkIo l1 (sum_dir l1)) l2 = Some (mkIo (l1 ++ l2) (sum_dir (l1 ++ l2)))).
  { induction l2 as [|s l2 IH]; intros l1 FA f l' -> q FO. - rewrite app_nil_r. reflexivity.
    - destruct FO as [E FO]. cbn [pushes]. rewrite push_joined.
      + rewrite (IH ((f :: l') ++ [s])) with (f := f) (l' := l' ++ [s]) (q := q).
        * rewrite <- app_assoc. reflexivity.
        * rewrite <- app_assoc. exact FA.
        * reflexivity.
        * rewrite last_last. exact FO.
      + apply Forall_app in FA. apply FA.
      + rewrite Forall_forall in FA. apply FA. apply in_app_iff. right. left. reflexivity.
      + symmetry. exact E. }
  intros FA q FO. destruct l as [|s l]; [reflexivity|]. destruct FO as [E FO]. cbn [pushes]. unfold push at 1. cbn [iout_init l_segs l_dir app].
  rewrite Rplus_0_l. replace (dir_of s) with (sum_dir [s]) by (cbn; ring).
  rewrite (G l [s]) with (f := s) (l' := []) (q := q); [reflexivity|exact FA|reflexivity|exact FO].
Qed.

(** ** The sum and the area *)

Lemma trunc_near x : Rabs (x - IZR (trunc x)) <= 1.
Proof.
  assert (B : forall y, 0 <= y - IZR (Int_part y) <= 1) by (intro y; destruct (base_Int_part y); lra).
  unfold trunc. destruct (leb 0 x) eqn:L.
  - specialize (B x). rewrite Rabs_pos_eq; lra.
  - specialize (B (- x)). rewrite opp_IZR. rewrite Rabs_left1; lra.
Qed.

Lemma off_near c a : Rabs (angle_rad c a - rad (angle_deg c a)) <= rad (1 / 10000).
Proof.
  unfold angle_deg, rad. pose proof PI_RGT_0 as P. set (x := angle_rad c a / PI * 1800000).
  replace (angle_rad c a) with (x / 1800000 * PI) by (unfold x; field; lra).
  replace (x / 1800000 * PI - IZR (trunc x) / 10000 * PI / 180) with ((x - IZR (trunc x)) * (PI / 1800000)) by field.
  rewrite Rabs_mult, (Rabs_pos_eq (PI / 1800000)) by nra. pose proof (trunc_near x). nra.
Qed.


Lemma dir_line a b : dir_of (line_seg a b) = ix b * iy b - ix a * iy a - cross a b.
Proof. unfold dir_of, bent. cbn [line_seg g_ang g_start g_end]. unfold min_ang. rewrite ltb_f by lra. rewrite ltb_f by lra. cbn [orb]. unfold cross. ring. Qed.

Lemma bent_arc d : arc_deg d -> bent d = true.
Proof. intros [L _]. unfold bent, min_ang. apply orb_true_iff. rewrite !ltb_true. unfold Rabs in L. destruct (Rcase_abs d); [left|right]; lra. Qed.
Lemma bent_zero : bent 0 = false.
Proof. unfold bent, min_ang. rewrite ltb_f by lra. rewrite ltb_f by lra. reflexivity. Qed.

Lemma dir_arc a b d : a <> b -> arc_deg d -> exists e, Rabs e <= rad (1 / 10000) /\
  let s := arc_seg a b d false in
  dir_of s = ix b * iy b - ix a * iy a - cross a b - bulge s + (g_rad s)^2 * (rad d - 2 * sin (rad d / 2) * cos e).
Proof.
  intros N H. pose proof (arc_right a b d N H) as (RP & EA & EB & T). rewrite made_arc by exact H.
  set (c := arc_centre a b d) in *. set (r := arc_radius a b d) in *.
  destruct (bearing c a r RP EA) as (CA & SA & _). pose proof (off_near c a) as O. unfold angle_rad in O at 1.
  set (f := atan2 (iy a - iy c) (ix a - ix c)) in *. set (e := f - rad (angle_deg c a)) in *.
  exists e. split; [exact O|]. cbv zeta. unfold dir_of, bulge. cbn [g_start g_end g_cen g_ang g_off g_rad]. rewrite (bent_arc d H).
  replace ((angle_deg c a + d / 2) * PI / 180) with (f + rad d / 2 - e) by (unfold e, rad; field).
  set (t := rad d) in *.
  assert (BX : ix b = ix c + r * cos (f + t)). { rewrite <- T. unfold rotated; cbn [ix iy]. rewrite cos_plus, <- CA, <- SA. ring. }
  assert (BY : iy b = iy c + r * sin (f + t)). { rewrite <- T. unfold rotated; cbn [ix iy]. rewrite sin_plus, <- CA, <- SA. ring. }
  assert (AX : ix a = ix c + r * cos f) by lra. assert (AY : iy a = iy c + r * sin f) by lra.
  set (m := f + t / 2 - e). unfold cross. rewrite BX, BY, AX, AY.
  assert (E : 2 * sin (t / 2) * cos e = sin (m - f) + sin (f + t - m)).
  { unfold m. replace (f + t / 2 - e - f) with (t / 2 - e) by ring. replace (f + t - (f + t / 2 - e)) with (t / 2 + e) by field.
    rewrite sin_minus, sin_plus. ring. }
  rewrite E. replace (sin t) with (sin (f + t - f)) by (f_equal; ring). rewrite !sin_minus. ring.
Qed.

Lemma loss_bound r t e k : Rabs e <= k -> 0 < Rabs t < 2 * PI ->
  Rabs (r^2 * (t - 2 * sin (t / 2) * cos e)) <= r^2 * (Rabs t - 2 * sin (Rabs t / 2) + k^2).
Proof.
  intros E T. rewrite Rabs_mult, (Rabs_pos_eq (r^2)) by apply pow2_ge_0. apply Rmult_le_compat_l; [apply pow2_ge_0|].
  assert (K : 1 - cos e <= k^2 / 2).
  { pose proof (one_less_cos e). assert (e * e <= k^2); [|lra]. replace (e * e) with (Rabs e * Rabs e) by (rewrite <- Rabs_mult, Rabs_pos_eq; [reflexivity|nra]).
    pose proof (Rabs_pos e). nra. }
  pose proof (COS_bound e) as CB.
  assert (G : forall x, 0 < x < 2 * PI -> 0 <= x - 2 * sin (x / 2) * cos e <= x - 2 * sin (x / 2) + k^2).
  { intros x X. assert (S0 : 0 < sin (x / 2)) by (apply sin_gt_0; lra). pose proof (above_sin (x / 2) ltac:(lra)). pose proof (SIN_bound (x / 2)). nra. }
  destruct (Rcase_abs t) as [N|P].
  - rewrite (Rabs_left t N) in *. specialize (G (- t) T). replace (- t / 2) with (- (t / 2)) in G by field. rewrite sin_neg in G.
    replace (- t / 2) with (- (t / 2)) by field. rewrite sin_neg. rewrite Rabs_left1; lra.
  - rewrite (Rabs_right t P) in *. specialize (G t T). rewrite Rabs_pos_eq; lra.
Qed.

Lemma sum_area p l : Forall loop_seg l -> forall q, follows p l q ->
  exists v, Rabs v <= all_lost l /\ sum_dir l = ix q * iy q - ix p * iy p - seg_area2 l + v.
Proof.
  revert p. induction l as [|s l IH]; intros p FA q FO.
  - cbn in *. subst. exists 0. rewrite Rabs_R0. split; [lra|ring].
  - destruct FO as [E FO]. inversion FA as [|? ? S FA']; subst. destruct (IH (g_end s) FA' q FO) as (v & V & D).
    cbn [sum_dir seg_area2 all_lost]. rewrite D.
    destruct S as [(a & b & F & ->)|(a & b & d & F & H & ->)].
    + exists v. rewrite dir_line. unfold lost, bulge. cbn [line_seg g_ang g_start g_end]. rewrite bent_zero. split; [lra|ring].
    + destruct (dir_arc a b d (far_apart_ne a b F) H) as (e & EB & DE). cbv zeta in DE. rewrite DE.
      assert (T : 0 < Rabs (rad d) < 2 * PI /\ Rabs (rad d) = rad (Rabs d)).
      { pose proof PI_RGT_0. unfold rad. unfold Rdiv. rewrite !Rabs_mult, (Rabs_pos_eq PI), (Rabs_pos_eq (/ 180)) by lra. destruct H as [L U]. split; [|reflexivity]. nra. }
      destruct T as [T TE]. pose proof (loss_bound (g_rad (arc_seg a b d false)) (rad d) e _ EB T) as LB.
      exists ((g_rad (arc_seg a b d false))^2 * (rad d - 2 * sin (rad d / 2) * cos e) + v).
      split; [|rewrite (made_arc a b d H); cbn [g_start g_end]; ring].
      unfold lost. rewrite (made_arc a b d H) in *. cbn [g_ang g_rad] in *. rewrite (bent_arc d H), <- TE.
      eapply Rle_trans; [apply Rabs_triang|]. apply Rplus_le_compat; [exact LB|exact V].
Qed.

Lemma last_end p l : l <> [] -> forall q, follows p l q -> forall f l', l = f :: l' -> g_end (last l' f) = q /\ g_start f = p.
Proof.
  intros _ q FO f l' ->. destruct FO as [E FO]. split; [|exact E]. clear E. revert f FO. induction l' as [|t l IH]; intros f FO; [exact FO|].
  destruct FO as [_ FO]. rewrite last_cons. apply IH. exact FO.
Qed.

Lemma ccw_long p l q : (3 <= length l)%nat -> Forall loop_seg l -> follows p l q ->
  exists v, Rabs v <= all_lost l /\ (is_ccw (mkIo l (sum_dir l)) = true <-> v <= seg_area2 l + cross q p).
Proof.
  intros L FA FO. destruct (sum_area p l FA q FO) as (v & V & D). exists v. split; [exact V|].
  destruct l as [|s l]; [cbn in L; lia|]. destruct (last_end p (s :: l) ltac:(discriminate) q FO s l eq_refl) as [LE LS].
  destruct l as [|t l]; [cbn in L; lia|]. destruct l as [|u l]; [cbn in L; lia|].
  unfold is_ccw. cbn [l_segs l_dir]. rewrite LE, LS, D, negb_true_iff, ltb_false. unfold cross. split; intro; lra.
Qed.

Lemma lines_lose_nothing l : Forall (fun s => g_ang s = 0) l -> all_lost l = 0.
Proof. induction 1 as [|s l E _ IH]; [reflexivity|]. cbn [all_lost]. unfold lost. rewrite E, bent_zero, IH. ring. Qed.

(** ** Two segments *)

Lemma rad_sign d : (0 < d <-> 0 < rad d) /\ (d < 0 <-> rad d < 0).
Proof. unfold rad. pose proof PI_RGT_0. split; split; intro; nra. Qed.

Lemma bulge_arc a b d : a <> b -> arc_deg d -> let w := Rabs d * PI / 360 in
  0 < w < PI /\ 0 < g_rad (arc_seg a b d false) /\ g_rad (arc_seg a b d false) = idf_dist a b / 2 / sin w /\
  bulge (arc_seg a b d false) = (if ltb d 0 then -1 else 1) * ((idf_dist a b / 2)^2 * ((2 * w - sin (2 * w)) / (sin w * sin w))) /\
  0 < (idf_dist a b / 2)^2 * ((2 * w - sin (2 * w)) / (sin w * sin w)).
Proof.
  intros N H w. destruct (arc_radius_eq a b d N H) as [RP RE]. destruct (dist_polar a b N) as (D & _). pose proof PI_RGT_0 as P.
  assert (W : 0 < w < PI). { unfold w. destruct H. nra. }
  assert (SW : 0 < sin w) by (apply sin_gt_0; lra).
  assert (RS : Rabs (sin (d * PI / 360)) = sin w).
  { unfold w. destruct (Rcase_abs d) as [X|X].
    - rewrite (Rabs_left d X). replace (- d * PI / 360) with (- (d * PI / 360)) by field. rewrite sin_neg. apply Rabs_left.
      unfold w in SW. rewrite (Rabs_left d X) in SW. replace (- d * PI / 360) with (- (d * PI / 360)) in SW by field. rewrite sin_neg in SW. lra.
    - rewrite (Rabs_right d X). apply Rabs_pos_eq. unfold w in SW. rewrite (Rabs_right d X) in SW. lra. }
  split; [exact W|]. rewrite made_arc by exact H. unfold bulge. cbn [g_rad g_ang]. rewrite (bent_arc d H).
  split; [exact RP|]. rewrite RE, RS. split; [reflexivity|].
  assert (TW : rad (Rabs d) = 2 * w) by (unfold rad, w; field).
  pose proof (above_sin (2 * w) ltac:(lra)) as AS. split.
  - destruct (ltb d 0) eqn:L.
    + apply ltb_true in L. rewrite (Rabs_left d L) in TW. replace (rad d) with (- (2 * w)) by (rewrite <- TW; unfold rad; field).
      rewrite sin_neg. field. lra.
    + apply ltb_false in L. rewrite (Rabs_pos_eq d L) in TW. rewrite TW. field. lra.
  - apply Rmult_lt_0_compat; [nra|]. apply Rdiv_lt_0_compat; [lra|nra].
Qed.

Lemma cross_back a b : cross a b + cross b a = 0.
Proof. unfold cross. ring. Qed.

Lemma arc_deg_sign d : arc_deg d -> (d < 0 /\ ltb d 0 = true /\ ltb d (- min_ang) = true /\ ltb min_ang d = false) \/
  (0 < d /\ ltb d 0 = false /\ ltb d (- min_ang) = false /\ ltb min_ang d = true).
Proof.
  intros [L _]. unfold min_ang, Rabs in *. destruct (Rcase_abs d) as [N|P]; [left|right].
  - rewrite ltb_t by lra. rewrite (ltb_t d) by lra. rewrite ltb_f by lra. tauto.
  - rewrite ltb_f by lra. rewrite (ltb_f d) by lra. rewrite ltb_t by lra. repeat split. lra.
Qed.

Lemma dist_back a b : idf_dist a b = idf_dist b a.
Proof. unfold idf_dist. f_equal. ring. Qed.

Lemma ccw_two p s t : loop_seg s -> loop_seg t -> follows p [s; t] p -> seg_area2 [s; t] <> 0 ->
  (is_ccw (mkIo [s; t] (sum_dir [s; t])) = true <-> 0 < seg_area2 [s; t]).
Proof.
  intros S T (E1 & E2 & E3). cbn in E3. unfold is_ccw. cbn [l_segs seg_area2].
  assert (Z : ltb 0 (- min_ang) = false /\ ltb min_ang 0 = false) by (unfold min_ang; split; apply ltb_f; lra). destruct Z as [Z1 Z2].
  destruct S as [(a & b & F & ->)|(a & b & d & F & H & ->)]; destruct T as [(a' & b' & F' & ->)|(a' & b' & d' & F' & H' & ->)].
  - cbn [line_seg g_start g_end g_ang] in *. subst. unfold bulge. cbn [line_seg g_ang]. rewrite bent_zero. pose proof (cross_back p b). intro; exfalso; lra.
  - pose proof (far_apart_ne _ _ F') as N'.
    assert (EQ : a' = b /\ b' = a). { rewrite (made_arc a' b' d' H') in *. cbn [line_seg g_start g_end] in *. subst. tauto. }
    destruct EQ as [-> ->]. clear E1 E2 E3. destruct (bulge_arc b a d' N' H') as (_ & _ & _ & B & BP). intros _.
    assert (B0 : bulge (line_seg a b) = 0) by (unfold bulge; cbn [line_seg g_ang]; rewrite bent_zero; reflexivity).
    assert (A2 : g_ang (arc_seg b a d' false) = d') by now rewrite made_arc.
    assert (X : cross (g_start (arc_seg b a d' false)) (g_end (arc_seg b a d' false)) = cross b a) by now rewrite made_arc.
    rewrite B, B0, A2, X. cbn [line_seg g_start g_end g_ang]. rewrite bent_zero. cbn [andb]. rewrite Z1, Z2. pose proof (cross_back a b).
    destruct (arc_deg_sign d' H') as [(Y & L1 & L2 & L3)|(Y & L1 & L2 & L3)]; rewrite L1, L2; [|rewrite L3]; split; intro; try discriminate; try reflexivity; lra.
  - pose proof (far_apart_ne _ _ F) as N.
    assert (EQ : a' = b /\ b' = a). { rewrite (made_arc a b d H) in *. cbn [line_seg g_start g_end] in *. subst. tauto. }
    destruct EQ as [-> ->]. clear E1 E2 E3. destruct (bulge_arc a b d N H) as (_ & _ & _ & B & BP). intros _.
    assert (B0 : bulge (line_seg b a) = 0) by (unfold bulge; cbn [line_seg g_ang]; rewrite bent_zero; reflexivity).
    assert (A1 : g_ang (arc_seg a b d false) = d) by now rewrite made_arc.
    assert (X : cross (g_start (arc_seg a b d false)) (g_end (arc_seg a b d false)) = cross a b) by now rewrite made_arc.
    rewrite B, B0, A1, X. cbn [line_seg g_start g_end g_ang]. rewrite bent_zero, (bent_arc d H). cbn [andb]. pose proof (cross_back a b).
    destruct (arc_deg_sign d H) as [(Y & L1 & L2 & L3)|(Y & L1 & L2 & L3)]; rewrite L1, L2; [|rewrite L3]; split; intro; try discriminate; try reflexivity; lra.
  - pose proof (far_apart_ne _ _ F) as N. pose proof (far_apart_ne _ _ F') as N'.
    assert (EQ : a' = b /\ b' = a). { rewrite (made_arc a b d H), (made_arc a' b' d' H') in *. cbn [g_start g_end] in *. subst. tauto. }
    destruct EQ as [-> ->]. clear E1 E2 E3.
    destruct (bulge_arc a b d N H) as (W & RP & R & B & BP). destruct (bulge_arc b a d' N' H') as (W' & RP' & R' & B' & BP').
    rewrite (dist_back b a) in *. destruct (dist_polar a b N) as (DP & _). set (D := idf_dist a b) in *.
    rewrite !B, !B', R, R'. assert (A1 : g_ang (arc_seg a b d false) = d) by now rewrite made_arc.
    assert (A2 : g_ang (arc_seg b a d' false) = d') by now rewrite made_arc. rewrite A1, A2, (bent_arc d H), (bent_arc d' H'). cbn [andb].
    assert (X : cross (g_start (arc_seg a b d false)) (g_end (arc_seg a b d false)) + cross (g_start (arc_seg b a d' false)) (g_end (arc_seg b a d' false)) = 0).
    { rewrite (made_arc a b d H), (made_arc b a d' H'). cbn [g_start g_end]. apply cross_back. }
    set (w := Rabs d * PI / 360) in *. set (w' := Rabs d' * PI / 360) in *. pose proof PI_RGT_0 as PP.
    assert (S1 : 0 < sin w) by (apply sin_gt_0; lra). assert (S2 : 0 < sin w') by (apply sin_gt_0; lra).
    assert (Q : Rabs (d * (D / 2 / sin w)) = 180 * D / PI * (w / sin w)).
    { rewrite Rabs_mult, (Rabs_pos_eq (D / 2 / sin w)) by (apply Rlt_le, Rdiv_lt_0_compat; lra). replace (Rabs d) with (w * 360 / PI) by (unfold w; field; lra). field. split; lra. }
    assert (Q' : Rabs (d' * (D / 2 / sin w')) = 180 * D / PI * (w' / sin w')).
    { rewrite Rabs_mult, (Rabs_pos_eq (D / 2 / sin w')) by (apply Rlt_le, Rdiv_lt_0_compat; lra). replace (Rabs d') with (w' * 360 / PI) by (unfold w'; field; lra). field. split; lra. }
    assert (K : 0 < 180 * D / PI) by (apply Rdiv_lt_0_compat; lra).
    assert (K2 : 0 < (D / 2)^2) by nra.
    rewrite Q, Q'. intro NZ.
    set (A := (2 * w - sin (2 * w)) / (sin w * sin w)) in *. set (A' := (2 * w' - sin (2 * w')) / (sin w' * sin w')) in *.
    assert (C : (w < w' /\ leb (180 * D / PI * (w' / sin w')) (180 * D / PI * (w / sin w)) = false /\ (D / 2)^2 * A < (D / 2)^2 * A') \/
      (w' <= w /\ leb (180 * D / PI * (w' / sin w')) (180 * D / PI * (w / sin w)) = true /\ (D / 2)^2 * A' <= (D / 2)^2 * A)).
    { destruct (Rtotal_order w w') as [L|[L|L]].
      - left. split; [exact L|]. pose proof (length_grows w w' ltac:(lra) ltac:(lra)). pose proof (area_grows w w' ltac:(lra) ltac:(lra)) as AG. fold A A' in AG.
        split; [apply leb_f; nra|nra].
      - right. split; [lra|]. unfold A, A'. rewrite L. split; [apply leb_t; lra|lra].
      - right. split; [lra|]. pose proof (length_grows w' w ltac:(lra) ltac:(lra)). pose proof (area_grows w' w ltac:(lra) ltac:(lra)) as AG. fold A A' in AG.
        split; [apply leb_t; nra|nra]. }
    destruct (arc_deg_sign d H) as [(X1 & L1 & _)|(X1 & L1 & _)]; destruct (arc_deg_sign d' H') as [(X2 & M1 & _)|(X2 & M1 & _)]; rewrite L1, M1 in *;
      destruct C as [(C & Y & Z)|(C & Y & Z)]; rewrite Y; cbn [negb]; split; intro; try discriminate; try reflexivity; try lra.
Qed.

(** ** The convention of KiCad *)

Lemma kicad_arc a b d : a <> b -> full_turn d = false -> 1 / 100 <= Rabs d -> exists e, Rabs e <= rad (1 / 10000) /\
  let s := arc_seg a b d true in
  g_cen s = a /\ g_start s = b /\ g_ang s = d /\ g_rad s = away a b /\ g_end s = rotated a (rad d - e) b.
Proof.
  intros N F L. pose proof (off_near a b) as O. unfold angle_rad in O at 1.
  destruct (dist_polar a b N) as (DP & _).
  destruct (bearing a b (idf_dist a b) DP) as (C & S & _). { rewrite idf_dist_away. reflexivity. }
  set (f := atan2 (iy b - iy a) (ix b - ix a)) in *. exists (f - rad (angle_deg a b)). split; [exact O|].
  cbv zeta. unfold arc_seg. rewrite F. cbn [negb]. rewrite orb_false_r. unfold min_ang.
  assert (Z : ltb d (1 / 100) && ltb (- (1 / 100)) d = false).
  { destruct (ltb d (1 / 100)) eqn:A; [|reflexivity]. destruct (ltb (- (1 / 100)) d) eqn:B; [|reflexivity].
    apply ltb_true in A. apply ltb_true in B. unfold Rabs in L. destruct (Rcase_abs d); lra. }
  rewrite Z. cbn [g_cen g_start g_ang g_rad g_end]. do 3 (split; [reflexivity|]).
  split; [rewrite idf_dist_away; apply away_sym|]. unfold rotated.
  replace ((angle_deg a b + d) / 180 * PI) with (f + (rad d - (f - rad (angle_deg a b)))) by (unfold rad; field).
  rewrite cos_plus, sin_plus, <- C, <- S. f_equal; ring.
Qed.
