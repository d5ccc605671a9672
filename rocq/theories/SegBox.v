(** The bounding box of a segment holds the segment and touches it on all sides. *)

From Coq Require Import Reals Lra Psatz List Bool ZArith Lia.
From Verif Require Import SegModel SegSpec SegTrig SegFacts.
Import ListNotations.
Open Scope R_scope.

(** ** The largest cosine over a range of angles *)

Lemma cos_max lo hi w : lo <= w <= hi ->
  (exists k : Z, lo <= 2 * PI * IZR k <= hi) \/ cos w <= Rmax (cos lo) (cos hi).
Proof.
  intros W. pose proof two_pi as T. set (k := (up (lo / (2 * PI)) - 1)%Z).
  pose proof (up_spec (lo / (2 * PI))) as U.
  assert (E : lo = lo / (2 * PI) * (2 * PI)) by (field; lra). set (v := lo / (2 * PI)) in *.
  assert (K : IZR k = IZR (up v) - 1) by (unfold k; rewrite minus_IZR; reflexivity).
  assert (A : 2 * PI * IZR k <= lo) by (rewrite K; nra).
  assert (B : lo < 2 * PI * IZR (k + 1)) by (rewrite plus_IZR, K; nra).
  destruct (Rle_lt_or_eq_dec _ _ A) as [A'|A']; [|left; exists k; lra].
  destruct (Rlt_dec hi (2 * PI * IZR (k + 1))) as [B'|B']; [|left; exists (k + 1)%Z; lra].
  right. rewrite plus_IZR in B'.
  assert (C : forall a, cos a = cos (a - 2 * PI * IZR k)).
  { intro a. destruct (cos_turns a (- k)) as [Q _]. rewrite opp_IZR in Q. rewrite <- Q. f_equal. ring. }
  rewrite (C w), (C lo), (C hi). set (l := lo - _) in *. set (h := hi - _) in *. set (x := w - _) in *.
  assert (0 < l) by (unfold l; lra). assert (l <= x <= h) by (unfold l, x, h; lra). assert (h < 2 * PI) by (unfold h; lra).
  destruct (Rle_dec x PI).
  - eapply Rle_trans; [|apply Rmax_l]. apply cos_decr_1; lra.
  - eapply Rle_trans; [|apply Rmax_r]. apply cos_incr_1; lra.
Qed.

Lemma cos_shift a b : cos (a - b) = cos a * cos b + sin a * sin b. Proof. apply cos_minus. Qed.

(* the four directions: right, up, left, down *)
Lemma sin_as_cos a : sin a = cos (a - PI / 2). Proof. rewrite cos_minus, cos_PI2, sin_PI2. ring. Qed.
Lemma ncos_as_cos a : - cos a = cos (a - PI). Proof. rewrite cos_minus, cos_PI, sin_PI. ring. Qed.
Lemma nsin_as_cos a : - sin a = cos (a + PI / 2). Proof. rewrite cos_plus, cos_PI2, sin_PI2. ring. Qed.

(** ** Boxes are widened to hold more points *)

Definition lower (b : pt * pt) (v : R) (f : pt -> R) : Prop := f (fst b) <= v.

Lemma widen_x b m : px (fst (widen b m)) = Rmin (px (fst b)) (px m) /\ px (snd (widen b m)) = Rmax (px (snd b)) (px m) /\
  py (fst (widen b m)) = Rmin (py (fst b)) (py m) /\ py (snd (widen b m)) = Rmax (py (snd b)) (py m).
Proof.
  destruct b as [p0 p1]. cbn [widen fst snd px py]. unfold ltb, Rmin, Rmax.
  repeat split; repeat match goal with |- context [Rlt_dec ?a ?b] => destruct (Rlt_dec a b) | |- context [Rle_dec ?a ?b] => destruct (Rle_dec a b) end; lra.
Qed.

Definition spans (b : pt * pt) (lx ly hx hy : R) : Prop :=
  px (fst b) = lx /\ py (fst b) = ly /\ px (snd b) = hx /\ py (snd b) = hy.

Lemma fold_widen l : forall b,
  let r := fold_left widen l b in
  (px (fst r) <= px (fst b) /\ py (fst r) <= py (fst b) /\ px (snd b) <= px (snd r) /\ py (snd b) <= py (snd r)) /\
  (forall m, In m l -> px (fst r) <= px m <= px (snd r) /\ py (fst r) <= py m <= py (snd r)) /\
  (px (fst r) = px (fst b) \/ exists m, In m l /\ px (fst r) = px m) /\
  (py (fst r) = py (fst b) \/ exists m, In m l /\ py (fst r) = py m) /\
  (px (snd r) = px (snd b) \/ exists m, In m l /\ px (snd r) = px m) /\
  (py (snd r) = py (snd b) \/ exists m, In m l /\ py (snd r) = py m).
Proof.
  induction l as [|m l IH]; intro b; cbn [fold_left].
  - repeat split; try lra; try (now left); intros; contradiction.
  - specialize (IH (widen b m)). cbv zeta in IH. set (r := fold_left widen l (widen b m)) in *.
    destruct IH as ((I1 & I2 & I3 & I4) & Im & J1 & J2 & J3 & J4).
    destruct (widen_x b m) as (W1 & W2 & W3 & W4). rewrite W1 in I1, J1. rewrite W2 in I3, J3. rewrite W3 in I2, J2. rewrite W4 in I4, J4.
    pose proof (Rmin_l (px (fst b)) (px m)). pose proof (Rmin_r (px (fst b)) (px m)).
    pose proof (Rmin_l (py (fst b)) (py m)). pose proof (Rmin_r (py (fst b)) (py m)).
    pose proof (Rmax_l (px (snd b)) (px m)). pose proof (Rmax_r (px (snd b)) (px m)).
    pose proof (Rmax_l (py (snd b)) (py m)). pose proof (Rmax_r (py (snd b)) (py m)).
    cbv zeta. split; [|split; [|split; [|split; [|split]]]].
    + lra.
    + intros m' [<-|G]; [lra|]. exact (Im m' G).
    + destruct J1 as [J|(m' & G & J)]; [|right; exists m'; cbn; tauto].
      unfold Rmin in J. destruct (Rle_dec _ _); [now left|]. right. exists m. cbn. tauto.
    + destruct J2 as [J|(m' & G & J)]; [|right; exists m'; cbn; tauto].
      unfold Rmin in J. destruct (Rle_dec _ _); [now left|]. right. exists m. cbn. tauto.
    + destruct J3 as [J|(m' & G & J)]; [|right; exists m'; cbn; tauto].
      unfold Rmax in J. destruct (Rle_dec _ _); [|now left]. right. exists m. cbn. tauto.
    + destruct J4 as [J|(m' & G & J)]; [|right; exists m'; cbn; tauto].
      unfold Rmax in J. destruct (Rle_dec _ _); [|now left]. right. exists m. cbn. tauto.
Qed.

(** ** Arcs *)

Lemma between_true v a b : between v a b = true <-> a <= v <= b.
Proof. unfold between. rewrite andb_true_iff, !leb_true. tauto. Qed.

(* [v] plus a whole number of turns within (-pi, 3 pi) *)
Lemma turns_range (v : R) (k : Z) : - PI < v + 2 * PI * IZR k < 3 * PI -> 0 <= v -> v <= PI -> k = 0%Z \/ k = 1%Z.
Proof.
  intros H A B. pose proof PI_RGT_0 as P.
  assert (IZR (-1) < IZR k) by (apply (Rmult_lt_reg_l (2 * PI)); [lra|]; change (IZR (-1)) with (-1); lra).
  assert (IZR k < IZR 2) by (apply (Rmult_lt_reg_l (2 * PI)); [lra|]; change (IZR 2) with 2; lra).
  apply lt_IZR in H0. apply lt_IZR in H1. lia.
Qed.

Lemma extremum_in s (n : nat) p :
  - PI < start_angle s -> end_angle s < 3 * PI ->
  nth n [mkPt (px (s_cen s) + s_rad s) (py (s_cen s)) 0; mkPt (px (s_cen s)) (py (s_cen s) + s_rad s) 0;
         mkPt (px (s_cen s) - s_rad s) (py (s_cen s)) 0; mkPt (px (s_cen s)) (py (s_cen s) - s_rad s) 0] origin = p ->
  (n < 4)%nat ->
  (exists k, start_angle s <= nth n [0; PI / 2; PI; - (PI / 2)] 0 + 2 * PI * IZR k <= end_angle s) -> In p (arc_extrema s).
Proof.
  intros A B E N (k & K). pose proof PI_RGT_0 as P. unfold arc_extrema. rewrite !in_app_iff.
  destruct n as [|[|[|[|n]]]]; cbn [nth] in E, K; [| | | |lia]; subst p.
  - left. assert (T : k = 0%Z \/ k = 1%Z) by (apply (turns_range 0); lra).
    assert (between 0 (start_angle s) (end_angle s) || between (2 * PI) (start_angle s) (end_angle s) = true) as ->; [|now left].
    apply orb_true_iff. rewrite !between_true. destruct T as [-> | ->]; [left|right]; lra.
  - right; left. assert (T : k = 0%Z \/ k = 1%Z) by (apply (turns_range (PI / 2)); lra).
    assert (between (PI * (1 / 2)) (start_angle s) (end_angle s) || between (5 / 2 * PI) (start_angle s) (end_angle s) = true) as ->; [|now left].
    apply orb_true_iff. rewrite !between_true. destruct T as [-> | ->]; [left|right]; lra.
  - right; right; left. assert (T : k = 0%Z \/ k = 1%Z) by (apply (turns_range PI); lra).
    assert (between PI (start_angle s) (end_angle s) = true) as ->; [|now left].
    rewrite between_true. destruct T as [-> | ->]; lra.
  - right; right; right.
    assert (T : k = 0%Z \/ k = 1%Z).
    { assert (IZR (-1) < IZR k) by (apply (Rmult_lt_reg_l (2 * PI)); [lra|]; change (IZR (-1)) with (-1); lra).
      assert (IZR k < IZR 2) by (apply (Rmult_lt_reg_l (2 * PI)); [lra|]; change (IZR 2) with 2; lra).
      apply lt_IZR in H. apply lt_IZR in H0. lia. }
    assert (between (- (1 / 2) * PI) (start_angle s) (end_angle s) || between (3 / 2 * PI) (start_angle s) (end_angle s) = true) as ->; [|now left].
    apply orb_true_iff. rewrite !between_true. destruct T as [-> | ->]; [left|right]; lra.
Qed.

Lemma extremum_on s m : In m (arc_extrema s) -> covers (mkSeg SArc (s_rad s) (s_sang s) (s_eang s) (s_cw s) (s_cen s) (s_start s) (s_end s)) m.
Proof.
  unfold arc_extrema, covers, on_round; cbn [s_ty s_cen s_rad]. change (start_angle (mkSeg SArc _ _ _ _ _ _ _)) with (start_angle s).
  change (end_angle (mkSeg SArc _ _ _ _ _ _ _)) with (end_angle s). rewrite !in_app_iff.
  assert (C : forall v, cos (2 * PI + v) = cos v /\ sin (2 * PI + v) = sin v).
  { intro v. rewrite Rplus_comm. split; [apply cos_turn|apply sin_turn]. }
  intros [H|[H|[H|H]]].
  - destruct (between 0 _ _ || _) eqn:E; [|contradiction]. destruct H as [<-|[]]. cbn [px py].
    apply orb_true_iff in E. rewrite !between_true in E. destruct E as [E|E].
    + exists 0. rewrite cos_0, sin_0. split; [lra|]. split; ring.
    + exists (2 * PI). split; [lra|]. rewrite cos_2PI, sin_2PI. split; ring.
  - destruct (between _ _ _ || _) eqn:E; [|contradiction]. destruct H as [<-|[]]. cbn [px py].
    apply orb_true_iff in E. rewrite !between_true in E. destruct E as [E|E].
    + exists (PI / 2). rewrite cos_PI2, sin_PI2. split; [lra|]. split; ring.
    + exists (2 * PI + PI / 2). split; [lra|]. destruct (C (PI / 2)) as [-> ->]. rewrite cos_PI2, sin_PI2. split; ring.
  - destruct (between _ _ _) eqn:E; [|contradiction]. destruct H as [<-|[]]. cbn [px py].
    apply between_true in E. exists PI. split; [lra|]. rewrite cos_PI, sin_PI. split; ring.
  - destruct (between _ _ _ || _) eqn:E; [|contradiction]. destruct H as [<-|[]]. cbn [px py].
    apply orb_true_iff in E. rewrite !between_true in E. destruct E as [E|E].
    + exists (- (PI / 2)). rewrite cos_neg, sin_neg, cos_PI2, sin_PI2. split; [lra|]. split; ring.
    + exists (2 * PI + - (PI / 2)). split; [lra|]. destruct (C (- (PI / 2))) as [-> ->]. rewrite cos_neg, sin_neg, cos_PI2, sin_PI2. split; ring.
Qed.

Lemma dist_coord p q d : dist p q <= d -> px p - d <= px q <= px p + d /\ py p - d <= py q <= py p + d.
Proof.
  intro H. pose proof (dist_pos p q) as P. assert (D : 0 <= d) by lra. apply dist2_bound in H; [|exact D].
  unfold dist2 in H. pose proof (pow2_ge_0 (px p - px q)). pose proof (pow2_ge_0 (py p - py q)).
  assert (forall v, v^2 <= d * d -> - d <= v <= d) as Q.
  { intros v V. split; nra. }
  pose proof (Q (px p - px q) ltac:(lra)). pose proof (Q (py p - py q) ltac:(lra)). lra.
Qed.

(* the start and end of the course, in counterclockwise order *)
Lemma ends_of_arc d s : arc_in_order d s ->
  exists u v, (u = s_start s /\ v = s_end s \/ u = s_end s /\ v = s_start s) /\
    px u - d <= px (s_cen s) + s_rad s * cos (start_angle s) <= px u + d /\
    py u - d <= py (s_cen s) + s_rad s * sin (start_angle s) <= py u + d /\
    px v - d <= px (s_cen s) + s_rad s * cos (end_angle s) <= px v + d /\
    py v - d <= py (s_cen s) + s_rad s * sin (end_angle s) <= py v + d.
Proof.
  intros (T & R & _ & _ & _ & _ & A & B).
  set (p0 := mkPt (px (s_cen s) + s_rad s * cos (s_sang s)) (py (s_cen s) + s_rad s * sin (s_sang s)) 0).
  set (p1 := mkPt (px (s_cen s) + s_rad s * cos (s_eang s)) (py (s_cen s) + s_rad s * sin (s_eang s)) 0).
  assert (A' : dist p0 (s_start s) <= d).
  { apply A. unfold course, on_round. rewrite T. replace (s_sang s + 0 * (s_eang s - s_sang s)) with (s_sang s) by ring. split; reflexivity. }
  assert (B' : dist p1 (s_end s) <= d).
  { apply B. unfold course, on_round. rewrite T. replace (s_sang s + 1 * (s_eang s - s_sang s)) with (s_eang s) by ring. split; reflexivity. }
  apply dist_coord in A'. apply dist_coord in B'. unfold p0, p1 in *. cbn [px py] in *.
  unfold start_angle, end_angle. destruct (s_cw s).
  - exists (s_end s), (s_start s). split; [now right|]. lra.
  - exists (s_start s), (s_end s). split; [now left|]. lra.
Qed.

Lemma arc_box_bounds d s p0 p1 : arc_in_order d s -> exists b, get_box s p0 p1 = (true, b) /\
  (forall p, covers s p -> px (fst b) - d <= px p <= px (snd b) + d /\ py (fst b) - d <= py p <= py (snd b) + d) /\
  (exists p, covers s p /\ px p - d <= px (fst b)) /\ (exists p, covers s p /\ px (snd b) <= px p + d) /\
  (exists p, covers s p /\ py p - d <= py (fst b)) /\ (exists p, covers s p /\ py (snd b) <= py p + d).
Proof.
  intro O. destruct (ends_of_arc d s O) as (u & v & UV & U1 & U2 & V1 & V2).
  destruct O as (T & R & A0 & A1 & L & L2 & _).
  unfold get_box. rewrite T.
  set (x := if ltb (px (s_start s)) (px (s_end s)) then (px (s_start s), px (s_end s)) else (px (s_end s), px (s_start s))).
  set (y := if ltb (py (s_start s)) (py (s_end s)) then (py (s_start s), py (s_end s)) else (py (s_end s), py (s_start s))).
  assert (X : fst x = Rmin (px u) (px v) /\ snd x = Rmax (px u) (px v)).
  { unfold x, ltb, Rmin, Rmax. destruct UV as [[-> ->]|[-> ->]];
    repeat match goal with |- context [Rlt_dec ?a ?b] => destruct (Rlt_dec a b) | |- context [Rle_dec ?a ?b] => destruct (Rle_dec a b) end; cbn [fst snd]; lra. }
  assert (Y : fst y = Rmin (py u) (py v) /\ snd y = Rmax (py u) (py v)).
  { unfold y, ltb, Rmin, Rmax. destruct UV as [[-> ->]|[-> ->]];
    repeat match goal with |- context [Rlt_dec ?a ?b] => destruct (Rlt_dec a b) | |- context [Rle_dec ?a ?b] => destruct (Rle_dec a b) end; cbn [fst snd]; lra. }
  clearbody x y. destruct X as [X1 X2]. destruct Y as [Y1 Y2].
  set (b0 := (mkPt (fst x) (fst y) (pz p0), mkPt (snd x) (snd y) (pz p1))).
  set (b := fold_left widen (arc_extrema s) b0). exists b. split; [reflexivity|].
  destruct (fold_widen (arc_extrema s) b0) as ((I1 & I2 & I3 & I4) & Im & J1 & J2 & J3 & J4). fold b in I1, I2, I3, I4, Im, J1, J2, J3, J4.
  unfold b0 in I1, I2, I3, I4, J1, J2, J3, J4. cbn [fst snd px py] in I1, I2, I3, I4, J1, J2, J3, J4.
  rewrite X1 in I1, J1. rewrite X2 in I3, J3. rewrite Y1 in I2, J2. rewrite Y2 in I4, J4. clearbody b. clear X1 X2 Y1 Y2 b0 x y.
  pose proof (Rmin_l (px u) (px v)). pose proof (Rmin_r (px u) (px v)). pose proof (Rmin_l (py u) (py v)). pose proof (Rmin_r (py u) (py v)).
  pose proof (Rmax_l (px u) (px v)). pose proof (Rmax_r (px u) (px v)). pose proof (Rmax_l (py u) (py v)). pose proof (Rmax_r (py u) (py v)).
  assert (Ext : forall n k, (n < 4)%nat -> start_angle s <= nth n [0; PI / 2; PI; - (PI / 2)] 0 + 2 * PI * IZR k <= end_angle s ->
    In (nth n [mkPt (px (s_cen s) + s_rad s) (py (s_cen s)) 0; mkPt (px (s_cen s)) (py (s_cen s) + s_rad s) 0;
         mkPt (px (s_cen s) - s_rad s) (py (s_cen s)) 0; mkPt (px (s_cen s)) (py (s_cen s) - s_rad s) 0] origin) (arc_extrema s)).
  { intros n k N K. eapply extremum_in; [exact A0|exact A1|reflexivity|exact N|]. exists k. exact K. }
  assert (Cov : forall m, In m (arc_extrema s) -> covers s m).
  { intros m G. apply extremum_on in G. unfold covers in *. rewrite T. exact G. }
  assert (CovS : covers s (mkPt (px (s_cen s) + s_rad s * cos (start_angle s)) (py (s_cen s) + s_rad s * sin (start_angle s)) 0)).
  { unfold covers. rewrite T. exists (start_angle s). split; [lra|]. split; reflexivity. }
  assert (CovE : covers s (mkPt (px (s_cen s) + s_rad s * cos (end_angle s)) (py (s_cen s) + s_rad s * sin (end_angle s)) 0)).
  { unfold covers. rewrite T. exists (end_angle s). split; [lra|]. split; reflexivity. }
  set (cx := px (s_cen s)) in *. set (cy := py (s_cen s)) in *. set (r := s_rad s) in *.
  set (S0 := start_angle s) in *. set (E0 := end_angle s) in *.
  assert (Dp : 0 <= d) by lra.
  assert (Ml : forall a b c, a <= Rmax b c -> a <= b \/ a <= c).
  { intros a c e. unfold Rmax. destruct (Rle_dec c e); tauto. }
  assert (Mono : forall a c, a <= c -> r * a <= r * c) by (intros; nra).
  assert (SideR : forall w, S0 <= w <= E0 -> cx + r * cos w <= px (snd b) + d).
  { intros w W. pose proof (COS_bound w) as [_ CB]. destruct (cos_max S0 E0 w W) as [(k & K)|M].
    - pose proof (Im _ (Ext 0%nat k ltac:(lia) ltac:(cbn [nth]; lra))) as Q. cbn [nth px] in Q. pose proof (Mono _ _ CB). lra.
    - destruct (Ml _ _ _ M) as [Q|Q]; apply Mono in Q; lra. }
  assert (SideT : forall w, S0 <= w <= E0 -> cy + r * sin w <= py (snd b) + d).
  { intros w W. pose proof (SIN_bound w) as [_ CB]. rewrite sin_as_cos in CB.
    rewrite (sin_as_cos w). rewrite (sin_as_cos S0) in U2. rewrite (sin_as_cos E0) in V2.
    destruct (cos_max (S0 - PI / 2) (E0 - PI / 2) (w - PI / 2) ltac:(lra)) as [(k & K)|M].
    - pose proof (Im _ (Ext 1%nat k ltac:(lia) ltac:(cbn [nth]; lra))) as Q. cbn [nth py] in Q. pose proof (Mono _ _ CB). lra.
    - destruct (Ml _ _ _ M) as [Q|Q]; apply Mono in Q; lra. }
  assert (SideL : forall w, S0 <= w <= E0 -> px (fst b) - d <= cx + r * cos w).
  { intros w W. pose proof (COS_bound w) as [CB _].
    destruct (cos_max (S0 - PI) (E0 - PI) (w - PI) ltac:(lra)) as [(k & K)|M].
    - pose proof (Im _ (Ext 2%nat k ltac:(lia) ltac:(cbn [nth]; lra))) as Q. cbn [nth px] in Q. pose proof (Mono _ _ CB). lra.
    - rewrite <- !ncos_as_cos in M. destruct (Ml _ _ _ M) as [Q|Q]; apply Mono in Q; lra. }
  assert (SideB : forall w, S0 <= w <= E0 -> py (fst b) - d <= cy + r * sin w).
  { intros w W. pose proof (SIN_bound w) as [CB _].
    destruct (cos_max (S0 + PI / 2) (E0 + PI / 2) (w + PI / 2) ltac:(lra)) as [(k & K)|M].
    - pose proof (Im _ (Ext 3%nat k ltac:(lia) ltac:(cbn [nth]; lra))) as Q. cbn [nth py] in Q. pose proof (Mono _ _ CB). lra.
    - rewrite <- !nsin_as_cos in M. destruct (Ml _ _ _ M) as [Q|Q]; apply Mono in Q; lra. }
  split; [|split; [|split; [|split]]].
  - intros p Hp. unfold covers in Hp. rewrite T in Hp. destruct Hp as (w & W & P1 & P2). fold cx r in P1. fold cy r in P2. rewrite P1, P2.
    split; split; auto.
  - destruct J1 as [J|(m & G & J)]; [|exists m; split; [now apply Cov|lra]].
    unfold Rmin in J. destruct (Rle_dec (px u) (px v)).
    + eexists; split; [exact CovS|]. cbn [px py]. lra.
    + eexists; split; [exact CovE|]. cbn [px py]. lra.
  - destruct J3 as [J|(m & G & J)]; [|exists m; split; [now apply Cov|lra]].
    unfold Rmax in J. destruct (Rle_dec (px u) (px v)).
    + eexists; split; [exact CovE|]. cbn [px py]. lra.
    + eexists; split; [exact CovS|]. cbn [px py]. lra.
  - destruct J2 as [J|(m & G & J)]; [|exists m; split; [now apply Cov|lra]].
    unfold Rmin in J. destruct (Rle_dec (py u) (py v)).
    + eexists; split; [exact CovS|]. cbn [px py]. lra.
    + eexists; split; [exact CovE|]. cbn [px py]. lra.
  - destruct J4 as [J|(m & G & J)]; [|exists m; split; [now apply Cov|lra]].
    unfold Rmax in J. destruct (Rle_dec (py u) (py v)).
    + eexists; split; [exact CovE|]. cbn [px py]. lra.
    + eexists; split; [exact CovS|]. cbn [px py]. lra.
Qed.

(** ** Circles and lines *)

Lemma circle_box_bounds s p0 p1 : s_ty s = SCircle -> 0 < s_rad s -> exists b, get_box s p0 p1 = (true, b) /\
  (forall p, covers s p -> px (fst b) <= px p <= px (snd b) /\ py (fst b) <= py p <= py (snd b)) /\
  (exists p, covers s p /\ px p = px (fst b)) /\ (exists p, covers s p /\ px p = px (snd b)) /\
  (exists p, covers s p /\ py p = py (fst b)) /\ (exists p, covers s p /\ py p = py (snd b)).
Proof.
  intros T R. unfold get_box, covers. rewrite T. eexists. split; [reflexivity|]. cbn [fst snd px py]. split.
  - intros p H. unfold dist2 in H. pose proof (pow2_ge_0 (px p - px (s_cen s))). pose proof (pow2_ge_0 (py p - py (s_cen s))).
    assert (Q : forall v, v^2 <= s_rad s ^2 -> - s_rad s <= v <= s_rad s) by (intros v V; split; nra).
    pose proof (Q (px p - px (s_cen s)) ltac:(lra)). pose proof (Q (py p - py (s_cen s)) ltac:(lra)). lra.
  - split; [exists (mkPt (px (s_cen s) - s_rad s) (py (s_cen s)) 0)|split; [exists (mkPt (px (s_cen s) + s_rad s) (py (s_cen s)) 0)|
    split; [exists (mkPt (px (s_cen s)) (py (s_cen s) - s_rad s) 0)|exists (mkPt (px (s_cen s)) (py (s_cen s) + s_rad s) 0)]]];
    cbn [px py]; unfold dist2; cbn [px py]; split; ring.
Qed.

Lemma line_box_bounds s p0 p1 : s_ty s = SLine -> exists b, get_box s p0 p1 = (true, b) /\
  (exists d, 0 <= d < e8 /\ (e8 <= Rabs (px (s_start s) - px (s_end s)) -> d = 0) /\
    forall p, covers s p -> px (fst b) - d <= px p <= px (snd b) + d /\ py (fst b) <= py p <= py (snd b)) /\
  (exists p, covers s p /\ px p = px (fst b)) /\ (exists p, covers s p /\ px p = px (snd b)) /\
  (exists p, covers s p /\ py p = py (fst b)) /\ (exists p, covers s p /\ py p = py (snd b)).
Proof.
  intros T. pose proof e8_pos as E. unfold get_box. rewrite T. set (a := s_start s). set (b := s_end s).
  assert (CA : covers s a) by (unfold covers; rewrite T; exists 0; fold a b; split; [lra|split; ring]).
  assert (CB : covers s b) by (unfold covers; rewrite T; exists 1; fold a b; split; [lra|split; ring]).
  assert (Mix : forall p, covers s p -> Rmin (px a) (px b) <= px p <= Rmax (px a) (px b) /\ Rmin (py a) (py b) <= py p <= Rmax (py a) (py b)).
  { intros p H. unfold covers in H. rewrite T in H. destruct H as (t & I & -> & ->). fold a b.
    assert (Q : forall u v, Rmin u v <= u + t * (v - u) <= Rmax u v).
    { intros u v. unfold Rmin, Rmax. destruct (Rle_dec u v); nra. }
    split; apply Q. }
  unfold Rmin, Rmax in Mix.
  destruct (ltb (Rabs (px a - px b)) e8) eqn:V.
  - apply ltb_true in V. exists (if leb (py a) (py b) then (a, b) else (b, a)). split; [reflexivity|]. split.
    + exists (Rabs (px a - px b)). pose proof (Rabs_pos (px a - px b)). split; [lra|]. split; [intros; lra|].
      intros p Hp. apply Mix in Hp. unfold leb, Rabs in *.
      destruct (Rle_dec (px a) (px b)); destruct (Rle_dec (py a) (py b)); destruct (Rcase_abs (px a - px b)); cbn [fst snd]; lra.
    + destruct (leb (py a) (py b)); cbn [fst snd]; (split; [|split; [|split]]); first [exists a; split; [assumption|reflexivity]|exists b; split; [assumption|reflexivity]].
  - apply ltb_false in V. eexists. split; [reflexivity|]. cbn [fst snd px py]. split.
    + exists 0. split; [lra|]. split; [reflexivity|]. intros p Hp. apply Mix in Hp. unfold ltb.
      destruct (Rle_dec (px a) (px b)); destruct (Rle_dec (py a) (py b)); destruct (Rlt_dec (px a) (px b)); destruct (Rlt_dec (py a) (py b)); cbn [fst snd]; lra.
    + destruct (ltb (px a) (px b)); destruct (ltb (py a) (py b)); cbn [fst snd]; (split; [|split; [|split]]); first [exists a; split; [assumption|reflexivity]|exists b; split; [assumption|reflexivity]].
Qed.
