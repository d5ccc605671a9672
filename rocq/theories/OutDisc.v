(** Merging two discs and cutting a disc out of another. *)

From Coq Require Import Reals List Bool ZArith Arith Lra Lia.
From Verif Require Import SegModel SegSpec SegTrig SegFacts SegSplit SegSplitArc SegProps CutModel CutSpec CutCircle CutCases OutModel OutSpec OutFacts OutBox OutInside OutCut.
Import ListNotations.
Open Scope R_scope.

(** ** Which side of a chord *)

Definition side (p q v : pt) : R := (px q - px p) * (py v - py p) - (py q - py p) * (px v - px p).

Lemma side_swap p q v : side q p v = - side p q v.
Proof. unfold side. ring. Qed.

Lemma chord_side c r a b w p q v : on_round c r a p -> on_round c r b q -> on_round c r w v ->
  side p q v = 4 * (r * r) * (sin ((b - a) / 2) * (sin ((w - a) / 2) * sin ((w - b) / 2))).
Proof.
  intros (P1 & P2) (Q1 & Q2) (V1 & V2). unfold side.
  replace (px q - px p) with (r * (cos b - cos a)) by (rewrite P1, Q1; ring). replace (py q - py p) with (r * (sin b - sin a)) by (rewrite P2, Q2; ring).
  replace (px v - px p) with (r * (cos w - cos a)) by (rewrite P1, V1; ring). replace (py v - py p) with (r * (sin w - sin a)) by (rewrite P2, V2; ring).
  rewrite !form2, !form4.
  replace ((w - b) / 2) with ((w + a) / 2 - (b + a) / 2) by field. rewrite sin_minus. ring.
Qed.

Lemma on_circle_angle c r v a : 0 < r -> dist2 v c = r * r -> exists w, a <= w < a + 2 * PI /\ on_round c r w v.
Proof.
  intros R D. set (x := px v - px c). set (y := py v - py c).
  assert (E : x * x + y * y = r * r) by (rewrite <- D; unfold dist2, x, y; ring).
  assert (N : x <> 0 \/ y <> 0). { destruct (Req_dec x 0) as [X|X]; [|now left]. destruct (Req_dec y 0) as [Y|Y]; [|now right]. rewrite X, Y in E. nra. }
  destruct (atan2_point x y N) as (A & B). rewrite E, sqrt_square in A, B by lra. set (t := atan2 y x) in *.
  pose proof two_pi as TP. set (k := (up ((a - t) / (2 * PI)) - 1)%Z). pose proof (up_spec ((a - t) / (2 * PI))) as U.
  assert (K : IZR k <= (a - t) / (2 * PI) < IZR k + 1). { unfold k. rewrite minus_IZR. lra. }
  assert (K1 : IZR k * (2 * PI) <= a - t < (IZR k + 1) * (2 * PI)).
  { assert (Q : (a - t) / (2 * PI) * (2 * PI) = a - t) by (field; lra). rewrite <- Q. split; [apply Rmult_le_compat_r; lra|apply Rmult_lt_compat_r; lra]. }
  assert (O : forall j, on_round c r (t + 2 * PI * IZR j) v).
  { intros j. apply on_round_turns. unfold on_round. fold x in A. unfold x, y in A, B. split; lra. }
  destruct (Req_dec (IZR k * (2 * PI)) (a - t)) as [Z|Z].
  - exists (t + 2 * PI * IZR k). split; [lra|apply O].
  - exists (t + 2 * PI * IZR (k + 1)). split; [rewrite plus_IZR; lra|apply O].
Qed.

Lemma half_sin x : 0 < x < 2 * PI -> 0 < sin (x / 2).
Proof. intros H. apply sin_gt_0; lra. Qed.
Lemma half_sin0 x : 0 <= x <= 2 * PI -> 0 <= sin (x / 2).
Proof. intros H. apply sin_ge_0; lra. Qed.
Lemma half_sin_neg x : 0 < x < 2 * PI -> sin (- x / 2) < 0.
Proof. intros H. replace (- x / 2) with (- (x / 2)) by field. rewrite sin_neg. pose proof (half_sin x H). lra. Qed.

(* what an arc covers *)
Lemma arc_side c r a b p q v : 0 < r -> a < b < a + 2 * PI -> on_round c r a p -> on_round c r b q ->
  ((exists w, a <= w <= b /\ on_round c r w v) <-> dist2 v c = r * r /\ side p q v <= 0).
Proof.
  intros R AB P Q. pose proof PI_RGT_0. assert (S : 0 < sin ((b - a) / 2)) by (apply half_sin; lra). assert (R2 : 0 < r * r) by nra. split.
  - intros (w & W & V). split; [exact (on_round_dist _ _ _ _ V)|]. rewrite (chord_side c r a b w p q v P Q V).
    assert (0 <= sin ((w - a) / 2)) by (apply half_sin0; lra). assert (0 <= sin ((b - w) / 2)) by (apply half_sin0; lra).
    replace ((w - b) / 2) with (- ((b - w) / 2)) by field. rewrite sin_neg.
    replace (4 * (r * r) * (sin ((b - a) / 2) * (sin ((w - a) / 2) * - sin ((b - w) / 2)))) with (- (4 * (r * r) * (sin ((b - a) / 2) * (sin ((w - a) / 2) * sin ((b - w) / 2))))) by ring.
    assert (0 <= 4 * (r * r) * (sin ((b - a) / 2) * (sin ((w - a) / 2) * sin ((b - w) / 2)))); [|lra].
    apply Rmult_le_pos; [lra|]. apply Rmult_le_pos; [lra|]. now apply Rmult_le_pos.
  - intros (D & L). destruct (on_circle_angle c r v a R D) as (w & W & V). exists w. split; [|exact V]. split; [lra|].
    destruct (Rle_lt_dec w b) as [G|G]; [exact G|exfalso]. rewrite (chord_side c r a b w p q v P Q V) in L.
    assert (0 < sin ((w - a) / 2)) by (apply half_sin; lra). assert (0 < sin ((w - b) / 2)) by (apply half_sin; lra).
    assert (0 < 4 * (r * r) * (sin ((b - a) / 2) * (sin ((w - a) / 2) * sin ((w - b) / 2)))); [|lra].
    apply Rmult_lt_0_compat; [lra|]. apply Rmult_lt_0_compat; [lra|]. now apply Rmult_lt_0_compat.
Qed.

(** The angles of two points of a circle, the second after the first. *)
Lemma two_angles c r p q : 0 < r -> dist2 p c = r * r -> dist2 q c = r * r -> ~ same_place p q ->
  let a := atan2 (py p - py c) (px p - px c) in
  let b := atan2 (py q - py c) (px q - px c) in
  let b' := if ltb b a then b + 2 * PI else b in
  on_round c r a p /\ on_round c r b' q /\ a < b' < a + 2 * PI /\ on_round c r b q.
Proof.
  intros R Dp Dq N a b b'. pose proof PI_RGT_0.
  assert (G : forall v, dist2 v c = r * r -> on_round c r (atan2 (py v - py c) (px v - px c)) v).
  { intros v D. assert (E : (px v - px c) * (px v - px c) + (py v - py c) * (py v - py c) = r * r) by (rewrite <- D; unfold dist2; ring).
    assert (M : px v - px c <> 0 \/ py v - py c <> 0). { destruct (Req_dec (px v - px c) 0) as [X|X]; [|now left]. destruct (Req_dec (py v - py c) 0) as [Y|Y]; [|now right]. rewrite X, Y in E. nra. }
    destruct (atan2_point _ _ M) as (A & B). rewrite E, sqrt_square in A, B by lra. split; lra. }
  pose proof (G p Dp) as Op. pose proof (G q Dq) as Oq. fold a in Op. fold b in Oq.
  assert (Ob : on_round c r b' q). { unfold b'. destruct (ltb b a); [|exact Oq]. unfold on_round. rewrite cos_turn, sin_turn. exact Oq. }
  split; [exact Op|]. split; [exact Ob|]. split; [|exact Oq].
  assert (Nab : a <> b). { intros E. apply N. destruct Op as (A1 & A2), Oq as (B1 & B2). rewrite <- E in B1, B2. split; congruence. }
  pose proof (atan2_range (py p - py c) (px p - px c)) as Ra. pose proof (atan2_range (py q - py c) (px q - px c)) as Rb. fold a in Ra. fold b in Rb.
  unfold b'. destruct (ltb b a) eqn:L; [apply ltb_true in L|apply ltb_false in L]; lra.
Qed.

Lemma dist2_dist p c r : 0 <= r -> dist2 p c = r * r -> dist p c = r.
Proof. intros R D. unfold dist. rewrite D. now apply sqrt_square. Qed.

(* the new arc *)
Lemma set_arc_covers c f0 f1 cw sp r v : set_arc c f0 f1 cw = (true, sp) -> ~ one_point f0 f1 e8 -> 0 < r -> dist2 f0 c = r * r -> dist2 f1 c = r * r ->
  covers sp v <-> dist2 v c = r * r /\ (if cw then side f1 f0 v <= 0 else side f0 f1 v <= 0).
Proof.
  intros S N R D0 D1. destruct (set_arc_spec c f0 f1 cw) as (I & _ & _ & J). rewrite S in I, J. cbn [fst snd] in *. destruct (proj1 I eq_refl) as (_ & Z0 & Z1 & _). rewrite (J eq_refl N).
  assert (Nd : ~ same_place f0 f1). { intros (X & Y). apply N. destruct f0 as [x0 y0 z0], f1 as [x1 y1 z1]. unfold in_plane in *. cbn in *. subst. apply one_point_refl. }
  rewrite covers_arc by reflexivity. unfold arc_of, start_angle, end_angle. cbn [s_cw s_sang s_eang s_cen s_rad]. rewrite (dist2_dist f0 c r) by lra.
  destruct cw; cbn [andb negb].
  - assert (Nd' : ~ same_place f1 f0) by (intros (X & Y); apply Nd; now split).
    destruct (two_angles c r f1 f0 R D1 D0 Nd') as (A & B & L & _). exact (arc_side c r _ _ f1 f0 v R L A B).
  - destruct (two_angles c r f0 f1 R D0 D1 Nd) as (A & B & L & _). exact (arc_side c r _ _ f0 f1 v R L A B).
Qed.

(* what is left of the circle split *)
Lemma split_circle_covers s f0 f1 ps s' n v : full_circle s -> dist2 f0 (s_cen s) = s_rad s * s_rad s -> dist2 f1 (s_cen s) = s_rad s * s_rad s -> ~ same_place f1 f0 ->
  split s [f0; f1] = (true, (ps, (s', n))) -> covers s' v <-> dist2 v (s_cen s) = s_rad s * s_rad s /\ side f1 f0 v <= 0.
Proof.
  intros (T & R & _ & _ & W & _) D0 D1 N Sl. unfold split in Sl. rewrite T in Sl. cbn [length] in Sl. unfold split_circle in Sl.
  destruct (ltb (Rabs (px f0 - px f1)) e8 && ltb (Rabs (py f0 - py f1)) e8); [discriminate|]. cbv zeta in Sl.
  match type of Sl with context [if ?b then _ else _] => destruct b; [discriminate|] end. cbn [fst snd] in Sl. injection Sl as _ <- _.
  rewrite ccw_arc_new by exact W. rewrite covers_new_arc, W. unfold low, high.
  destruct (two_angles (s_cen s) (s_rad s) f1 f0 R D1 D0 N) as (A & B & L & _). exact (arc_side _ _ _ _ f1 f0 v R L A B).
Qed.

(** ** Inside and outside of two circles through two points *)

Section Two.
Variables (S C p q : pt) (rs rc : R).
Hypothesis (Ps : dist2 p S = rs * rs) (Qs : dist2 q S = rs * rs) (Pc : dist2 p C = rc * rc) (Qc : dist2 q C = rc * rc).

Definition lean : R := (px q - px p) * (py C - py S) - (py q - py p) * (px C - px S).

Lemma power_c v : dist2 v C = rc * rc -> dist2 p q * (dist2 v S - rs * rs) = 2 * lean * side p q v.
Proof.
  intros V. unfold lean, side. unfold dist2 in *.
  set (dx := px C - px S). set (dy := py C - py S).
  assert (O : dx * (px q - px p) + dy * (py q - py p) = 0) by (unfold dx, dy; nra).
  assert (L : (px v - px S) ^ 2 + (py v - py S) ^ 2 - rs * rs = 2 * (dx * (px v - px p) + dy * (py v - py p))) by (unfold dx, dy; nra).
  rewrite L. set (ux := px q - px p) in *. set (uy := py q - py p) in *. set (vx := px v - px p). set (vy := py v - py p).
  replace ((px p - px q) ^ 2 + (py p - py q) ^ 2) with (ux * ux + uy * uy) by (unfold ux, uy; ring).
  replace ((ux * ux + uy * uy) * (2 * (dx * vx + dy * vy))) with (2 * ((ux * dy - uy * dx) * (ux * vy - uy * vx) + (dx * ux + dy * uy) * (vx * ux + vy * uy))) by ring.
  rewrite O. ring.
Qed.

Lemma power_s v : dist2 v S = rs * rs -> dist2 p q * (dist2 v C - rc * rc) = - (2 * lean * side p q v).
Proof.
  intros V. unfold lean, side. unfold dist2 in *.
  set (dx := px C - px S). set (dy := py C - py S).
  assert (O : dx * (px q - px p) + dy * (py q - py p) = 0) by (unfold dx, dy; nra).
  assert (L : (px v - px C) ^ 2 + (py v - py C) ^ 2 - rc * rc = - (2 * (dx * (px v - px p) + dy * (py v - py p)))) by (unfold dx, dy; nra).
  rewrite L. set (ux := px q - px p) in *. set (uy := py q - py p) in *. set (vx := px v - px p). set (vy := py v - py p).
  replace ((px p - px q) ^ 2 + (py p - py q) ^ 2) with (ux * ux + uy * uy) by (unfold ux, uy; ring).
  replace ((ux * ux + uy * uy) * - (2 * (dx * vx + dy * vy))) with (- (2 * ((ux * dy - uy * dx) * (ux * vy - uy * vx) + (dx * ux + dy * uy) * (vx * ux + vy * uy)))) by ring.
  rewrite O. ring.
Qed.
End Two.

(** ** The operation *)

Lemma circles_met s c : full_circle s -> full_circle c -> fst (intersections s c) = true ->
  exists p q, intersections s c = found [p; q] INone /\ common s c p /\ common s c q /\ ~ same_place p q /\ 0 < dist (s_cen s) (s_cen c) /\ in_plane p /\ in_plane q.
Proof.
  intros Fs Fc H. destruct (circles_spec s c Fs Fc) as (A & B & C & D & E & F). cbv zeta in *.
  set (d := dist (s_cen s) (s_cen c)) in *. set (r := s_rad s) in *. set (r2 := s_rad c) in *.
  destruct (Rlt_le_dec (r + r2) d) as [G|G]; [destruct (A G) as (K & _); rewrite K in H; discriminate|].
  assert (Da : alike s c \/ ~ alike s c).
  { unfold alike. destruct (point_matches (s_cen s) (s_cen c) e3) eqn:M; [apply point_matches_spec in M|apply point_matches_not in M; right; tauto].
    destruct (Rlt_dec (Rabs (s_rad s - s_rad c)) e3); [left; tauto|right; tauto]. }
  destruct Da as [Da|Da]; [rewrite (B G Da) in H; discriminate|].
  destruct (Rlt_dec (Rabs (dist (s_cen s) (s_cen c) - s_rad s - s_rad c)) e3) as [T|T]; fold (touching s c) in T; [rewrite (C G Da T) in H; discriminate|].
  destruct (Rle_lt_dec d (r - r2)) as [K1|K1]; [destruct (D G Da T K1) as (X & _); rewrite X in H; discriminate|].
  destruct (Rle_lt_dec d (r2 - r)) as [K2|K2]; [destruct (E G Da T K2) as (X & _); rewrite X in H; discriminate|].
  destruct (F G Da T K1 K2) as (p & q & X & (L1 & _ & L3) & _). exists p, q. split; [exact X|]. split; [apply L1; now left|]. split; [apply L1; right; now left|].
  split; [|split; [lra|]]. { intros Q. pose proof (L3 0%nat 1%nat p q eq_refl eq_refl Q). discriminate. }
  unfold intersections in X. rewrite (proj1 Fs), (proj1 Fc) in X. unfold check_circles in X. cbv zeta in X.
  repeat match type of X with (if ?b then _ else _) = _ => destruct b; [discriminate|] end.
  unfold circle_points in X. cbv zeta in X. match type of X with context [if ?b then _ else _] => destruct b end; injection X as <- <-; split; reflexivity.
Qed.

Lemma not_same_pos p q : ~ same_place p q -> 0 < dist2 p q.
Proof.
  intros N. unfold dist2. destruct (Req_dec (px p) (px q)) as [X|X].
  - destruct (Req_dec (py p) (py q)) as [Y|Y]; [exfalso; apply N; now split|]. pose proof (pow2_ge_0 (px p - px q)). assert (py p - py q <> 0) by lra. nra.
  - pose proof (pow2_ge_0 (py p - py q)). assert (px p - px q <> 0) by lra. nra.
Qed.

Lemma dist_cmp v c r : 0 <= r -> (dist v c < r <-> dist2 v c - r * r < 0) /\ (r < dist v c <-> 0 < dist2 v c - r * r) /\ (dist v c = r <-> dist2 v c = r * r) /\
  (r <= dist v c <-> 0 <= dist2 v c - r * r) /\ (dist v c <= r <-> dist2 v c - r * r <= 0).
Proof. intros R. rewrite <- dist_sq. pose proof (dist_pos v c). repeat split; intros; nra. Qed.

Section Run.
  Variables (o : outline) (s c : seg) (sub : bool).
  Hypotheses (B : built made o) (Cl : o_closed o = true) (So : o_segs o = [s]) (Fc : full_circle c)
    (Lv : forall m, covers c m -> in_plane m -> in_line (s_cen s) (s_cen c) m -> level_clear o s m).
  Let ob := mkOut [s] true (o_wind o) false (o_bl o) (o_tr o).

  Definition right_covers (s' sp : seg) : Prop :=
    (forall v, covers s' v <-> dist v (s_cen s) = s_rad s /\ s_rad c <= dist v (s_cen c)) /\
    (forall v, covers sp v <-> dist v (s_cen c) = s_rad c /\ (if sub then dist v (s_cen s) <= s_rad s else s_rad s <= dist v (s_cen s))).

  Lemma discs_run p q : intersections s c = found [p; q] INone -> ~ one_point p q e8 ->
    exists f0 f1, (f0 = q /\ f1 = p \/ f0 = p /\ f1 = q) /\
      op_circle o (Some c) sub =
        match set_arc (s_cen c) f0 f1 sub with
        | (true, sp) => match split s [f0; f1] with (true, (_, (s', _))) => (yes, with_segs ob [s'; sp]) | _ => (no, ob) end
        | _ => (no, ob)
        end /\
      (forall ps s' n sp, split s [f0; f1] = (true, (ps, (s', n))) -> set_arc (s_cen c) f0 f1 sub = (true, sp) -> right_covers s' sp).
  Proof.
    intros Ei M. destruct (circle_outline o s B Cl So) as (Fs & _).
    destruct (circles_met s c Fs Fc) as (p' & q' & Ei' & (Ps & Pc) & (Qs & Qc) & N & D0 & _); [now rewrite Ei|]. rewrite Ei in Ei'. injection Ei' as <- <-.
    unfold op_circle. cbn [o_closed o_segs o_wind o_bl o_tr]. rewrite Cl. cbn [negb]. rewrite (proj1 Fc). cbn [segty_eqb negb].
    rewrite So. cbn [collect]. rewrite Ei. cbn [found map app].
  assert (Rs : 0 < s_rad s) by apply Fs. assert (Rc : 0 < s_rad c) by apply Fc.
  unfold covers in Ps, Pc, Qs, Qc. rewrite (proj1 Fs) in Ps, Qs. rewrite (proj1 Fc) in Pc, Qc.
  replace (s_rad s ^ 2) with (s_rad s * s_rad s) in Ps, Qs by ring. replace (s_rad c ^ 2) with (s_rad c * s_rad c) in Pc, Qc by ring.
  cbn [distinct existsb app fst]. assert (Mf : point_matches p q e8 = false) by (apply point_matches_not; exact M). rewrite Mf. cbn [orb distinct app].
  destruct (middles c p q) as (m1 & m2) eqn:Mi.
  fold ob.
  assert (Io : forall m e, is_inside ob m e = is_inside o m e). { intros m e. unfold ob. rewrite <- So, <- Cl. destruct o. reflexivity. }
  rewrite !Io. clear Io.
  (* the middles *)
  destruct (two_angles (s_cen c) (s_rad c) p q Rc Pc Qc N) as (Oa & Ob & Lab & _).
  unfold middles in Mi. set (a := atan2 (py p - py (s_cen c)) (px p - px (s_cen c))) in *.
  set (b := if ltb (atan2 (py q - py (s_cen c)) (px q - px (s_cen c))) a then atan2 (py q - py (s_cen c)) (px q - px (s_cen c)) + 2 * PI else atan2 (py q - py (s_cen c)) (px q - px (s_cen c))) in *.
  injection Mi as E1 E2. set (a3 := (a + b) / 2) in *.
  assert (O1 : on_round (s_cen c) (s_rad c) a3 m1) by (rewrite <- E1; split; reflexivity).
  assert (O2 : on_round (s_cen c) (s_rad c) (a3 + PI) m2) by (rewrite <- E2; split; reflexivity).
  assert (Z1 : in_plane m1) by (rewrite <- E1; reflexivity). assert (Z2 : in_plane m2) by (rewrite <- E2; reflexivity). clear E1 E2.
  pose proof (on_round_dist _ _ _ _ O1) as D1. pose proof (on_round_dist _ _ _ _ O2) as D2.
  pose proof PI_RGT_0 as PP.
  assert (Sab : 0 < sin ((b - a) / 2)) by (apply half_sin; lra).
  assert (S1 : side p q m1 < 0).
  { rewrite (chord_side _ _ _ _ _ _ _ _ Oa Ob O1). assert (X1 : 0 < sin ((a3 - a) / 2)) by (apply half_sin; unfold a3; lra).
    assert (X2 : sin ((a3 - b) / 2) < 0) by (replace ((a3 - b) / 2) with (- (b - a3) / 2) by field; apply half_sin_neg; unfold a3; lra).
    assert (X3 : 0 < sin ((b - a) / 2) * sin ((a3 - a) / 2)) by (now apply Rmult_lt_0_compat). assert (X4 : 0 < s_rad c * s_rad c) by (now apply Rmult_lt_0_compat).
    assert (X5 : 0 < s_rad c * s_rad c * (sin ((b - a) / 2) * sin ((a3 - a) / 2))) by (now apply Rmult_lt_0_compat). nra. }
  assert (S2 : 0 < side p q m2).
  { rewrite (chord_side _ _ _ _ _ _ _ _ Oa Ob O2). assert (X1 : 0 < sin ((a3 + PI - a) / 2)) by (apply half_sin; unfold a3; lra).
    assert (X2 : 0 < sin ((a3 + PI - b) / 2)) by (apply half_sin; unfold a3; lra).
    assert (X4 : 0 < s_rad c * s_rad c) by (now apply Rmult_lt_0_compat).
    apply Rmult_lt_0_compat; [lra|]. apply Rmult_lt_0_compat; [lra|]. now apply Rmult_lt_0_compat. }
  (* the chord is perpendicular to the line through the centres *)
  set (dx := px (s_cen c) - px (s_cen s)). set (dy := py (s_cen c) - py (s_cen s)). set (ux := px q - px p). set (uy := py q - py p).
  assert (Or : dx * ux + dy * uy = 0) by (unfold dx, dy, ux, uy; unfold dist2 in Ps, Pc, Qs, Qc; nra).
  assert (Up : 0 < ux * ux + uy * uy). { pose proof (not_same_pos p q N) as X. unfold dist2 in X. unfold ux, uy. nra. }
  assert (Ch : cos a3 * ux + sin a3 * uy = 0).
  { unfold ux, uy. destruct Oa as (A1 & A2), Ob as (B1 & B2). rewrite A1, A2, B1, B2.
    replace (cos a3 * (px (s_cen c) + s_rad c * cos b - (px (s_cen c) + s_rad c * cos a)) + sin a3 * (py (s_cen c) + s_rad c * sin b - (py (s_cen c) + s_rad c * sin a))) with (s_rad c * ((cos b * cos a3 + sin b * sin a3) - (cos a * cos a3 + sin a * sin a3))) by ring.
    rewrite <- !cos_minus. replace (a - a3) with (- (b - a3)) by (unfold a3; field). rewrite cos_neg. ring. }
  assert (Pl : cos a3 * dy = sin a3 * dx).
  { assert (K : (ux * ux + uy * uy) * (cos a3 * dy - sin a3 * dx) = 0).
    { replace ((ux * ux + uy * uy) * (cos a3 * dy - sin a3 * dx)) with ((cos a3 * ux + sin a3 * uy) * (ux * dy - uy * dx) + (dx * ux + dy * uy) * (uy * cos a3 - ux * sin a3)) by ring. rewrite Ch, Or. ring. }
    apply Rmult_integral in K. destruct K; lra. }
  assert (Dd : 0 < dx * dx + dy * dy). { pose proof (dist_sq (s_cen s) (s_cen c)) as X. unfold dist2 in X. unfold dx, dy. nra. }
  assert (Le : lean (s_cen s) (s_cen c) p q <> 0).
  { unfold lean. fold dx dy ux uy. intros X. assert (K : (ux * ux + uy * uy) * (dx * dx + dy * dy) = 0).
    { replace ((ux * ux + uy * uy) * (dx * dx + dy * dy)) with ((ux * dy - uy * dx) * (ux * dy - uy * dx) + (dx * ux + dy * uy) * (dx * ux + dy * uy)) by ring. rewrite X, Or. ring. }
    apply Rmult_integral in K. destruct K; lra. }
  assert (Il : forall m k, (k = 1 \/ k = -1) -> px m = px (s_cen c) + k * (s_rad c * cos a3) -> py m = py (s_cen c) + k * (s_rad c * sin a3) -> in_line (s_cen s) (s_cen c) m).
  { intros m k _ X Y. unfold in_line. rewrite X, Y. fold dx dy.
    replace (px (s_cen c) + k * (s_rad c * cos a3) - px (s_cen s)) with (dx + k * (s_rad c * cos a3)) by (unfold dx; ring).
    replace (py (s_cen c) + k * (s_rad c * sin a3) - py (s_cen s)) with (dy + k * (s_rad c * sin a3)) by (unfold dy; ring).
    replace ((dx + k * (s_rad c * cos a3)) * dy) with (dx * dy + k * s_rad c * (cos a3 * dy)) by ring. rewrite Pl. ring. }
  assert (V1 : level_clear o s m1).
  { apply Lv; [unfold covers; rewrite (proj1 Fc), D1; ring|exact Z1|]. destruct O1 as (X & Y). apply (Il m1 1); [now left|lra|lra]. }
  assert (V2 : level_clear o s m2).
  { apply Lv; [unfold covers; rewrite (proj1 Fc), D2; ring|exact Z2|]. destruct O2 as (X & Y). rewrite neg_cos in X. rewrite neg_sin in Y. apply (Il m2 (-1)); [now right|lra|lra]. }
  pose proof (power_c (s_cen s) (s_cen c) p q (s_rad s) (s_rad c) Ps Qs Pc Qc) as Wc. pose proof (power_s (s_cen s) (s_cen c) p q (s_rad s) (s_rad c) Ps Qs Pc Qc) as Ws.
  pose proof (not_same_pos p q N) as Np. set (le := lean (s_cen s) (s_cen c) p q) in *. set (pq := dist2 p q) in *.
  assert (In : forall m, dist2 m (s_cen c) = s_rad c * s_rad c -> in_plane m -> level_clear o s m -> le * side p q m <> 0 -> fst (is_inside o m false) = if Rlt_dec (le * side p q m) 0 then true else false).
  { intros m Dm Zm Vm Nz. destruct (line_end_exists o m) as (x & Lx & _). destruct (circle_inside o s m x false B Cl So Zm Lx) as (I1 & I2 & _). cbv zeta in I1, I2. specialize (Vm x Lx).
    specialize (Wc m Dm). destruct (dist_cmp m (s_cen s) (s_rad s) (Rlt_le _ _ Rs)) as (C1 & C2 & _).
    destruct (Rlt_dec (le * side p q m) 0) as [K|K]; [rewrite I1; [reflexivity|exact Vm|apply C1; nra]|rewrite I2; [reflexivity|exact Vm|apply C2; nra]]. }
  assert (Ns : ~ same_place q p) by (intros (X & Y); apply N; split; congruence).
  assert (Mq : ~ one_point q p e8) by (intros X; apply M; now apply one_point_sym).
  (* what the two new segments cover *)
  assert (Cov : forall f0 f1 ps s' n sp v, (f0 = q /\ f1 = p /\ 0 < le \/ f0 = p /\ f1 = q /\ le < 0) -> split s [f0; f1] = (true, (ps, (s', n))) -> set_arc (s_cen c) f0 f1 sub = (true, sp) ->
    (covers s' v <-> dist v (s_cen s) = s_rad s /\ s_rad c <= dist v (s_cen c)) /\
    (covers sp v <-> dist v (s_cen c) = s_rad c /\ (if sub then dist v (s_cen s) <= s_rad s else s_rad s <= dist v (s_cen s)))).
  { intros f0 f1 ps s' n sp v Hf Hs Ha.
    destruct (dist_cmp v (s_cen s) (s_rad s) (Rlt_le _ _ Rs)) as (_ & _ & Cs & Cs1 & Cs2). destruct (dist_cmp v (s_cen c) (s_rad c) (Rlt_le _ _ Rc)) as (_ & _ & Cc & Cc1 & Cc2).
    assert (X : forall y, 0 < le -> dist2 v (s_cen c) = s_rad c * s_rad c -> y = side p q v -> (y <= 0 <-> dist2 v (s_cen s) - s_rad s * s_rad s <= 0) /\ (- y <= 0 <-> 0 <= dist2 v (s_cen s) - s_rad s * s_rad s)).
    { intros y Hl Dv ->. specialize (Wc v Dv). repeat split; intros; nra. }
    assert (X' : forall y, le < 0 -> dist2 v (s_cen c) = s_rad c * s_rad c -> y = side p q v -> (y <= 0 <-> 0 <= dist2 v (s_cen s) - s_rad s * s_rad s) /\ (- y <= 0 <-> dist2 v (s_cen s) - s_rad s * s_rad s <= 0)).
    { intros y Hl Dv ->. specialize (Wc v Dv). repeat split; intros; nra. }
    assert (Y : 0 < le -> dist2 v (s_cen s) = s_rad s * s_rad s -> (side p q v <= 0 <-> 0 <= dist2 v (s_cen c) - s_rad c * s_rad c)).
    { intros Hl Dv. specialize (Ws v Dv). split; intros; nra. }
    assert (Y' : le < 0 -> dist2 v (s_cen s) = s_rad s * s_rad s -> (- side p q v <= 0 <-> 0 <= dist2 v (s_cen c) - s_rad c * s_rad c)).
    { intros Hl Dv. specialize (Ws v Dv). split; intros; nra. }
    destruct Hf as [(-> & -> & Hl)|(-> & -> & Hl)].
    - rewrite (split_circle_covers s q p ps s' n v Fs Qs Ps N Hs), (set_arc_covers _ q p sub sp (s_rad c) v Ha Mq Rc Qc Pc).
      rewrite Cs, Cc, Cc1. rewrite (side_swap p q v). split; [split; intros (A1 & A2); (split; [exact A1|]); now apply (Y Hl A1)|].
      destruct sub; [rewrite Cs2|rewrite Cs1]; split; intros (A1 & A2); (split; [exact A1|]); now apply (X _ Hl A1 eq_refl).
    - rewrite (split_circle_covers s p q ps s' n v Fs Ps Qs Ns Hs), (set_arc_covers _ p q sub sp (s_rad c) v Ha M Rc Pc Qc).
      rewrite Cs, Cc, Cc1. rewrite (side_swap p q v). split; [split; intros (A1 & A2); (split; [exact A1|]); now apply (Y' Hl A1)|].
      destruct sub; [rewrite Cs2|rewrite Cs1]; split; intros (A1 & A2); (split; [exact A1|]); now apply (X' _ Hl A1 eq_refl). }
  rewrite (In m1 D1 Z1 V1), (In m2 D2 Z2 V2) by nra. clear In.
  assert (Tl : forall f0 f1, match set_arc (s_cen c) f0 f1 sub with
        | (true, sp) => match o_segs ob with [] => (no, ob) | s0 :: _ => if segty_eqb (s_ty s0) SCircle then match split s0 [f0; f1] with (true, (_, (s', _))) => (yes, with_segs ob (s' :: tl (o_segs ob) ++ [sp])) | _ => (no, ob) end else (no, ob) end
        | (false, _) => (no, ob) end = match set_arc (s_cen c) f0 f1 sub with
        | (true, sp) => match split s [f0; f1] with (true, (_, (s', _))) => (yes, with_segs ob [s'; sp]) | _ => (no, ob) end
        | _ => (no, ob)
        end).
  { intros f0 f1. cbn [o_segs ob]. rewrite (proj1 Fs). reflexivity. }
  destruct (Rdichotomy _ _ Le) as [Hl|Hl].
  - destruct (Rlt_dec (le * side p q m1) 0) as [K|K]; [exfalso; nra|]. destruct (Rlt_dec (le * side p q m2) 0) as [K'|K']; [|exfalso; nra]. cbn [Bool.eqb].
    exists p, q. split; [now right|]. split; [|intros ps s' n sp Sl Sa; split; intros v; apply (Cov p q ps s' n sp v); auto].
    rewrite <- Tl. cbn [o_segs ob]. rewrite (proj1 Fs). cbn [segty_eqb]. reflexivity.
  - destruct (Rlt_dec (le * side p q m1) 0) as [K|K]; [|exfalso; nra]. destruct (Rlt_dec (le * side p q m2) 0) as [K'|K']; [exfalso; nra|]. cbn [Bool.eqb].
    exists q, p. split; [now left|]. split; [|intros ps s' n sp Sl Sa; split; intros v; apply (Cov q p ps s' n sp v); auto].
    rewrite <- Tl. cbn [o_segs ob]. rewrite (proj1 Fs). cbn [segty_eqb]. reflexivity.
  Qed.

  (** Whatever it returns as done is right. *)
  Lemma discs r o' : op_circle o (Some c) sub = (r, o') -> fst r = true ->
    r = yes /\ exists s' sp, o_segs o' = [s'; sp] /\ right_covers s' sp.
  Proof.
    intros H T. destruct (circle_outline o s B Cl So) as (Fs & _).
    assert (G : exists p q, intersections s c = found [p; q] INone /\ ~ one_point p q e8).
    { unfold op_circle in H. cbn [o_closed o_segs o_wind o_bl o_tr] in H. rewrite Cl in H. cbn [negb] in H. rewrite (proj1 Fc) in H. cbn [segty_eqb negb] in H.
      rewrite So in H. cbn [collect] in H. destruct (fst (intersections s c)) eqn:Fi.
      2:{ destruct (intersections s c) as (ok & ps & f). cbn in Fi. subst ok. destruct f; injection H as <- <-; discriminate. }
      destruct (circles_met s c Fs Fc Fi) as (p & q & Ei & _). rewrite Ei in H. cbn [found map app distinct existsb fst] in H. exists p, q. split; [exact Ei|].
      destruct (point_matches p q e8) eqn:M; cbn [orb distinct app] in H; [injection H as <- <-; discriminate|]. now apply point_matches_not in M. }
    destruct G as (p & q & Ei & M). destruct (discs_run p q Ei M) as (f0 & f1 & _ & E & Cov). rewrite E in H.
    destruct (set_arc (s_cen c) f0 f1 sub) as ([|] & sp) eqn:Sa; [|injection H as <- <-; discriminate].
    destruct (split s [f0; f1]) as ([|] & ps & s' & n) eqn:Sl; [|injection H as <- <-; discriminate].
    injection H as <- <-. split; [reflexivity|]. exists s', sp. split; [reflexivity|]. now apply (Cov ps s' n sp).
  Qed.

  (** And it is done whenever the circles cross, in points which are told apart from
      each other and from the centre. *)
  Lemma discs_done : (forall p, common s c p -> in_plane p -> ~ one_point (s_cen c) p e8) ->
    (forall p q, common s c p -> common s c q -> in_plane p -> in_plane q -> ~ same_place p q -> ~ one_point p q e8) ->
    ~ alike s c -> ~ touching s c -> Rabs (s_rad s - s_rad c) < dist (s_cen s) (s_cen c) <= s_rad s + s_rad c ->
    fst (fst (op_circle o (Some c) sub)) = true.
  Proof.
    intros Nc Np A T (D1 & D2). destruct (circle_outline o s B Cl So) as (Fs & _).
    destruct (circles_spec s c Fs Fc) as (_ & _ & _ & _ & _ & F). apply Rabs_def2 in D1. destruct (F D2 A T) as (p & q & Ei & _); [lra|lra|].
    destruct (circles_met s c Fs Fc) as (p' & q' & Ei' & Cp & Cq & N & D0 & Zp & Zq); [now rewrite Ei|]. rewrite Ei in Ei'. injection Ei' as <- <-.
    assert (M : ~ one_point p q e8) by (now apply Np).
    destruct (discs_run p q Ei M) as (f0 & f1 & Hf & E & _). rewrite E.
    assert (W : common s c f0 /\ common s c f1 /\ in_plane f0 /\ in_plane f1 /\ ~ one_point f0 f1 e8).
    { destruct Hf as [(-> & ->)|(-> & ->)]; repeat split; try apply Cp; try apply Cq; try assumption. intros X. apply M. now apply one_point_sym. }
    destruct W as (C0 & C1 & Z0 & Z1 & M01).
    assert (Ra : forall f, common s c f -> dist f (s_cen c) = s_rad c).
    { intros f (_ & K). unfold covers in K. rewrite (proj1 Fc) in K. apply dist2_dist; [apply Rlt_le, Fc|]. rewrite K. ring. }
    assert (Sa : fst (set_arc (s_cen c) f0 f1 sub) = true).
    { apply set_arc_spec. repeat split; try assumption; try apply Fc; try (apply Nc; assumption). right. rewrite (Ra f0 C0), (Ra f1 C1). replace (s_rad c - s_rad c) with 0 by ring. rewrite Rabs_R0. unfold e8. lra. }
    assert (Sl : fst (split s [f0; f1]) = true).
    { apply split_circle_accepts; [split; apply Fs|apply C0|apply C1|].
      destruct (Rlt_le_dec (Rabs (px f0 - px f1)) e8) as [X|X]; [|now left]. destruct (Rlt_le_dec (Rabs (py f0 - py f1)) e8) as [Y|Y]; [|now right].
      exfalso. apply M01. left. rewrite gap2_flat by assumption. unfold dist2. apply Rabs_def2 in X. apply Rabs_def2 in Y. unfold e8 in *. nra. }
    destruct (set_arc (s_cen c) f0 f1 sub) as (a & sp). destruct (split s [f0; f1]) as (b & ps & s' & n). cbn in Sa, Sl. subst a b. reflexivity.
  Qed.
End Run.
