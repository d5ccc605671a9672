(** Where two circles meet. *)

From Coq Require Import Reals Lra Psatz List Bool ZArith Lia.
From Verif Require Import SegModel SegSpec SegTrig SegFacts SegSplitArc CutModel CutSpec.
Import ListNotations.
Open Scope R_scope.

Lemma centre_gap_dist s o : centre_gap s o = dist (s_cen s) (s_cen o).
Proof. unfold centre_gap. rewrite dist_sqrt. reflexivity. Qed.

Lemma turn_to_exists c a p : 0 < dist p c -> exists w, turn_to c a p w.
Proof.
  intro D. destruct (direction c p D) as [X Y]. set (b := atan2 (py p - py c) (px p - px c)) in *.
  pose proof two_pi as T. set (k := (up ((a - b) / (2 * PI)))%Z). pose proof (up_spec ((a - b) / (2 * PI))) as U. fold k in U.
  destruct (Req_EM_T (IZR k - 1) ((a - b) / (2 * PI))) as [E|E].
  - exists (b + 2 * PI * IZR (k - 1)). assert (Q : a - b = (a - b) / (2 * PI) * (2 * PI)) by (field; lra).
    rewrite minus_IZR. rewrite <- E in Q. split; [nra|]. exists (dist p c). split; [exact D|]. rewrite <- minus_IZR. apply on_round_turns. split; assumption.
  - exists (b + 2 * PI * IZR k). assert (Q : a - b = (a - b) / (2 * PI) * (2 * PI)) by (field; lra).
    set (v := (a - b) / (2 * PI)) in *. split; [|exists (dist p c); split; [exact D|]; apply on_round_turns; split; assumption].
    assert (v < IZR k <= v + 1) by lra. nra.
Qed.

Lemma turn_to_unique c a p v w : turn_to c a p v -> turn_to c a p w -> v = w.
Proof.
  intros (V & r & R & X & Y) (W & q & Q & X' & Y').
  assert (r * cos v = q * cos w /\ r * sin v = q * sin w) as [E F] by lra.
  assert (r = q).
  { pose proof (sin2_cos2 v) as S. pose proof (sin2_cos2 w) as S'. unfold Rsqr in S, S'.
    assert (r * r = q * q). { replace (r * r) with (r * r * (sin v * sin v + cos v * cos v)) by (rewrite S; ring). replace (r * r * (sin v * sin v + cos v * cos v)) with (r * sin v * (r * sin v) + r * cos v * (r * cos v)) by ring. rewrite E, F.
      replace (q * q) with (q * q * (sin w * sin w + cos w * cos w)) by (rewrite S'; ring). ring. }
    nra. }
  subst q. apply angle_unique; [apply (Rmult_eq_reg_l r); lra|apply (Rmult_eq_reg_l r); lra|lra].
Qed.

Lemma turn_to_atan2 c p w : turn_to c 0 p w -> w = (let b := atan2 (py p - py c) (px p - px c) in if ltb b 0 then b + 2 * PI else b).
Proof.
  intros (W & r & R & O). pose proof two_pi as T. pose proof (atan2_range (py p - py c) (px p - px c)) as B.
  destruct (on_round_atan2 c r w p R O) as (k & K). cbv zeta. set (b := atan2 _ _) in *.
  assert (IZR (-1) < IZR k) as K0 by (apply (Rmult_lt_reg_l (2 * PI)); [lra|]; change (IZR (-1)) with (-1); lra).
  assert (IZR k < IZR 2) as K1 by (apply (Rmult_lt_reg_l (2 * PI)); [lra|]; change (IZR 2) with 2; lra).
  apply lt_IZR in K0. apply lt_IZR in K1.
  destruct (ltb b 0) eqn:E; [apply ltb_true in E|apply ltb_false in E]; assert (k = 0 \/ k = 1)%Z as [-> | ->] by lia; rewrite K; try ring; exfalso; lra.
Qed.

Section Meet.
  Variables (s : seg) (c2 : pt) (r2 d : R).
  Let c := s_cen s.
  Let r := s_rad s.
  Hypothesis D : d = dist c c2.
  Hypothesis D0 : 0 < d.
  Hypothesis R1 : 0 < r.
  Hypothesis R2 : 0 < r2.
  Hypothesis Near : d <= r + r2.
  Hypothesis Far1 : r <= d + r2.
  Hypothesis Far2 : r2 <= d + r.

  Let ux := (px c2 - px c) / d.
  Let uy := (py c2 - py c) / d.
  Let rd := (d * d - r2 * r2 + r * r) / (2 * d).
  Let h := sqrt (r * r - rd * rd).
  Let P := mkPt (px c + rd * ux - h * uy) (py c + rd * uy + h * ux) 0.
  Let Q := mkPt (px c + rd * ux + h * uy) (py c + rd * uy - h * ux) 0.

  Lemma unit_dir : ux * ux + uy * uy = 1.
  Proof.
    assert (E : (px c2 - px c) * (px c2 - px c) + (py c2 - py c) * (py c2 - py c) = d * d) by (rewrite D, dist_sq; unfold dist2; ring).
    unfold ux, uy. replace ((px c2 - px c) / d * ((px c2 - px c) / d) + (py c2 - py c) / d * ((py c2 - py c) / d))
      with (((px c2 - px c) * (px c2 - px c) + (py c2 - py c) * (py c2 - py c)) / (d * d)) by (field; lra).
    rewrite E. field. lra.
  Qed.
  Lemma rd_eq : 2 * rd * d = d * d - r2 * r2 + r * r.
  Proof. unfold rd. field. lra. Qed.
  Lemma rd_small : rd * rd <= r * r.
  Proof.
    pose proof rd_eq as E.
    assert (A : rd <= r) by (apply (Rmult_le_reg_r (2 * d)); [lra|]; nra).
    assert (B : - r <= rd) by (apply (Rmult_le_reg_r (2 * d)); [lra|]; nra). nra.
  Qed.
  Lemma h_sq : h * h = r * r - rd * rd.
  Proof. unfold h. apply sqrt_sqrt. pose proof rd_small. lra. Qed.
  Lemma h_pos : 0 <= h. Proof. apply sqrt_pos. Qed.

  Lemma c2_at : px c2 = px c + d * ux /\ py c2 = py c + d * uy.
  Proof. unfold ux, uy. split; field; lra. Qed.

  Lemma PQ_on : dist2 P c = r ^ 2 /\ dist2 P c2 = r2 ^ 2 /\ dist2 Q c = r ^ 2 /\ dist2 Q c2 = r2 ^ 2.
  Proof.
    pose proof unit_dir as U. pose proof h_sq as H. pose proof rd_eq as E. destruct c2_at as [X Y]. unfold dist2, P, Q. cbn [px py]. rewrite X, Y.
    repeat split.
    - replace ((px c + rd * ux - h * uy - px c) ^ 2 + (py c + rd * uy + h * ux - py c) ^ 2) with ((rd * rd + h * h) * (ux * ux + uy * uy)) by ring. rewrite U, H. ring.
    - replace ((px c + rd * ux - h * uy - (px c + d * ux)) ^ 2 + (py c + rd * uy + h * ux - (py c + d * uy)) ^ 2) with ((rd * rd + h * h - 2 * rd * d + d * d) * (ux * ux + uy * uy)) by ring. rewrite U, H. lra.
    - replace ((px c + rd * ux + h * uy - px c) ^ 2 + (py c + rd * uy - h * ux - py c) ^ 2) with ((rd * rd + h * h) * (ux * ux + uy * uy)) by ring. rewrite U, H. ring.
    - replace ((px c + rd * ux + h * uy - (px c + d * ux)) ^ 2 + (py c + rd * uy - h * ux - (py c + d * uy)) ^ 2) with ((rd * rd + h * h - 2 * rd * d + d * d) * (ux * ux + uy * uy)) by ring. rewrite U, H. lra.
  Qed.

  Lemma PQ_all v : dist2 v c = r ^ 2 -> dist2 v c2 = r2 ^ 2 -> same_place v P \/ same_place v Q.
  Proof.
    intros A B. pose proof unit_dir as U. pose proof h_sq as H. pose proof rd_eq as E. destruct c2_at as [X Y].
    set (f := (px v - px c) * ux + (py v - py c) * uy). set (g := (py v - py c) * ux - (px v - px c) * uy).
    assert (F : px v = px c + f * ux - g * uy) by (unfold f, g; replace (px c + ((px v - px c) * ux + (py v - py c) * uy) * ux - ((py v - py c) * ux - (px v - px c) * uy) * uy) with (px c + (px v - px c) * (ux * ux + uy * uy)) by ring; rewrite U; ring).
    assert (G : py v = py c + f * uy + g * ux) by (unfold f, g; replace (py c + ((px v - px c) * ux + (py v - py c) * uy) * uy + ((py v - py c) * ux - (px v - px c) * uy) * ux) with (py c + (py v - py c) * (ux * ux + uy * uy)) by ring; rewrite U; ring).
    clearbody f g. unfold dist2 in A, B. rewrite F, G in A, B. rewrite X, Y in B.
    replace ((px c + f * ux - g * uy - px c) ^ 2 + (py c + f * uy + g * ux - py c) ^ 2) with ((f * f + g * g) * (ux * ux + uy * uy)) in A by ring.
    replace ((px c + f * ux - g * uy - (px c + d * ux)) ^ 2 + (py c + f * uy + g * ux - (py c + d * uy)) ^ 2) with ((f * f + g * g - 2 * f * d + d * d) * (ux * ux + uy * uy)) in B by ring.
    rewrite U in A, B.
    assert (f = rd). { apply (Rmult_eq_reg_r (2 * d)); [|lra]. lra. }
    subst f. assert (GG : g * g = h * h) by lra. assert (Z : (g - h) * (g + h) = 0) by lra.
    unfold same_place, P, Q. cbn [px py]. apply Rmult_integral in Z. destruct Z as [Z|Z]; [left|right].
    - assert (g = h) by lra. subst g. split; lra.
    - assert (g = - h) by lra. rewrite H0 in F, G. split; lra.
  Qed.

  Lemma PQ_apart : d < r + r2 -> r < d + r2 -> r2 < d + r -> ~ same_place P Q.
  Proof.
    intros A B C. pose proof unit_dir as U. pose proof h_sq as H. pose proof rd_eq as E.
    assert (0 < h * h).
    { rewrite H. assert (rd < r) by (apply (Rmult_lt_reg_r (2 * d)); [lra|]; nra). assert (- r < rd) by (apply (Rmult_lt_reg_r (2 * d)); [lra|]; nra). nra. }
    unfold same_place, P, Q. cbn [px py]. intros [X Y]. assert (h * uy = 0 /\ h * ux = 0) as [V W] by lra.
    assert (h * h = (h * uy) * (h * uy) + (h * ux) * (h * ux)).
    { replace (h * uy * (h * uy) + h * ux * (h * ux)) with (h * h * (ux * ux + uy * uy)) by ring. rewrite U. ring. }
    rewrite V, W in H1. lra.
  Qed.

  Lemma circle_points_PQ : circle_points s c2 r2 d = (P, Q) /\ (forall v w, turn_to c 0 P v -> turn_to c 0 Q w -> v <= w) \/
    circle_points s c2 r2 d = (Q, P) /\ (forall v w, turn_to c 0 P v -> turn_to c 0 Q w -> w <= v).
  Proof.
    assert (NZ : px c2 - px c <> 0 \/ py c2 - py c <> 0).
    { destruct (Req_EM_T (px c2 - px c) 0) as [E|E]; [|now left]. destruct (Req_EM_T (py c2 - py c) 0) as [F|F]; [|now right].
      exfalso. assert (d * d = 0) by (rewrite D, dist_sq; unfold dist2; replace (px c - px c2) with 0 by lra; replace (py c - py c2) with 0 by lra; ring). nra. }
    destruct (atan2_point _ _ NZ) as [C S].
    assert (SQ : sqrt ((px c2 - px c) * (px c2 - px c) + (py c2 - py c) * (py c2 - py c)) = d) by (rewrite D, dist_sym, dist_sqrt; reflexivity).
    rewrite SQ in C, S. set (b := atan2 (py c2 - py c) (px c2 - px c)) in *.
    assert (CB : cos b = ux) by (unfold ux; rewrite <- C; field; lra). assert (SB : sin b = uy) by (unfold uy; rewrite <- S; field; lra).
    assert (C0 : cos (b + PI / 2) = - uy) by (rewrite cos_plus, cos_PI2, sin_PI2, SB; ring).
    assert (S0 : sin (b + PI / 2) = ux) by (rewrite sin_plus, cos_PI2, sin_PI2, CB; ring).
    assert (C1 : cos (b + PI / 2 + PI) = uy) by (rewrite neg_cos, C0; ring).
    assert (S1 : sin (b + PI / 2 + PI) = - ux) by (rewrite neg_sin, S0; ring).
    unfold circle_points. fold c r rd. cbv zeta. fold b. fold h.
    assert (E1 : mkPt (rd / d * (px c2 - px c) + px c + h * cos (b + PI / 2)) (rd / d * (py c2 - py c) + py c + h * sin (b + PI / 2)) 0 = P).
    { unfold P. rewrite C0, S0. unfold ux, uy. f_equal; field; lra. }
    assert (E2 : mkPt (rd / d * (px c2 - px c) + px c + h * cos (b + PI / 2 + PI)) (rd / d * (py c2 - py c) + py c + h * sin (b + PI / 2 + PI)) 0 = Q).
    { unfold Q. rewrite C1, S1. unfold ux, uy. f_equal; field; lra. }
    rewrite E1, E2. clear E1 E2 C0 S0 C1 S1.
    assert (G : forall v w, turn_to c 0 P v -> turn_to c 0 Q w -> 
      v = (let b := atan2 (py P - py c) (px P - px c) in if ltb b 0 then b + 2 * PI else b) /\
      w = (let b := atan2 (py Q - py c) (px Q - px c) in if ltb b 0 then b + 2 * PI else b)).
    { intros v w V W. split; now apply turn_to_atan2. }
    pose proof (atan2_range (py P - py c) (px P - px c)) as B1. pose proof (atan2_range (py Q - py c) (px Q - px c)) as B2.
    set (a0 := atan2 (py P - py c) (px P - px c)) in *. set (a1 := atan2 (py Q - py c) (px Q - px c)) in *. cbv zeta in G.
    pose proof two_pi as T.
    destruct (leb 0 a0 && leb 0 a1 && ltb a1 a0 || ltb a0 0 && ltb a1 0 && ltb a1 a0 || ltb a0 0 && leb 0 a1) eqn:E; [right|left];
    (split; [reflexivity|]); intros v w V W; destruct (G v w V W) as [-> ->]; clear G V W;
    unfold ltb, leb in *; destruct (Rle_dec 0 a0); destruct (Rle_dec 0 a1); destruct (Rlt_dec a1 a0); destruct (Rlt_dec a0 0); destruct (Rlt_dec a1 0); cbn [andb orb] in E; try discriminate; lra.
  Qed.
End Meet.

Lemma circle_points_spec s c2 r2 : 0 < dist (s_cen s) c2 -> 0 < s_rad s -> 0 < r2 ->
  dist (s_cen s) c2 <= s_rad s + r2 -> s_rad s <= dist (s_cen s) c2 + r2 -> r2 <= dist (s_cen s) c2 + s_rad s ->
  exists p q, circle_points s c2 r2 (dist (s_cen s) c2) = (p, q) /\ in_plane p /\ in_plane q /\
    (forall v, dist2 v (s_cen s) = (s_rad s)^2 /\ dist2 v c2 = r2^2 <-> same_place v p \/ same_place v q) /\
    (forall v w, turn_to (s_cen s) 0 p v -> turn_to (s_cen s) 0 q w -> v <= w) /\
    (dist (s_cen s) c2 < s_rad s + r2 -> s_rad s < dist (s_cen s) c2 + r2 -> r2 < dist (s_cen s) c2 + s_rad s -> ~ same_place p q).
Proof.
  intros D0 R1 R2 N F1 F2. epose proof (PQ_on s c2 r2 _ eq_refl D0 ltac:(assumption) ltac:(assumption) ltac:(assumption)) as (A & B & A' & B').
  epose proof (PQ_all s c2 r2 _ eq_refl D0 ltac:(assumption) ltac:(assumption) ltac:(assumption)) as All. epose proof (PQ_apart s c2 r2 _ eq_refl D0 ltac:(assumption) ltac:(assumption) ltac:(assumption)) as Ap.
  pose proof (circle_points_PQ s c2 r2 _ eq_refl D0) as Sw.
  match type of A with dist2 ?P _ = _ => set (p := P) in * end. match type of A' with dist2 ?P _ = _ => set (q := P) in * end.
  assert (Same : forall v x c rr, same_place v x -> dist2 x c = rr -> dist2 v c = rr) by (intros v x cc rr [X Y] H; unfold dist2 in *; now rewrite X, Y).
  destruct Sw as [[E O]|[E O]]; [exists p, q|exists q, p]; (split; [exact E|]); (split; [reflexivity|]); (split; [reflexivity|]); (split; [|split]).
  - intro v. split; [intros [V W]; now apply All|]. intros [S|S]; split; eapply Same; eassumption.
  - exact O.
  - exact Ap.
  - intro v. split; [intros [V W]; destruct (All v V W); auto|]. intros [S|S]; split; eapply Same; eassumption.
  - intros v w V W. now apply O.
  - intros X Y Z [S1 S2]. apply Ap; auto. split; auto.
Qed.
