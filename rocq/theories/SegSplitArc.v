(** Splitting arcs and circles. *)

From Coq Require Import Reals Lra Psatz List Bool ZArith Lia.
From Verif Require Import SegModel SegSpec SegTrig SegFacts SegSplit.
Import ListNotations.
Open Scope R_scope.

Lemma on_round_turns c r w k p : on_round c r (w + 2 * PI * IZR k) p <-> on_round c r w p.
Proof. unfold on_round. destruct (cos_turns w k) as [-> ->]. tauto. Qed.

(* the angle found for a point *)
Lemma arc_angle_sound d s p a : arc_in_order d s -> start_angle s <= PI -> arc_angle s p = Some a ->
  start_angle s <= a <= end_angle s /\ Rabs (dist2 p (s_cen s) - s_rad s * s_rad s) <= e8 /\
  (exists k, a = atan2 (py p - py (s_cen s)) (px p - px (s_cen s)) + 2 * PI * IZR k).
Proof.
  intros (_ & R & A0 & A1 & L & L2 & _) N. unfold arc_angle.
  replace ((px p - px (s_cen s)) * (px p - px (s_cen s)) + (py p - py (s_cen s)) * (py p - py (s_cen s))) with (dist2 p (s_cen s)) by (unfold dist2; ring).
  destruct (ltb e8 _) eqn:E; [discriminate|]. apply ltb_false in E.
  set (w := atan2 _ _). pose proof (atan2_range (py p - py (s_cen s)) (px p - px (s_cen s))) as W. fold w in W.
  destruct (ltb w (start_angle s)) eqn:B; [apply ltb_true in B|apply ltb_false in B].
  - destruct (ltb (end_angle s) (w + 2 * PI)) eqn:F; [discriminate|]. apply ltb_false in F. intro H. injection H as <-.
    split; [lra|]. split; [exact E|]. exists 1%Z. ring.
  - destruct (ltb (end_angle s) w) eqn:F; [discriminate|]. apply ltb_false in F. intro H. injection H as <-.
    split; [lra|]. split; [exact E|]. exists 0%Z. ring.
Qed.

Lemma on_round_dist c r w p : on_round c r w p -> dist2 p c = r * r.
Proof.
  intros [X Y]. unfold dist2. rewrite X, Y. pose proof (sin2_cos2 w) as Q. unfold Rsqr in Q.
  replace ((px c + r * cos w - px c)^2 + (py c + r * sin w - py c)^2) with (r * r * (sin w * sin w + cos w * cos w)) by ring.
  rewrite Q. ring.
Qed.

Lemma on_round_atan2 c r w p : 0 < r -> on_round c r w p -> exists k, w = atan2 (py p - py c) (px p - px c) + 2 * PI * IZR k.
Proof.
  intros R [X Y]. set (a := atan2 (py p - py c) (px p - px c)).
  assert (NZ : px p - px c <> 0 \/ py p - py c <> 0).
  { destruct (polar_nonzero r w R) as [H|H]; [left|right]; lra. }
  destruct (atan2_point _ _ NZ) as [C S]. fold a in C, S.
  assert (SQ : sqrt ((px p - px c) * (px p - px c) + (py p - py c) * (py p - py c)) = r) by (apply (cos_sin_polar _ _ r w R); lra).
  rewrite SQ in C, S.
  assert (C' : cos a = cos w) by (apply (Rmult_eq_reg_l r); lra). assert (S' : sin a = sin w) by (apply (Rmult_eq_reg_l r); lra).
  pose proof two_pi as T. set (k := (up ((w - a) / (2 * PI)) - 1)%Z). exists k.
  pose proof (up_spec ((w - a) / (2 * PI))) as U.
  assert (K : IZR k = IZR (up ((w - a) / (2 * PI))) - 1) by (unfold k; rewrite minus_IZR; reflexivity).
  assert (Q : 0 <= w - a - 2 * PI * IZR k < 2 * PI).
  { assert (E : w - a = (w - a) / (2 * PI) * (2 * PI)) by (field; lra). set (v := (w - a) / (2 * PI)) in *. rewrite K. nra. }
  destruct (cos_turns a k) as [C2 S2]. apply angle_unique; try congruence. lra.
Qed.

Lemma arc_angle_complete d s p w : arc_in_order d s -> start_angle s <= PI -> start_angle s <= w <= end_angle s ->
  on_round (s_cen s) (s_rad s) w p -> arc_angle s p = Some w.
Proof.
  intros (_ & R & A0 & A1 & L & L2 & _) N W O. unfold arc_angle.
  replace ((px p - px (s_cen s)) * (px p - px (s_cen s)) + (py p - py (s_cen s)) * (py p - py (s_cen s))) with (dist2 p (s_cen s)) by (unfold dist2; ring).
  rewrite (on_round_dist _ _ _ _ O), Rminus_diag_eq, Rabs_R0, ltb_f by (try reflexivity; pose proof e8_pos; lra).
  destruct (on_round_atan2 _ _ _ _ R O) as (k & K). set (a := atan2 _ _) in *. pose proof (atan2_range (py p - py (s_cen s)) (px p - px (s_cen s))) as Q. fold a in Q.
  pose proof two_pi as T.
  assert (K0 : (IZR k < IZR 2)) by (apply (Rmult_lt_reg_l (2 * PI)); [lra|]; change (IZR 2) with 2; lra).
  assert (K1 : (IZR (-1) < IZR k)) by (apply (Rmult_lt_reg_l (2 * PI)); [lra|]; change (IZR (-1)) with (-1); lra).
  apply lt_IZR in K0. apply lt_IZR in K1. assert (k = 0 \/ k = 1)%Z as [-> | ->] by lia.
  - rewrite Rmult_0_r, Rplus_0_r in K. subst w. rewrite (ltb_f a (start_angle s)), ltb_f by lra. reflexivity.
  - rewrite Rmult_1_r in K. destruct (ltb a (start_angle s)) eqn:B; [apply ltb_true in B|apply ltb_false in B].
    + rewrite ltb_f by lra. now f_equal.
    + exfalso. lra.
Qed.

(* a point near the circle, and the point of the circle in the same direction *)
Lemma near_round c r p w x : 0 < r -> Rabs (dist2 p c - r * r) <= e8 ->
  (exists k, w = atan2 (py p - py c) (px p - px c) + 2 * PI * IZR k) -> on_round c r w x -> dist x p <= e8 / r.
Proof.
  intros R E (k & ->) O. apply on_round_turns in O. destruct O as [X Y].
  assert (D : 0 <= e8 / r) by (apply Rlt_le, Rdiv_lt_0_compat; [apply e8_pos|exact R]).
  assert (M : Rabs (dist p c - r) <= e8 / r).
  { assert (F : (dist p c - r) * (dist p c + r) = dist2 p c - r * r) by (rewrite <- dist_sq; ring).
    pose proof (dist_pos p c) as P. rewrite <- F, Rabs_mult, (Rabs_pos_eq (dist p c + r)) in E by lra.
    apply (Rmult_le_reg_r r); [exact R|]. replace (e8 / r * r) with e8 by (field; lra).
    pose proof (Rabs_pos (dist p c - r)). nra. }
  apply dist2_le_dist; [exact D|].
  destruct (Rle_lt_or_eq_dec _ _ (dist_pos p c)) as [P|P].
  - destruct (direction c p P) as [X2 Y2]. set (a := atan2 _ _) in *.
    unfold dist2. rewrite X, Y. rewrite X2 at 1. rewrite Y2 at 1. pose proof (sin2_cos2 a) as W. unfold Rsqr in W.
    replace ((px c + r * cos a - (px c + dist p c * cos a))^2 + (py c + r * sin a - (py c + dist p c * sin a))^2)
      with ((dist p c - r)^2 * (sin a * sin a + cos a * cos a)) by ring.
    rewrite W, Rmult_1_r, <- (pow2_abs (dist p c - r)). pose proof (Rabs_pos (dist p c - r)). nra.
  - assert (Z : px p - px c = 0 /\ py p - py c = 0).
    { pose proof (dist_sq p c) as S. rewrite <- P in S. unfold dist2 in S.
      pose proof (pow2_ge_0 (px p - px c)). pose proof (pow2_ge_0 (py p - py c)). split; nra. }
    assert (G : dist2 x p = r * r).
    { unfold dist2. rewrite X, Y. set (a := atan2 _ _). pose proof (sin2_cos2 a) as W. unfold Rsqr in W.
      replace (px c + r * cos a - px p) with (r * cos a) by lra. replace (py c + r * sin a - py p) with (r * sin a) by lra.
      replace ((r * cos a)^2 + (r * sin a)^2) with (r * r * (sin a * sin a + cos a * cos a)) by ring. rewrite W. ring. }
    rewrite G. rewrite <- P in M. replace (0 - r) with (- r) in M by ring. rewrite Rabs_Ropp, Rabs_pos_eq in M by lra. nra.
Qed.

(** ** The pieces of an arc *)

Definition low (cw : bool) (a b : R) : R := if cw then b else a.
Definition high (cw : bool) (a b : R) : R := if cw then a else b.

Lemma covers_arc s p : s_ty s = SArc -> covers s p <-> exists w, start_angle s <= w <= end_angle s /\ on_round (s_cen s) (s_rad s) w p.
Proof. intro T. unfold covers. rewrite T. tauto. Qed.

Lemma new_arc_facts s p q a b : exists k : Z,
  start_angle (new_arc s p q a b) = low (s_cw s) a b + 2 * PI * IZR k /\ end_angle (new_arc s p q a b) = high (s_cw s) a b + 2 * PI * IZR k /\
  (- PI < Rmin a b -> - PI < Rmin a b + 2 * PI * IZR k <= PI).
Proof.
  unfold new_arc, start_angle, end_angle, low, high. cbn [s_cw s_sang s_eang].
  destruct (Rlt_dec (- PI) (Rmin a b)) as [L|L].
  - destruct (norm_angles_up a b L) as (k & E & B). exists k. rewrite E. cbn [fst snd]. destruct (s_cw s); tauto.
  - destruct (norm_angles_spec a b) as (k & E & _). exists k. rewrite E. cbn [fst snd]. destruct (s_cw s); tauto.
Qed.

Lemma covers_new_arc s p q a b x :
  covers (new_arc s p q a b) x <-> exists w, low (s_cw s) a b <= w <= high (s_cw s) a b /\ on_round (s_cen s) (s_rad s) w x.
Proof.
  rewrite covers_arc by reflexivity. destruct (new_arc_facts s p q a b) as (k & -> & -> & _).
  change (s_cen (new_arc s p q a b)) with (s_cen s). change (s_rad (new_arc s p q a b)) with (s_rad s). split.
  - intros (w & W & O). exists (w + 2 * PI * IZR (- k)). rewrite opp_IZR. split; [lra|].
    replace (w + 2 * PI * - IZR k) with (w + 2 * PI * IZR (- k)) by (rewrite opp_IZR; ring). now apply on_round_turns.
  - intros (w & W & O). exists (w + 2 * PI * IZR k). split; [lra|]. now apply on_round_turns.
Qed.

Lemma length_new_arc s p q a b : get_length (new_arc s p q a b) = (high (s_cw s) a b - low (s_cw s) a b) * s_rad s.
Proof.
  unfold get_length. change (s_ty (new_arc s p q a b)) with SArc. cbv iota.
  destruct (new_arc_facts s p q a b) as (k & -> & -> & _). change (s_rad (new_arc s p q a b)) with (s_rad s). ring.
Qed.

Lemma norm_course s p q a b t x : course (new_arc s p q a b) t x <-> on_round (s_cen s) (s_rad s) (a + t * (b - a)) x.
Proof.
  unfold course, new_arc. cbn [s_ty s_cen s_rad s_sang s_eang].
  destruct (norm_angles_spec a b) as (k & -> & _). cbn [fst snd].
  replace (a + 2 * PI * IZR k + t * (b + 2 * PI * IZR k - (a + 2 * PI * IZR k))) with (a + t * (b - a) + 2 * PI * IZR k) by ring.
  apply on_round_turns.
Qed.

Lemma new_arc_order d s p q a b : 0 < s_rad s -> - PI < Rmin a b -> low (s_cw s) a b < high (s_cw s) a b -> high (s_cw s) a b < low (s_cw s) a b + 2 * PI ->
  (forall x, on_round (s_cen s) (s_rad s) a x -> dist x p <= d) -> (forall x, on_round (s_cen s) (s_rad s) b x -> dist x q <= d) ->
  arc_in_order d (new_arc s p q a b) /\ start_angle (new_arc s p q a b) <= PI.
Proof.
  intros R M L L2 P Q. destruct (new_arc_facts s p q a b) as (k & E1 & E2 & K). specialize (K M).
  assert (Rmin a b = low (s_cw s) a b) as EM.
  { unfold low, high, Rmin in *. destruct (s_cw s); destruct (Rle_dec a b); lra. }
  rewrite EM in K. split; [|lra]. split; [reflexivity|]. split; [exact R|]. rewrite E1, E2.
  split; [lra|]. split; [lra|]. split; [lra|]. split; [lra|]. split.
  - intros x H. apply norm_course in H. replace (a + 0 * (b - a)) with a in H by ring. now apply P.
  - intros x H. apply norm_course in H. replace (a + 1 * (b - a)) with b in H by ring. now apply Q.
Qed.

Lemma kept_facts s p a : start_angle (with_arc_end s p a) = low (s_cw s) (s_sang s) a /\ end_angle (with_arc_end s p a) = high (s_cw s) (s_sang s) a.
Proof. unfold start_angle, end_angle, with_arc_end, low, high. cbn [s_cw s_sang s_eang]. now destruct (s_cw s). Qed.

Definition in_turn (s : seg) (l : list R) : Prop :=
  forall i j, (i < j < length l)%nat -> if s_cw s then nth j l 0 <= nth i l 0 else nth i l 0 <= nth j l 0.

Lemma split_arc_pieces d s ps ps' s' n : arc_in_order d s -> start_angle s <= PI ->
  split s ps = (true, (ps', (s', n))) ->
  ps' = filter (fun p => negb (point_matches p (s_start s) e8 || point_matches p (s_end s) e8)) ps /\
  (1 <= length ps' <= 2)%nat /\ length n = length ps' /\ chained (s_start s) (s' :: n) (s_end s) /\
  (forall x, In x (s' :: n) -> s_ty x = SArc /\ s_cw x = s_cw s /\ s_cen x = s_cen s /\ s_rad x = s_rad s) /\
  (forall p, In p ps' <-> exists i, (i < length ps')%nat /\ p = s_end (nth i (s' :: n) seg_init)) /\
  (forall p, In p ps' -> Rabs (dist2 p (s_cen s) - s_rad s * s_rad s) <= e8) /\
  (forall p, covers s p <-> exists x, In x (s' :: n) /\ covers x p) /\
  total_length (s' :: n) = get_length s /\
  (forall x, In x (s' :: n) -> 0 <= get_length x) /\
  (forall x, In x (s' :: n) -> 0 < get_length x -> arc_in_order (Rmax d (e8 / s_rad s)) x) /\
  (forall x, In x n -> 0 < get_length x -> start_angle x <= PI) /\ (s_cw s = false -> start_angle s' <= PI).
Proof.
  intros O N H. pose proof O as (T & R & A0 & A1 & L & L2 & CS & CE). unfold split in H. rewrite T in H.
  set (f := fun p => negb (point_matches p (s_start s) e8 || point_matches p (s_end s) e8)) in *.
  assert (H' : split_arc s (filter f ps) = (true, (s', n)) /\ ps' = filter f ps).
  { destruct (length ps) as [|[|[|]]]; inversion H; subst; (split; [|reflexivity]).
    all: destruct (split_arc s (filter f ps)) as [o [x y]]; cbn [fst snd] in *; congruence. }
  destruct H' as [S ->]. split; [reflexivity|]. clear H.
  set (D := Rmax d (e8 / s_rad s)). assert (D1 : d <= D) by apply Rmax_l. assert (D2 : e8 / s_rad s <= D) by apply Rmax_r.
  assert (Near : forall p a, arc_angle s p = Some a -> forall x, on_round (s_cen s) (s_rad s) a x -> dist x p <= D).
  { intros p a E x X. destruct (arc_angle_sound d s p a O N E) as (_ & B & K). eapply Rle_trans; [|exact D2]. eapply near_round; eauto. }
  assert (NearE : forall x, on_round (s_cen s) (s_rad s) (s_eang s) x -> dist x (s_end s) <= D).
  { intros x X. eapply Rle_trans; [|exact D1]. apply CE. unfold course. rewrite T.
    replace (s_sang s + 1 * (s_eang s - s_sang s)) with (s_eang s) by ring. exact X. }
  assert (NearS : forall x, on_round (s_cen s) (s_rad s) (s_sang s) x -> dist x (s_start s) <= D).
  { intros x X. eapply Rle_trans; [|exact D1]. apply CS. unfold course. rewrite T.
    replace (s_sang s + 0 * (s_eang s - s_sang s)) with (s_sang s) by ring. exact X. }
  assert (Kept : forall p a, start_angle s <= a <= end_angle s -> (forall x, on_round (s_cen s) (s_rad s) a x -> dist x p <= D) ->
     0 < get_length (with_arc_end s p a) -> arc_in_order D (with_arc_end s p a)).
  { intros p a Ra Na G. destruct (kept_facts s p a) as [K1 K2]. unfold get_length in G. change (s_ty (with_arc_end s p a)) with (s_ty s) in G.
    rewrite T, K1, K2 in G. change (s_rad (with_arc_end s p a)) with (s_rad s) in G.
    assert (G' : low (s_cw s) (s_sang s) a < high (s_cw s) (s_sang s) a) by nra.
    split; [exact T|]. split; [exact R|]. rewrite K1, K2. unfold low, high, start_angle, end_angle in *.
    split; [destruct (s_cw s); lra|]. split; [destruct (s_cw s); lra|]. split; [lra|]. split; [destruct (s_cw s); lra|]. split.
    - intros x X. unfold course in X. change (s_ty (with_arc_end s p a)) with (s_ty s) in X. rewrite T in X. cbn [with_arc_end s_sang s_eang s_cen s_rad s_start] in *.
      replace (s_sang s + 0 * (a - s_sang s)) with (s_sang s) in X by ring. now apply NearS.
    - intros x X. unfold course in X. change (s_ty (with_arc_end s p a)) with (s_ty s) in X. rewrite T in X. cbn [with_arc_end s_sang s_eang s_cen s_rad s_end] in *.
      replace (s_sang s + 1 * (a - s_sang s)) with a in X by ring. now apply Na. }
  assert (LenK : forall p a, get_length (with_arc_end s p a) = (high (s_cw s) (s_sang s) a - low (s_cw s) (s_sang s) a) * s_rad s).
  { intros p a. unfold get_length. change (s_ty (with_arc_end s p a)) with (s_ty s). rewrite T. destruct (kept_facts s p a) as [-> ->]. reflexivity. }
  assert (CovK : forall p a x, covers (with_arc_end s p a) x <-> exists w, low (s_cw s) (s_sang s) a <= w <= high (s_cw s) (s_sang s) a /\ on_round (s_cen s) (s_rad s) w x).
  { intros p a x. rewrite covers_arc by exact T. destruct (kept_facts s p a) as [-> ->]. tauto. }
  assert (LenS : get_length s = (end_angle s - start_angle s) * s_rad s) by (unfold get_length; now rewrite T).
  assert (StL : start_angle s = low (s_cw s) (s_sang s) (s_eang s) /\ end_angle s = high (s_cw s) (s_sang s) (s_eang s)).
  { unfold start_angle, end_angle, low, high. now destruct (s_cw s). }
  destruct StL as [St En].
  unfold split_arc in S. destruct (filter f ps) as [|p [|q [|]]] eqn:F; try discriminate.
  - destruct (arc_angle s p) as [a|] eqn:P; [|discriminate]. injection S as <- <-.
    destruct (arc_angle_sound d s p a O N P) as (Ra & Rd & _).
    assert (RAB : - PI < Rmin a (s_eang s)).
    { unfold Rmin, start_angle, end_angle in *. destruct (s_cw s); destruct (Rle_dec a (s_eang s)); lra. }
    split; [cbn; lia|]. split; [reflexivity|]. split; [cbn; auto|]. split.
    { intros x [<-|[<-|[]]]; repeat split; auto. }
    split. { intro x. split; [intros [<-|[]]; exists 0%nat; cbn; auto|intros ([|i] & I & E); [left; symmetry; exact E|cbn in I; lia]]. }
    split. { intros x [<-|[]]. exact Rd. }
    split. { intro x. rewrite covers_arc by exact T. split.
      - intros (w & W & X). destruct (Rle_dec w a) as [Le|Gt].
        + destruct (s_cw s) eqn:CW.
          * eexists. split; [right; left; reflexivity|]. apply covers_new_arc. exists w. rewrite CW. unfold low, high, start_angle, end_angle in *. rewrite CW in *. split; [lra|exact X].
          * eexists. split; [left; reflexivity|]. apply CovK. exists w. unfold low, high, start_angle, end_angle in *. rewrite CW in *. split; [lra|exact X].
        + destruct (s_cw s) eqn:CW.
          * eexists. split; [left; reflexivity|]. apply CovK. exists w. unfold low, high, start_angle, end_angle in *. rewrite CW in *. split; [lra|exact X].
          * eexists. split; [right; left; reflexivity|]. apply covers_new_arc. exists w. rewrite CW. unfold low, high, start_angle, end_angle in *. rewrite CW in *. split; [lra|exact X].
      - intros (y & [<-|[<-|[]]] & Y); [pose proof (proj1 (CovK _ _ _) Y) as Z|pose proof (proj1 (covers_new_arc _ _ _ _ _ _) Y) as Z]; destruct Z as (w & W & X); exists w; (split; [|exact X]);
        unfold low, high, start_angle, end_angle in *; destruct (s_cw s); lra. }
    split. { cbn [total_length]. rewrite LenK, length_new_arc, LenS, St, En. unfold low, high. destruct (s_cw s); ring. }
    split. { intros x [<-|[<-|[]]]; [rewrite LenK|rewrite length_new_arc]; unfold low, high, start_angle, end_angle in *; destruct (s_cw s); nra. }
    split. { intros x [<-|[<-|[]]] G.
      - apply Kept; [exact Ra|now apply Near|exact G].
      - rewrite length_new_arc in G. apply new_arc_order; [exact R|exact RAB|nra| |now apply Near|exact NearE].
        unfold low, high, start_angle, end_angle in *; destruct (s_cw s); lra. }
    split. { intros x [<-|[]] G. rewrite length_new_arc in G.
      apply (new_arc_order D s p (s_end s) a (s_eang s)); [exact R|exact RAB|nra| |now apply Near|exact NearE].
      unfold low, high, start_angle, end_angle in *; destruct (s_cw s); lra. }
    intros CW. destruct (kept_facts s p a) as [-> _]. unfold low, start_angle in *. rewrite CW in *. lra.
  - destruct (arc_angle s p) as [a|] eqn:P; [|discriminate]. destruct (arc_angle s q) as [b|] eqn:Q; [|discriminate].
    injection S as <- <-.
    destruct (arc_angle_sound d s p a O N P) as (Ra & Rd & _). destruct (arc_angle_sound d s q b O N Q) as (Rb & Re & _).
    set (sw := if s_cw s then ltb a b else ltb b a).
    set (a0 := if sw then b else a). set (a1 := if sw then a else b). set (p0 := if sw then q else p). set (p1 := if sw then p else q).
    assert (Both : start_angle s <= a0 <= end_angle s /\ start_angle s <= a1 <= end_angle s /\ (if s_cw s then a1 <= a0 else a0 <= a1) /\
      (forall x, on_round (s_cen s) (s_rad s) a0 x -> dist x p0 <= D) /\ (forall x, on_round (s_cen s) (s_rad s) a1 x -> dist x p1 <= D) /\
      (forall x, In x [p; q] <-> x = p0 \/ x = p1)).
    { pose proof (Near p a P) as Np. pose proof (Near q b Q) as Nq. unfold a0, a1, p0, p1, sw.
      destruct (s_cw s); [destruct (ltb a b) eqn:LT|destruct (ltb b a) eqn:LT]; [apply ltb_true in LT|apply ltb_false in LT|apply ltb_true in LT|apply ltb_false in LT];
      (split; [assumption|]; split; [assumption|]; split; [lra|]; split; [assumption|]; split; [assumption|];
       intro x; cbn [In]; split; [intros [A|[A|[]]]|intros [A|A]]; subst x; tauto). }
    destruct Both as (B1 & B2 & B3 & B4 & B5 & B6). clearbody a0 a1 p0 p1. clear sw.
    assert (R01 : - PI < Rmin a0 a1) by (unfold Rmin; destruct (Rle_dec a0 a1); lra).
    assert (R1E : - PI < Rmin a1 (s_eang s)).
    { unfold Rmin, start_angle, end_angle in *. destruct (s_cw s); destruct (Rle_dec a1 (s_eang s)); lra. }
    split; [cbn; lia|]. split; [reflexivity|]. split; [cbn; auto|]. split.
    { intros x [<-|[<-|[<-|[]]]]; repeat split; auto. }
    split. { intro x. rewrite B6. split; [intros [-> | ->]; [exists 0%nat|exists 1%nat]; cbn; auto|
      intros ([|[|i]] & I & E); [left; exact E|right; exact E|cbn in I; lia]]. }
    split. { intros x [<-|[<-|[]]]; assumption. }
    split. { intro x. rewrite covers_arc by exact T. split.
      - intros (w & W & X).
        assert (Cs : low (s_cw s) (s_sang s) a0 <= w <= high (s_cw s) (s_sang s) a0 \/ low (s_cw s) a0 a1 <= w <= high (s_cw s) a0 a1 \/
                     low (s_cw s) a1 (s_eang s) <= w <= high (s_cw s) a1 (s_eang s)).
        { unfold low, high, start_angle, end_angle in *. destruct (s_cw s); destruct (Rle_dec w a0); destruct (Rle_dec w a1); lra. }
        destruct Cs as [C|[C|C]].
        + eexists. split; [left; reflexivity|]. apply CovK. eauto.
        + eexists. split; [right; left; reflexivity|]. apply covers_new_arc. eauto.
        + eexists. split; [right; right; left; reflexivity|]. apply covers_new_arc. eauto.
      - intros (y & [<-|[<-|[<-|[]]]] & Y); [pose proof (proj1 (CovK _ _ _) Y) as Z|pose proof (proj1 (covers_new_arc _ _ _ _ _ _) Y) as Z|pose proof (proj1 (covers_new_arc _ _ _ _ _ _) Y) as Z]; destruct Z as (w & W & X); exists w; (split; [|exact X]);
        unfold low, high, start_angle, end_angle in *; destruct (s_cw s); lra. }
    split. { cbn [total_length]. rewrite LenK, !length_new_arc, LenS, St, En. unfold low, high. destruct (s_cw s); ring. }
    split. { intros x [<-|[<-|[<-|[]]]]; [rewrite LenK|rewrite length_new_arc|rewrite length_new_arc]; unfold low, high, start_angle, end_angle in *; destruct (s_cw s); nra. }
    split. { intros x [<-|[<-|[<-|[]]]] G.
      - apply Kept; [exact B1|exact B4|exact G].
      - rewrite length_new_arc in G. apply new_arc_order; [exact R|exact R01|nra| |exact B4|exact B5].
        unfold low, high, start_angle, end_angle in *; destruct (s_cw s); lra.
      - rewrite length_new_arc in G. apply new_arc_order; [exact R|exact R1E|nra| |exact B5|exact NearE].
        unfold low, high, start_angle, end_angle in *; destruct (s_cw s); lra. }
    split. { intros x [<-|[<-|[]]] G; rewrite length_new_arc in G.
      - apply (new_arc_order D s p0 p1 a0 a1); [exact R|exact R01|nra| |exact B4|exact B5].
        unfold low, high, start_angle, end_angle in *; destruct (s_cw s); lra.
      - apply (new_arc_order D s p1 (s_end s) a1 (s_eang s)); [exact R|exact R1E|nra| |exact B5|exact NearE].
        unfold low, high, start_angle, end_angle in *; destruct (s_cw s); lra. }
    intros CW. destruct (kept_facts s p0 a0) as [-> _]. unfold low, start_angle in *. rewrite CW in *. lra.
Qed.

Lemma split_arc_accepts d s ps : arc_in_order d s -> start_angle s <= PI -> (length ps = 1 \/ length ps = 2)%nat ->
  (forall p, In p ps -> covers s p) -> (exists p, In p ps /\ ~ at_end s p) -> fst (split s ps) = true.
Proof.
  intros O N L C (p & I & E). pose proof O as (T & _). unfold split. rewrite T.
  set (f := fun p => negb (point_matches p (s_start s) e8 || point_matches p (s_end s) e8)).
  assert (P : forall x, In x (filter f ps) -> exists t, arc_angle s x = Some t).
  { intros x X. apply filter_In in X. destruct X as [X _]. apply C in X. unfold covers in X. rewrite T in X.
    destruct X as (t & A & B). exists t. now apply (arc_angle_complete d). }
  assert (M : In p (filter f ps)) by (apply filter_In; split; [exact I|now apply keep_spec]).
  pose proof (filter_length_le f ps) as LL.
  assert (G : fst (split_arc s (filter f ps)) = true).
  { unfold split_arc. destruct (filter f ps) as [|x [|y [|z l]]] eqn:F.
    - destruct M.
    - destruct (P x ltac:(now left)) as [t ->]. reflexivity.
    - destruct (P x ltac:(now left)) as [t ->]. destruct (P y ltac:(right; now left)) as [u ->]. reflexivity.
    - cbn [length] in LL. lia. }
  destruct L as [-> | ->]; exact G.
Qed.

(* a clockwise arc of which a first part was kept may begin beyond pi; a point between
   pi and its beginning is taken for a point of the arc *)
Lemma split_arc_beyond d s w q : arc_in_order d s -> s_cw s = true -> PI < w < start_angle s -> on_round (s_cen s) (s_rad s) w q -> ~ at_end s q ->
  ~ covers s q /\ split s [q] = (true, ([q], (with_arc_end s q w, [new_arc s q (s_end s) w (s_eang s)]))) /\
  get_length (new_arc s q (s_end s) w (s_eang s)) < 0.
Proof.
  intros (T & R & A0 & A1 & L & L2 & _) CW W O E. pose proof two_pi as TP.
  destruct (on_round_atan2 _ _ _ _ R O) as (k & K). pose proof (atan2_range (py q - py (s_cen s)) (px q - px (s_cen s))) as Q. set (a := atan2 _ _) in *.
  assert (Ka : a = w - 2 * PI).
  { assert (IZR 0 < IZR k) as K0 by (apply (Rmult_lt_reg_l (2 * PI)); [lra|]; change (IZR 0) with 0; lra).
    assert (IZR k < IZR 2) as K1 by (apply (Rmult_lt_reg_l (2 * PI)); [lra|]; change (IZR 2) with 2; lra).
    apply lt_IZR in K0. apply lt_IZR in K1. assert (k = 1)%Z as -> by lia. lra. }
  split; [|split].
  - rewrite covers_arc by exact T. intros (v & V & X). destruct (on_round_atan2 _ _ _ _ R X) as (j & J). fold a in J.
    assert (IZR 1 < IZR j) as K0 by (apply (Rmult_lt_reg_l (2 * PI)); [lra|]; lra).
    assert (IZR j < IZR 2) as K1 by (apply (Rmult_lt_reg_l (2 * PI)); [lra|]; change (IZR 2) with 2; lra).
    apply lt_IZR in K0. apply lt_IZR in K1. lia.
  - unfold split. rewrite T. cbn [length filter]. rewrite (proj2 (keep_spec s q) E). unfold split_arc.
    assert (AA : arc_angle s q = Some w).
    { unfold arc_angle. fold a.
      replace ((px q - px (s_cen s)) * (px q - px (s_cen s)) + (py q - py (s_cen s)) * (py q - py (s_cen s))) with (dist2 q (s_cen s)) by (unfold dist2; ring).
      rewrite (on_round_dist _ _ _ _ O), Rminus_diag_eq, Rabs_R0, ltb_f by (try reflexivity; pose proof e8_pos; lra).
      rewrite (ltb_t a) by lra. rewrite ltb_f by lra. f_equal. lra. }
    rewrite AA. reflexivity.
  - rewrite length_new_arc, CW. unfold low, high, start_angle, end_angle in *. rewrite CW in *. nra.
Qed.

Lemma abs_le_inv x y : Rabs x <= y -> - y <= x <= y.
Proof. unfold Rabs. destruct (Rcase_abs x); lra. Qed.

(** ** Circles *)

Definition circle_in_order (s : seg) : Prop := s_ty s = SCircle /\ 0 < s_rad s.
Definition bearing (s : seg) (p : pt) : R := atan2 (py p - py (s_cen s)) (px p - px (s_cen s)).

Lemma ccw_arc_new s p q a b : s_cw s = false -> ccw_arc (s_cen s) (s_rad s) p q a b = new_arc s p q a (if ltb b a then b + 2 * PI else b).
Proof. intro C. unfold ccw_arc, new_arc. now rewrite C. Qed.

Lemma split_circle_pieces s ps ps' s' n : circle_in_order s -> split s ps = (true, (ps', (s', n))) ->
  exists p q x, ps = [p; q] /\ ps' = ps /\ n = [x] /\
  s_ty x = SArc /\ s_cw x = false /\ s_cen x = s_cen s /\ s_rad x = s_rad s /\ s_start x = p /\ s_end x = q /\
  s_ty s' = SArc /\ s_cw s' = false /\ s_cen s' = s_cen s /\ s_rad s' = s_rad s /\ s_start s' = q /\ s_end s' = p /\
  (forall v, In v ps -> Rabs (dist2 v (s_cen s) - s_rad s * s_rad s) <= e8) /\
  (bearing s p <> bearing s q ->
     (forall v, covers s v <-> covers s' v \/ covers x v) /\ get_length s' + get_length x = get_length s /\
     0 < get_length s' /\ 0 < get_length x /\
     (forall y, y = s' \/ y = x -> arc_in_order (e8 / s_rad s) y /\ start_angle y <= PI)) /\
  (bearing s p = bearing s q -> get_length s' = 0 /\ get_length x = 0).
Proof.
  intros (T & R) H. pose proof two_pi as TP. unfold split in H. rewrite T in H.
  assert (H' : split_circle s ps = (true, (s', n)) /\ ps' = ps).
  { destruct (length ps) as [|[|[|]]]; inversion H; subst; (split; [|reflexivity]).
    all: destruct (split_circle s ps') as [o [x y]]; cbn [fst snd] in *; congruence. }
  clear H. destruct H' as [S ->]. unfold split_circle in S. destruct ps as [|p [|q [|]]]; try discriminate.
  destruct (ltb (Rabs (px p - px q)) e8 && ltb (Rabs (py p - py q)) e8); [discriminate|].
  assert (DD : forall v, (px v - px (s_cen s)) * (px v - px (s_cen s)) + (py v - py (s_cen s)) * (py v - py (s_cen s)) = dist2 v (s_cen s)) by (intro; unfold dist2; ring).
  cbv beta zeta in S. rewrite !DD in S.
  destruct (ltb e8 (Rabs (dist2 p _ - _))) eqn:B1; [discriminate|]. destruct (ltb e8 (Rabs (dist2 q _ - _))) eqn:B2; [discriminate|].
  apply ltb_false in B1. apply ltb_false in B2. cbn [orb] in S. fold (bearing s p) (bearing s q) in S. injection S as <- <-.
  exists p, q. eexists. split; [reflexivity|]. split; [reflexivity|]. split; [reflexivity|].
  do 12 (split; [reflexivity|]). split; [intros v [<-|[<-|[]]]; assumption|].
  set (c0 := mkSeg (s_ty s) (s_rad s) (s_sang s) (s_eang s) false (s_cen s) (s_start s) (s_end s)).
  change (ccw_arc (s_cen s) (s_rad s)) with (ccw_arc (s_cen c0) (s_rad c0)). rewrite !ccw_arc_new by reflexivity.
  pose proof (atan2_range (py p - py (s_cen s)) (px p - px (s_cen s))) as Rp. fold (bearing s p) in Rp.
  pose proof (atan2_range (py q - py (s_cen s)) (px q - px (s_cen s))) as Rq. fold (bearing s q) in Rq.
  set (a := bearing s p) in *. set (b := bearing s q) in *. set (a' := if ltb a b then a + 2 * PI else a). set (b' := if ltb b a then b + 2 * PI else b).
  split.
  - intro N.
    assert (F : (a < b /\ a' = a + 2 * PI /\ b' = b) \/ (b < a /\ a' = a /\ b' = b + 2 * PI)).
    { unfold a', b'. destruct (Rtotal_order a b) as [G|[G|G]]; [left|contradiction|right]; rewrite ?(ltb_t a b), ?(ltb_f b a), ?(ltb_t b a), ?(ltb_f a b) by lra; auto. }
    assert (Na : forall x, on_round (s_cen c0) (s_rad c0) a x -> dist x p <= e8 / s_rad s).
    { intros x X. eapply near_round; [exact R|exact B1| |exact X]. exists 0%Z. fold (bearing s p). fold a. ring. }
    assert (Nb : forall x, on_round (s_cen c0) (s_rad c0) b x -> dist x q <= e8 / s_rad s).
    { intros x X. eapply near_round; [exact R|exact B2| |exact X]. exists 0%Z. fold (bearing s q). fold b. ring. }
    assert (Na' : forall x, on_round (s_cen c0) (s_rad c0) a' x -> dist x p <= e8 / s_rad s).
    { intros x X. destruct F as [(_ & E & _)|(_ & E & _)]; rewrite E in X; [|now apply Na]. apply Na.
      replace (a + 2 * PI) with (a + 2 * PI * IZR 1) in X by ring. now apply on_round_turns in X. }
    assert (Nb' : forall x, on_round (s_cen c0) (s_rad c0) b' x -> dist x q <= e8 / s_rad s).
    { intros x X. destruct F as [(_ & _ & E)|(_ & _ & E)]; rewrite E in X; [now apply Nb|]. apply Nb.
      replace (b + 2 * PI) with (b + 2 * PI * IZR 1) in X by ring. now apply on_round_turns in X. }
    split; [|split; [|split; [|split]]].
    + intro v. unfold covers at 1. rewrite T. split.
      * intro V.
        assert (D : dist v (s_cen s) = s_rad s) by (unfold dist; rewrite V; replace (s_rad s ^ 2) with (s_rad s * s_rad s) by ring; apply sqrt_square; lra).
        destruct (direction (s_cen s) v ltac:(lra)) as [X Y]. rewrite D in X, Y. fold (bearing s v) in X, Y.
        pose proof (atan2_range (py v - py (s_cen s)) (px v - px (s_cen s))) as Rv. fold (bearing s v) in Rv. set (w := bearing s v) in *.
        assert (O0 : on_round (s_cen s) (s_rad s) w v) by (split; assumption).
        assert (O1 : on_round (s_cen s) (s_rad s) (w + 2 * PI) v).
        { replace (w + 2 * PI) with (w + 2 * PI * IZR 1) by ring. now apply on_round_turns. }
        rewrite !covers_new_arc. cbn [c0 s_cw low high]. change (s_cen c0) with (s_cen s). change (s_rad c0) with (s_rad s).
        destruct F as [(G & -> & ->)|(G & -> & ->)]; destruct (Rlt_dec w a); destruct (Rle_dec w b);
          first [ right; exists w; (split; [lra|assumption]) | left; exists w; (split; [lra|assumption])
                | right; exists (w + 2 * PI); (split; [lra|assumption]) | left; exists (w + 2 * PI); (split; [lra|assumption]) ].
      * replace (s_rad s ^ 2) with (s_rad s * s_rad s) by ring.
        intros [V|V]; pose proof (proj1 (covers_new_arc _ _ _ _ _ _) V) as (w & _ & X); exact (on_round_dist _ _ _ _ X).
    + rewrite !length_new_arc. unfold get_length. rewrite T. cbn [c0 s_cw s_rad low high]. destruct F as [(G & -> & ->)|(G & -> & ->)]; ring.
    + rewrite length_new_arc. cbn [c0 s_cw s_rad low high]. destruct F as [(G & -> & ->)|(G & -> & ->)]; nra.
    + rewrite length_new_arc. cbn [c0 s_cw s_rad low high]. destruct F as [(G & -> & ->)|(G & -> & ->)]; nra.
    + intros y [-> | ->]; apply new_arc_order; try assumption; cbn [c0 s_cw low high];
      try (unfold Rmin; match goal with |- context [Rle_dec ?u ?v] => destruct (Rle_dec u v) end);
      destruct F as [(G & E1 & E2)|(G & E1 & E2)]; rewrite ?E1, ?E2 in *; lra.
  - intro E. rewrite !length_new_arc. cbn [c0 s_cw s_rad low high]. unfold a', b'. rewrite E, !ltb_f by lra. split; ring.
Qed.

(* for a radius of 2 or more the two points cannot have the same bearing *)
Lemma split_circle_wide s p q : circle_in_order s -> 2 <= s_rad s -> fst (split s [p; q]) = true -> bearing s p <> bearing s q.
Proof.
  intros (T & R) W H E. unfold split in H. rewrite T in H. cbn [length fst snd] in H. unfold split_circle in H.
  destruct (ltb (Rabs (px p - px q)) e8 && ltb (Rabs (py p - py q)) e8) eqn:F; [discriminate|].
  assert (DD : forall v, (px v - px (s_cen s)) * (px v - px (s_cen s)) + (py v - py (s_cen s)) * (py v - py (s_cen s)) = dist2 v (s_cen s)) by (intro; unfold dist2; ring).
  cbv beta zeta in H. rewrite !DD in H.
  destruct (ltb e8 (Rabs (dist2 p _ - _))) eqn:B1; [discriminate|]. destruct (ltb e8 (Rabs (dist2 q _ - _))) eqn:B2; [discriminate|].
  apply ltb_false in B1. apply ltb_false in B2. clear H.
  assert (P : forall v, Rabs (dist2 v (s_cen s) - s_rad s * s_rad s) <= e8 -> 19 / 10 <= dist v (s_cen s)).
  { intros v V. rewrite <- dist_sq in V. pose proof (dist_pos v (s_cen s)). apply abs_le_inv in V. unfold e8 in V. nra. }
  pose proof (P p B1) as Pp. pose proof (P q B2) as Pq.
  destruct (direction (s_cen s) p ltac:(lra)) as [Xp Yp]. destruct (direction (s_cen s) q ltac:(lra)) as [Xq Yq].
  fold (bearing s p) in Xp, Yp. fold (bearing s q) in Xq, Yq. rewrite <- E in Xq, Yq. set (a := bearing s p) in *.
  assert (D : Rabs (dist p (s_cen s) - dist q (s_cen s)) < e8).
  { rewrite <- dist_sq in B1, B2. apply abs_le_inv in B1. apply abs_le_inv in B2. unfold e8 in *. apply Rabs_def1; nra. }
  assert (G : forall t, -1 <= t <= 1 -> Rabs ((dist p (s_cen s) - dist q (s_cen s)) * t) < e8).
  { intros t Ht. rewrite Rabs_mult. assert (Rabs t <= 1) by (apply Rabs_le; lra). pose proof (Rabs_pos t). pose proof (Rabs_pos (dist p (s_cen s) - dist q (s_cen s))). nra. }
  rewrite !ltb_t in F; [discriminate| |].
  - replace (py p - py q) with ((dist p (s_cen s) - dist q (s_cen s)) * sin a) by lra. apply G. pose proof (SIN_bound a). lra.
  - replace (px p - px q) with ((dist p (s_cen s) - dist q (s_cen s)) * cos a) by lra. apply G. pose proof (COS_bound a). lra.
Qed.

Lemma split_circle_accepts s p q : circle_in_order s -> covers s p -> covers s q ->
  (e8 <= Rabs (px p - px q) \/ e8 <= Rabs (py p - py q)) -> fst (split s [p; q]) = true.
Proof.
  intros (T & R) P Q D. unfold split. rewrite T. cbn [length fst]. unfold split_circle.
  unfold covers in P, Q. rewrite T in P, Q.
  assert (F : ltb (Rabs (px p - px q)) e8 && ltb (Rabs (py p - py q)) e8 = false).
  { destruct D as [D|D]; [rewrite (ltb_f (Rabs (px p - px q))) by lra; reflexivity|rewrite (ltb_f (Rabs (py p - py q))) by lra; apply andb_false_r]. }
  rewrite F. cbv beta zeta.
  assert (DD : forall v, dist2 v (s_cen s) = s_rad s ^ 2 -> (px v - px (s_cen s)) * (px v - px (s_cen s)) + (py v - py (s_cen s)) * (py v - py (s_cen s)) - s_rad s * s_rad s = 0).
  { intros v V. unfold dist2 in V. lra. }
  rewrite (DD p P), (DD q Q), Rabs_R0, !ltb_f by (pose proof e8_pos; lra). reflexivity.
Qed.
