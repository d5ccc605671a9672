(** Facts about the curves of board surfaces: arcs in pieces and where they go. *)

From Coq Require Import Reals List Bool ZArith Lra Lia Psatz.
From Verif Require Import SegModel SegSpec SegTrig SegFacts OutModel PcbModel PcbSpec.
Import ListNotations.
Open Scope R_scope.

Lemma round_radius o r w r' w' a : 0 < r -> 0 < r' -> on_round o r w a -> on_round o r' w' a -> r = r' /\ cos w = cos w' /\ sin w = sin w'.
Proof.
  intros P P' [A B] [A' B']. pose proof (sin2_cos2 w) as Q. pose proof (sin2_cos2 w') as Q'. unfold Rsqr in Q, Q'.
  assert (C : r * cos w = r' * cos w') by lra. assert (S : r * sin w = r' * sin w') by lra.
  assert (E : r * r = r' * r').
  { replace (r * r) with ((r * cos w) * (r * cos w) + (r * sin w) * (r * sin w)) by (transitivity (r * r * (sin w * sin w + cos w * cos w)); [ring|rewrite Q; ring]).
    rewrite C, S. transitivity (r' * r' * (sin w' * sin w' + cos w' * cos w')); [ring|rewrite Q'; ring]. }
  assert (R : r = r') by nra. subst r'. split; [reflexivity|]. split; apply (Rmult_eq_reg_l r); lra.
Qed.

Lemma round_shift o r w w' : cos w = cos w' -> sin w = sin w' -> forall x p, on_round o r (w + x) p <-> on_round o r (w' + x) p.
Proof. intros C S x p. unfold on_round. rewrite !cos_plus, !sin_plus, C, S. tauto. Qed.

(** Where an arc goes does not depend on how its angles are counted. *)
Lemma arc_goes z o a b m r w d t p : 0 < r -> 0 < d <= 2 * PI -> on_round o r w a -> on_round o r (w + d) b ->
  (goes (CArc z o a b m) t p <-> exists q, on_round o r (w + t * d) q /\ pz q = z /\ p = moved m q).
Proof.
  intros P D A B. cbn [goes]. split.
  - intros (r' & w' & d' & q & P' & D' & A' & B' & Q & Z & E). exists q.
    destruct (round_radius _ _ _ _ _ _ P P' A A') as (<- & C & S).
    destruct (round_radius _ _ _ _ _ _ P P B B') as (_ & C2 & S2).
    assert (E' : d = d').
    { apply angle_unique; [| |lra].
      - replace d with ((w + d) - w) by ring. replace d' with ((w' + d') - w') by ring. rewrite !cos_minus, C, S, C2, S2. reflexivity.
      - replace d with ((w + d) - w) by ring. replace d' with ((w' + d') - w') by ring. rewrite !sin_minus, C, S, C2, S2. reflexivity. }
    subst d'. split; [|tauto]. now apply (round_shift o r w w' C S).
  - intros (q & Q & Z & E). exists r, w, d, q. tauto.
Qed.

Lemma arc_goes_plain z o a b r w d t p : 0 < r -> 0 < d <= 2 * PI -> on_round o r w a -> on_round o r (w + d) b ->
  (goes (CArc z o a b None) t p <-> on_round o r (w + t * d) p /\ pz p = z).
Proof.
  intros P D A B. rewrite (arc_goes z o a b None r w d t p P D A B). cbn [moved]. split.
  - intros (q & Q & Z & ->). tauto.
  - intros [Q Z]. exists p. tauto.
Qed.

(** ** Going along in pieces *)

Lemma follows_affine T G a l b : a < b -> follows T G a l b -> follows T (fun t => G (a + t * (b - a))) 0 l 1.
Proof.
  intros L H.
  assert (K : forall u l v, follows T G u l v -> follows T (fun t => G (a + t * (b - a))) ((u - a) / (b - a)) l ((v - a) / (b - a))).
  { clear H l. induction 1 as [u|u m v c l M E _ IH]; [constructor|].
    apply (follows_cons _ _ _ ((m - a) / (b - a))).
    - apply Rmult_lt_compat_r; [apply Rinv_0_lt_compat|]; lra.
    - intros t p Ht. rewrite (E t p Ht).
      replace (a + ((u - a) / (b - a) + t * ((m - a) / (b - a) - (u - a) / (b - a))) * (b - a)) with (u + t * (m - u)) by (field; lra). reflexivity.
    - exact IH. }
  specialize (K a l b H). replace ((a - a) / (b - a)) with 0 in K by (field; lra). replace ((b - a) / (b - a)) with 1 in K by (field; lra). exact K.
Qed.

Lemma follows_ext T F G a l b : (forall t p, F t p <-> G t p) -> follows T F a l b -> follows T G a l b.
Proof.
  intros E. induction 1 as [u|u m v c l M H _ IH]; [constructor|]. apply (follows_cons _ _ _ m); [exact M| |exact IH].
  intros t p Ht. rewrite (H t p Ht). apply E.
Qed.

Lemma follows_app T F a l b l' c : follows T F a l b -> follows T F b l' c -> follows T F a (l ++ l') c.
Proof. induction 1 as [u|u m v x l M H _ IH]; intro K; [exact K|]. apply (follows_cons _ _ _ m); auto. Qed.

(** Pairs of points which follow each other on a circle. *)
Inductive steps (o : pt) (r : R) : R -> list (pt * pt) -> R -> Prop :=
| steps_nil w : steps o r w [] w
| steps_cons w w' v p q l : w < w' <= w + 2 * PI -> on_round o r w p -> on_round o r w' q -> steps o r w' l v -> steps o r w ((p, q) :: l) v.

Lemma steps_follow z o r w l v (G : R -> pt -> Prop) m : 0 < r -> steps o r w l v ->
  (forall x p, G x p <-> exists q, on_round o r x q /\ pz q = z /\ p = moved m q) ->
  follows goes G w (map (fun q => CArc z o (fst q) (snd q) m) l) v.
Proof.
  intros P H E. induction H as [w|w w' v p q l L A B _ IH]; [constructor|]. cbn [map fst snd].
  apply (follows_cons _ _ _ w'); [lra| |exact IH]. intros t x Ht. rewrite E.
  apply arc_goes; try assumption; [lra|]. replace (w + (w' - w)) with w' by ring. exact B.
Qed.

Lemma round_left o r : on_round o r PI (mkPt (px o - r) (py o) 0).
Proof. unfold on_round. rewrite cos_PI, sin_PI. cbn. split; ring. Qed.
Lemma round_right o r : on_round o r 0 (mkPt (px o + r) (py o) 0).
Proof. unfold on_round. rewrite cos_0, sin_0. cbn. split; ring. Qed.
Lemma round_right2 o r : on_round o r (2 * PI) (mkPt (px o + r) (py o) 0).
Proof. unfold on_round. rewrite cos_2PI, sin_2PI. cbn. split; ring. Qed.
Lemma round_turn o r w p : on_round o r (w + 2 * PI) p <-> on_round o r w p.
Proof. unfold on_round. rewrite cos_turn, sin_turn. tauto. Qed.
Lemma round_back o r w p : on_round o r (w - 2 * PI) p <-> on_round o r w p.
Proof. rewrite <- (round_turn o r (w - 2 * PI)). now replace (w - 2 * PI + 2 * PI) with w by ring. Qed.

Ltac step v := apply (steps_cons _ _ _ v); [lra|assumption || apply round_left || apply round_right || apply round_right2|
  assumption || apply round_left || apply round_right || apply round_right2|].
Lemma pieces_steps o r a0 a1 p0 p1 : - PI < a0 <= PI -> a0 < a1 < a0 + 2 * PI ->
  on_round o r a0 p0 -> on_round o r a1 p1 -> steps o r a0 (pieces o r a0 a1 p0 p1) a1.
Proof.
  intros R L A B. pose proof PI_RGT_0 as P. unfold pieces.
  destruct (Rle_dec 0 a0) as [K|K]; [rewrite (leb_t 0 a0 K)|rewrite (leb_f 0 a0) by lra].
  - destruct (Rlt_dec a0 PI) as [K2|K2]; [rewrite (ltb_t a0 PI K2)|rewrite (ltb_f a0 PI) by lra]; cbn [andb].
    + destruct (Rle_dec a1 PI) as [K3|K3]; [rewrite (leb_t _ _ K3)|rewrite (leb_f a1 PI) by lra].
      * step a1. constructor.
      * destruct (Rle_dec a1 (2 * PI)) as [K4|K4]; [rewrite (leb_t _ _ K4)|rewrite (leb_f a1 (2 * PI)) by lra].
        -- step PI. step a1. constructor.
        -- step PI. step (2 * PI). step a1. constructor.
    + assert (a0 = PI) by lra. subst a0. unfold eqb. destruct (Req_EM_T PI PI) as [_|N]; [|now destruct N].
      destruct (Rle_dec a1 (2 * PI)) as [K4|K4]; [rewrite (leb_t _ _ K4)|rewrite (leb_f a1 (2 * PI)) by lra].
      * step a1. constructor.
      * step (2 * PI). step a1. constructor.
  - cbn [andb]. unfold eqb. destruct (Req_EM_T a0 PI) as [N|_]; [lra|].
    destruct (Rle_dec a1 0) as [K3|K3]; [rewrite (leb_t _ _ K3)|rewrite (leb_f a1 0) by lra].
    + step a1. constructor.
    + destruct (Rle_dec a1 PI) as [K4|K4]; [rewrite (leb_t _ _ K4)|rewrite (leb_f a1 PI) by lra].
      * step 0. step a1. constructor.
      * step 0. step PI. step a1. constructor.
Qed.

(** ** [GetCurves] *)

Lemma rel_angle o r w p : 0 < r -> on_round o r w p -> exists v, atan2 (py p - py o) (px p - px o) = v /\ - PI < v <= PI /\ cos v = cos w /\ sin v = sin w /\ on_round o r v p.
Proof.
  intros P [A B]. exists (atan2 (py p - py o) (px p - px o)). split; [reflexivity|]. split; [apply atan2_range|].
  replace (px p - px o) with (r * cos w) by lra. replace (py p - py o) with (r * sin w) by lra.
  destruct (atan2_point (r * cos w) (r * sin w) (polar_nonzero r w P)) as [C S].
  rewrite (cos_sin_polar _ _ r w P eq_refl eq_refl) in C, S.
  assert (C' : cos (atan2 (r * sin w) (r * cos w)) = cos w) by (apply (Rmult_eq_reg_l r); lra).
  assert (S' : sin (atan2 (r * sin w) (r * cos w)) = sin w) by (apply (Rmult_eq_reg_l r); lra).
  split; [exact C'|]. split; [exact S'|]. unfold on_round. rewrite C', S'. split; assumption.
Qed.

(** The angle of the end, counted on from the one of the start. *)
Lemma counted_on a b d : - PI < a <= PI -> - PI < b <= PI -> 0 < d < 2 * PI -> cos b = cos (a + d) -> sin b = sin (a + d) ->
  (if ltb b a then b + 2 * PI else b) = a + d.
Proof.
  intros A B D C S. destruct (Rlt_dec b a) as [L|L]; [rewrite (ltb_t b a L)|rewrite (ltb_f b a) by lra].
  - apply angle_unique; [now rewrite cos_turn|now rewrite sin_turn|lra].
  - apply angle_unique; try assumption. lra.
Qed.

Lemma curve_arc_follows z s : s_ty s = SArc -> sharp s -> follows goes (course_at z s) 0 (curve_arc z s) 1.
Proof.
  intros T H. unfold sharp in H. rewrite T in H. destruct H as (_ & _ & _ & P & R & L & A & B & _). unfold curve_arc.
  unfold course in A, B. rewrite T in A, B. unfold start_angle, end_angle in *.
  replace (s_sang s + 0 * (s_eang s - s_sang s)) with (s_sang s) in A by ring.
  replace (s_sang s + 1 * (s_eang s - s_sang s)) with (s_eang s) in B by ring.
  destruct (s_cw s).
  - set (c0 := mkPt 0 (py (s_cen s)) (pz (s_cen s))).
    set (p0 := mkPt (px (s_cen s) - px (s_start s)) (py (s_start s)) (pz (s_start s))).
    set (p1 := mkPt (px (s_cen s) - px (s_end s)) (py (s_end s)) (pz (s_end s))).
    assert (A' : on_round c0 (s_rad s) (PI - s_sang s) p0).
    { destruct A as [A1 A2]. unfold on_round. rewrite Rtrigo_facts.cos_pi_minus, Rtrigo_facts.sin_pi_minus. cbn [c0 p0 px py]. split; lra. }
    assert (B' : on_round c0 (s_rad s) (PI - s_eang s) p1).
    { destruct B as [B1 B2]. unfold on_round. rewrite Rtrigo_facts.cos_pi_minus, Rtrigo_facts.sin_pi_minus. cbn [c0 p1 px py]. split; lra. }
    destruct (rel_angle _ _ _ _ P A') as (a0 & E0 & R0 & C0 & S0 & A0).
    destruct (rel_angle _ _ _ _ P B') as (b & E1 & R1 & C1 & S1 & _).
    replace (px p0 - px c0) with (px p0) in E0 by (cbn; ring). replace (px p1 - px c0) with (px p1) in E1 by (cbn; ring).
    cbv zeta. rewrite E0, E1. set (d := s_sang s - s_eang s) in *.
    assert (CD : cos b = cos (a0 + d) /\ sin b = sin (a0 + d)).
    { rewrite cos_plus, sin_plus, C0, S0, <- cos_plus, <- sin_plus. replace (PI - s_sang s + d) with (PI - s_eang s) by (unfold d; ring). split; assumption. }
    assert (A1 : on_round c0 (s_rad s) (a0 + d) p1).
    { destruct B' as [X Y]. unfold on_round. rewrite <- (proj1 CD), <- (proj2 CD), C1, S1. split; assumption. }
    rewrite (counted_on a0 b d R0 R1) by (unfold d; lra || apply CD).
    assert (LD : a0 < a0 + d) by (unfold d; lra).
    assert (LD2 : a0 + d < a0 + 2 * PI) by (unfold d; lra).
    pose proof (pieces_steps c0 (s_rad s) a0 (a0 + d) p0 p1 R0 (conj LD LD2) A0 A1) as ST.
    pose proof (steps_follow z c0 (s_rad s) a0 _ (a0 + d) _ (Some (flip (px (s_cen s)) z)) P ST (fun x p => iff_refl _)) as F.
    apply follows_affine in F; [|exact LD]. revert F. apply follows_ext. intros t p. unfold course_at, course. rewrite T.
    replace (a0 + t * (a0 + d - a0)) with (a0 + t * d) by ring.
    replace (s_sang s + t * (s_eang s - s_sang s)) with (s_sang s - t * d) by (unfold d; ring).
    assert (M : forall q, on_round c0 (s_rad s) (a0 + t * d) q <->
      px q = - (s_rad s * cos (s_sang s - t * d)) /\ py q = py (s_cen s) + s_rad s * sin (s_sang s - t * d)).
    { intro q. unfold on_round. rewrite cos_plus, sin_plus, C0, S0, <- cos_plus, <- sin_plus.
      replace (PI - s_sang s + t * d) with (PI - (s_sang s - t * d)) by ring.
      rewrite Rtrigo_facts.cos_pi_minus, Rtrigo_facts.sin_pi_minus. cbn [c0 px py]. split; intros [X Y]; split; lra. }
    split.
    + intros (q & Q & Z & ->). apply M in Q. unfold moved, xf_apply, dot, flip, on_round. cbn [px py pz xf_x xf_y xf_z xf_t]. split; [split|]; lra.
    + intros [[X Y] Z]. exists (mkPt (px (s_cen s) - px p) (py p) z). split; [apply M; cbn [px py]; split; lra|].
      split; [reflexivity|]. unfold moved, xf_apply, dot, flip. cbn [px py pz xf_x xf_y xf_z xf_t]. destruct p as [x y z']. cbn [px py pz] in *. f_equal; lra.
  - pose proof (pieces_steps _ _ _ _ _ _ R L A B) as ST.
    pose proof (steps_follow z _ _ _ _ _ (fun x p => on_round (s_cen s) (s_rad s) x p /\ pz p = z) None P ST) as F.
    apply follows_affine in F; [|lra|].
    + revert F. apply follows_ext. intros t p. unfold course_at, course. rewrite T. tauto.
    + intros x p. cbn [moved]. split; [intro; exists p; tauto|]. intros (q & Q & Z & ->). tauto.
Qed.

Lemma curves_follow z s : sharp s -> exists l, get_curves z s = Some l /\ follows goes (course_at z s) 0 l 1.
Proof.
  intro H. unfold get_curves. destruct (s_ty s) eqn:T.
  - unfold sharp in H. now rewrite T in H.
  - eexists. split; [reflexivity|]. apply (follows_cons _ _ _ 1); [lra| |constructor].
    intros t p Ht. cbn [goes]. unfold straight, course_at, course, at_z. rewrite T. cbn [px py pz].
    replace (0 + t * (1 - 0)) with t by ring. replace (z + t * (z - z)) with z by ring. tauto.
  - eexists. split; [reflexivity|]. now apply curve_arc_follows.
  - eexists. split; [reflexivity|]. unfold sharp in H. rewrite T in H. destruct H as (_ & P & S & E & _). pose proof PI_RGT_0 as PP.
    assert (ST : steps (s_cen s) (s_rad s) 0 [(mkPt (px (s_cen s) + s_rad s) (py (s_cen s)) 0, mkPt (px (s_cen s) - s_rad s) (py (s_cen s)) 0);
        (mkPt (px (s_cen s) - s_rad s) (py (s_cen s)) 0, mkPt (px (s_cen s) + s_rad s) (py (s_cen s)) 0)] (2 * PI)).
    { step PI. step (2 * PI). constructor. }
    pose proof (steps_follow z _ _ _ _ _ (fun x p => on_round (s_cen s) (s_rad s) x p /\ pz p = z) None P ST) as F.
    apply follows_affine in F; [|lra|].
    + revert F. apply follows_ext. intros t p. unfold course_at, course. rewrite T, S, E. tauto.
    + intros x p. cbn [moved]. split; [intro; exists p; tauto|]. intros (q & Q & Z & ->). tauto.
Qed.
