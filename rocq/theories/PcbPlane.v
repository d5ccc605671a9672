(** Facts about curves in the parameters of a plane. *)

From Coq Require Import Reals List Bool ZArith Lra Lia Psatz.
From Verif Require Import SegModel SegSpec SegTrig SegFacts OutModel PcbModel PcbSpec PcbCurve.
Import ListNotations.
Open Scope R_scope.

Definition rp (o : pt) (r w : R) : pt := mkPt (px o + r * cos w) (py o + r * sin w) 0.

Lemma onto_same x y k z rev p q : px p = px q -> py p = py q -> onto x y k z rev p = onto x y k z rev q.
Proof. intros A B. unfold onto. now rewrite A, B. Qed.
Lemma onto_round x y k z rev o r w p : on_round o r w p -> onto x y k z rev p = onto x y k z rev (rp o r w).
Proof. intros [A B]. now apply onto_same. Qed.

Lemma turn_onto x y k z (rev : bool) o r w f :
  turn (onto x y k z rev o) ((if rev then -1 else 1) * f) (onto x y k z rev (rp o r w)) = onto x y k z rev (rp o r (w + f)).
Proof.
  unfold turn, onto, rp. cbn [px py pz]. rewrite cos_plus, sin_plus. destruct rev.
  - replace (-1 * f) with (- f) by ring. rewrite cos_neg, sin_neg. f_equal; ring.
  - replace (1 * f) with f by ring. f_equal; ring.
Qed.

Section Plane.
Variables (bl tr : pt) (z : R) (rev : bool).
Hypothesis W : px bl < px tr.
Hypothesis SQ : px tr - px bl = py tr - py bl.
Let k := 1 / (px tr - px bl).
Let S := plane_surf bl tr z rev.
Let Q (p : pt) := onto (px bl) (py bl) k z rev p.

Lemma lift_onto p : surf_at S (px (Q p)) (py (Q p)) = mkPt (px p) (py p) z.
Proof.
  unfold S, Q, plane_surf, onto, k, surf_at, along. destruct rev; cbn [px py pz]; f_equal; try ring; try (field; lra);
    rewrite SQ; field; lra.
Qed.

Lemma nline_lifted a b t p : lifted S (NLine (Q a) (Q b)) t p <->
  px p = px a + t * (px b - px a) /\ py p = py a + t * (py b - py a) /\ pz p = z.
Proof.
  assert (E : forall q, straight (Q a) (Q b) t q -> px q = px (Q (along a b t)) /\ py q = py (Q (along a b t))).
  { intros q (A & B & _). rewrite A, B. unfold Q, onto, along. destruct rev; cbn [px py]; split; ring. }
  unfold lifted. cbn [goes]. split.
  - intros (q & A & ->). destruct (E q A) as [-> ->]. rewrite lift_onto. unfold along. cbn [px py pz]. tauto.
  - intros (A & B & C).
    set (m := along (Q a) (Q b) t). assert (M : straight (Q a) (Q b) t m) by (unfold straight, m, along; cbn [px py pz]; tauto).
    exists m. split; [exact M|]. destruct (E m M) as [-> ->]. rewrite lift_onto. unfold along. destruct p as [x y z']. cbn [px py pz] in *. congruence.
Qed.

Lemma narc_lifted o r w a t p d : d = (if rev then -1 else 1) ->
  lifted S (NArc (Q (rp o r w)) (Q o) a d) t p <-> on_round o r (w + t * a) p /\ pz p = z.
Proof.
  intros ->. unfold lifted. cbn [goes]. unfold Q at 1 2. split.
  - intros (q & -> & ->). rewrite turn_onto, lift_onto. unfold on_round, rp. cbn [px py pz]. tauto.
  - intros [[A B] C]. eexists. split; [reflexivity|]. rewrite turn_onto, lift_onto. unfold rp. destruct p as [x y z']. cbn [px py pz] in *. congruence.
Qed.

Lemma narc_lifted_cw o r w a t p d : d = (if xorb true rev then -1 else 1) ->
  lifted S (NArc (Q (rp o r w)) (Q o) a d) t p <-> on_round o r (w - t * a) p /\ pz p = z.
Proof.
  intros ->. unfold lifted. cbn [goes]. unfold Q at 1 2.
  assert (E : (if xorb true rev then -1 else 1) * (t * a) = (if rev then -1 else 1) * (- (t * a))) by (destruct rev; cbn; ring).
  split.
  - intros (q & -> & ->). rewrite E, turn_onto, lift_onto. unfold on_round, rp. cbn [px py pz]. tauto.
  - intros [[A B] C]. eexists. split; [reflexivity|]. rewrite E, turn_onto, lift_onto. unfold rp. destruct p as [x y z']. cbn [px py pz] in *. unfold Rminus in *. congruence.
Qed.

(** Starts and angles which follow each other. *)
Inductive csteps (o : pt) (r : R) : R -> list (pt * R) -> R -> Prop :=
| csteps_nil w : csteps o r w [] w
| csteps_cons w w' v p a l : w < w' -> a = w' - w -> p = Q (rp o r w) -> csteps o r w' l v -> csteps o r w ((p, a) :: l) v.

Lemma csteps_follow o r w l v d : d = (if rev then -1 else 1) -> csteps o r w l v ->
  follows (lifted S) (fun x p => on_round o r x p /\ pz p = z) w (map (fun q => NArc (fst q) (Q o) (snd q) d) l) v.
Proof.
  intros D. induction 1 as [w|w w' v p a l L A P _ IH]; [constructor|]. cbn [map fst snd]. subst a p.
  apply (follows_cons _ _ _ w'); [exact L| |exact IH]. intros t p Ht. now apply narc_lifted.
Qed.

Lemma csteps_back o r w l v d e : d = (if xorb true rev then -1 else 1) -> e = Q (rp o r v) -> csteps o r w l v ->
  follows (lifted S) (fun x p => on_round o r (- x) p /\ pz p = z) (- v)
    (List.rev (map (fun q => NArc (snd q) (Q o) (snd (fst q)) d) (combine l (map fst (tl l) ++ [e])))) (- w).
Proof.
  intros D E. induction 1 as [w|w w' v p a l L A P H IH]; [constructor|]. specialize (IH E). subst a.
  assert (ONE : forall q, q = Q (rp o r w') -> follows (lifted S) (fun x p0 => on_round o r (- x) p0 /\ pz p0 = z) (- w') [NArc q (Q o) (w' - w) d] (- w)).
  { intros q ->. apply (follows_cons _ _ _ (- w)); [lra| |constructor]. intros t x Ht. rewrite (narc_lifted_cw o r w' (w' - w) t x d D).
    replace (- (- w' + t * (- w - - w'))) with (w' - t * (w' - w)) by ring. reflexivity. }
  destruct l as [|[p2 a2] l].
  - inversion H; subst. cbn. apply ONE. reflexivity.
  - cbn [tl map fst] in *. cbn [combine app map fst snd List.rev] in *.
    eapply follows_app; [exact IH|]. apply ONE. inversion H; subst. reflexivity.
Qed.

Ltac cst v := apply (csteps_cons _ _ _ v); [lra|lra|assumption|].
Lemma cop_pieces_steps o r sa ea p0 : - PI < sa <= PI -> sa < ea < sa + 2 * PI -> p0 = Q (rp o r sa) ->
  csteps o r sa (cop_pieces (Q o) (r * k) sa ea p0) ea.
Proof.
  intros R L A. pose proof PI_RGT_0 as P. unfold cop_pieces.
  assert (RT : mkPt (px (Q o) + r * k) (py (Q o)) (pz (Q o)) = Q (rp o r 0)).
  { unfold Q, onto, rp. rewrite cos_0, sin_0. destruct rev; cbn [px py pz]; f_equal; ring. }
  assert (RT2 : mkPt (px (Q o) + r * k) (py (Q o)) (pz (Q o)) = Q (rp o r (2 * PI))).
  { unfold Q, onto, rp. rewrite cos_2PI, sin_2PI. destruct rev; cbn [px py pz]; f_equal; ring. }
  assert (LF : mkPt (px (Q o) - r * k) (py (Q o)) (pz (Q o)) = Q (rp o r PI)).
  { unfold Q, onto, rp. rewrite cos_PI, sin_PI. destruct rev; cbn [px py pz]; f_equal; ring. }
  destruct (Rlt_dec sa 0) as [K|K]; [rewrite (ltb_t sa 0 K)|rewrite (ltb_f sa 0) by lra].
  - destruct (Rle_dec ea 0) as [K2|K2]; [rewrite (leb_t _ _ K2)|rewrite (leb_f ea 0) by lra]; [cst ea; constructor|].
    destruct (Rle_dec ea PI) as [K3|K3]; [rewrite (leb_t _ _ K3)|rewrite (leb_f ea PI) by lra].
    + cst 0. cst ea. constructor.
    + cst 0. cst PI. cst ea. constructor.
  - destruct (Rle_dec ea PI) as [K2|K2]; [rewrite (leb_t _ _ K2)|rewrite (leb_f ea PI) by lra]; cbn [orb]; [cst ea; constructor|].
    destruct (Rle_dec PI sa) as [K3|K3]; [rewrite (leb_t _ _ K3)|rewrite (leb_f PI sa) by lra]; cbn [andb].
    + rewrite (ltb_f sa PI) by lra. destruct (Rle_dec ea (2 * PI)) as [K4|K4]; [rewrite (leb_t _ _ K4)|rewrite (leb_f ea (2 * PI)) by lra].
      * cst ea. constructor.
      * cst (2 * PI). cst ea. constructor.
    + rewrite (ltb_t sa PI) by lra. destruct (Rle_dec ea (2 * PI)) as [K4|K4]; [rewrite (leb_t _ _ K4)|rewrite (leb_f ea (2 * PI)) by lra].
      * cst PI. cst ea. constructor.
      * cst PI. cst (2 * PI). cst ea. constructor.
Qed.

Lemma plane_curves_follow s : sharp s -> exists l, curve_on_plane (px bl) (px tr) (py bl) z s rev = Some l /\
  follows (lifted S) (course_at z s) 0 l 1.
Proof.
  intro H. pose proof PI_RGT_0 as PP. unfold curve_on_plane. fold k. unfold sharp in H. destruct (s_ty s) eqn:T.
  - contradiction.
  - eexists. split; [reflexivity|]. unfold cop_line. apply (follows_cons _ _ _ 1); [lra| |constructor].
    intros t p Ht. fold (Q (s_start s)) (Q (s_end s)). rewrite nline_lifted. unfold course_at, course. rewrite T.
    replace (0 + t * (1 - 0)) with t by ring. tauto.
  - eexists. split; [reflexivity|]. destruct H as (_ & _ & _ & P & R & L & A & B & _).
    unfold course in A, B. rewrite T in A, B.
    replace (s_sang s + 0 * (s_eang s - s_sang s)) with (s_sang s) in A by ring.
    replace (s_sang s + 1 * (s_eang s - s_sang s)) with (s_eang s) in B by ring.
    unfold cop_arc. cbv zeta. rewrite (ltb_f PI (start_angle s)) by lra.
    fold (Q (get_start s)) (Q (get_end s)) (Q (s_cen s)).
    unfold get_start, get_end, start_angle, end_angle in *. destruct (s_cw s).
    + pose proof (cop_pieces_steps (s_cen s) (s_rad s) (s_eang s) (s_sang s) (Q (s_end s)) R L (onto_round _ _ _ _ _ _ _ _ _ B)) as ST.
      apply (csteps_back _ _ _ _ _ (if xorb true rev then -1 else 1) (Q (s_start s)) eq_refl (onto_round _ _ _ _ _ _ _ _ _ A)) in ST.
      apply follows_affine in ST; [|lra]. revert ST. apply follows_ext. intros t p. unfold course_at, course. rewrite T.
      replace (- (- s_sang s + t * (- s_eang s - - s_sang s))) with (s_sang s + t * (s_eang s - s_sang s)) by ring. tauto.
    + pose proof (cop_pieces_steps (s_cen s) (s_rad s) (s_sang s) (s_eang s) (Q (s_start s)) R L (onto_round _ _ _ _ _ _ _ _ _ A)) as ST.
      apply (csteps_follow _ _ _ _ _ (if xorb false rev then -1 else 1)) in ST; [|now rewrite xorb_false_l].
      apply follows_affine in ST; [|lra]. revert ST. apply follows_ext. intros t p. unfold course_at, course. rewrite T. tauto.
  - eexists. split; [reflexivity|]. destruct H as (_ & P & SA & EA & _). unfold cop_circle. cbv zeta. fold (Q (s_cen s)).
    assert (RT : mkPt (px (Q (s_cen s)) + s_rad s * k) (py (Q (s_cen s))) (pz (Q (s_cen s))) = Q (rp (s_cen s) (s_rad s) 0)).
    { unfold Q, onto, rp. rewrite cos_0, sin_0. destruct rev; cbn [px py pz]; f_equal; ring. }
    assert (LF : mkPt (px (Q (s_cen s)) - s_rad s * k) (py (Q (s_cen s))) (pz (Q (s_cen s))) = Q (rp (s_cen s) (s_rad s) PI)).
    { unfold Q, onto, rp. rewrite cos_PI, sin_PI. destruct rev; cbn [px py pz]; f_equal; ring. }
    rewrite RT, LF.
    assert (ST : csteps (s_cen s) (s_rad s) 0 [(Q (rp (s_cen s) (s_rad s) 0), PI); (Q (rp (s_cen s) (s_rad s) PI), PI)] (2 * PI)).
    { apply (csteps_cons _ _ _ PI); [lra|lra|reflexivity|]. apply (csteps_cons _ _ _ (2 * PI)); [lra|lra|reflexivity|]. constructor. }
    apply (csteps_follow _ _ _ _ _ (if rev then -1 else 1) eq_refl) in ST. cbn [map fst snd] in ST.
    apply follows_affine in ST; [|lra]. revert ST. apply follows_ext. intros t p. unfold course_at, course. rewrite T, SA, EA. tauto.
Qed.
End Plane.
