(** The outline which stands in for one which is missing (/repo/src/idf/idf_outlines.cpp). *)

From Coq Require Import Reals List Bool ZArith Lra.
From Verif Require Import SegModel OutModel PcbModel IdfGeo IdfBody SegSpec SegTrig SegFacts IdfGeoSpec IdfConv IdfBodyFacts.
Import ListNotations.
Open Scope R_scope.

(** The points of [CreateDefaultOutline] (L3561-3577): the [i]th is on the smaller circle
    if [i] is even; the angle starts at a tenth of pi. *)
Definition star_pt (i : nat) : ipt :=
  let a := PI / 5 / 2 + INR i * (PI / 5) in
  let r := if Nat.odd i then 5 / 2 else 3 / 2 in
  mkI (r * cos a) (r * sin a).

(** The segments in the order in which they are pushed (L3566-3609): [p1] starts as the
    point which the first round of the loop makes again. *)
Definition star_rest : list iseg :=
  map (fun i => line_seg (star_pt i) (star_pt (S i))) (seq 0 9) ++ [line_seg (star_pt 9) (star_pt 0)].
Definition star_segs : list iseg := line_seg (star_pt 0) (star_pt 0) :: star_rest.

(** [push] is given each; its answer is not looked at (L3589, L3609). *)
Definition push_all (l : list iseg) : iout := fold_left (fun o s => snd (push o s)) l iout_init.
Definition star : iout := push_all star_segs.

Lemma push_head s l o : l_segs o = s :: l -> forall t, exists l', l_segs (snd (push o t)) = s :: l'.
Proof.
  intros E t. unfold push. rewrite E.
  destruct (seg_circle t); [exists l; exact E|]. destruct (seg_circle (last l s)); [exists l; exact E|].
  destruct (negb _); [exists l; exact E|]. exists (l ++ [t]). reflexivity.
Qed.

Lemma pushes_head ts : forall s l o, l_segs o = s :: l -> exists l', l_segs (fold_left (fun o s => snd (push o s)) ts o) = s :: l'.
Proof.
  induction ts as [|t ts IH]; intros s l o E; cbn [fold_left]; [eauto|].
  destruct (push_head s l o E t) as (l' & E'). exact (IH s l' _ E').
Qed.

Lemma all_head s ts : exists l, l_segs (push_all (s :: ts)) = s :: l.
Proof. exact (pushes_head ts s [] (mkIo [s] (0 + dir_of s)) eq_refl). Qed.

Lemma star_head : exists l, l_segs star = line_seg (star_pt 0) (star_pt 0) :: l.
Proof. exact (all_head (line_seg (star_pt 0) (star_pt 0)) star_rest). Qed.

Lemma spot_seg p : convert_seg (line_seg p p) = seg_init.
Proof.
  unfold convert_seg, seg_circle. cbn [line_seg g_ang g_rad g_start g_end].
  rewrite full_turn_line by (unfold line_deg; lra). rewrite ltb_f by lra.
  destruct (set_line_spec (to3 p) (to3 p)) as (H & ->).
  destruct (fst (set_line (to3 p) (to3 p))); [|reflexivity].
  destruct (proj1 H eq_refl) as (_ & _ & N). exfalso. apply N. apply close_one_point.
  replace (gap2 (to3 p) (to3 p)) with 0 by (unfold gap2; ring). apply pow2_ge_0.
Qed.

(** An outline which starts with a line from a point to itself has no body. *)
Lemma starts_nowhere res p l th : build_component res (line_seg p p :: l) th = Some NoPart.
Proof.
  apply component_none. right. right. exists out_init. unfold convert_oln. cbn [convert_segs]. rewrite spot_seg. reflexivity.
Qed.

Lemma star_nothing res : build_component res (l_segs star) 5 = Some NoPart.
Proof. destruct star_head as (l & ->). apply starts_nowhere. Qed.

(** ** The shape *)

Lemma push_line o a b c l : l_segs o = l ++ [line_seg a b] -> l_segs (snd (push o (line_seg b c))) = l ++ [line_seg a b; line_seg b c].
Proof.
  intros E. unfold push. rewrite E.
  assert (F : forall d e, seg_circle (line_seg d e) = false) by (intros; unfold seg_circle; cbn [line_seg g_ang]; apply full_turn_line; unfold line_deg; lra).
  assert (M : idf_matches b b e3 = true).
  { unfold idf_matches. replace (_ + _) with 0 by ring. apply leb_t. unfold e3. lra. }
  destruct (l ++ [line_seg a b]) as [|f r] eqn:L; [destruct l; discriminate|].
  assert (K : last r f = line_seg a b).
  { destruct r as [|x r]; [destruct l as [|? [|]]; cbn [app] in L; cbn [last]; congruence|]. change (last (x :: r) f = line_seg a b).
    transitivity (last (f :: x :: r) f); [reflexivity|]. rewrite <- L. apply last_last. }
  rewrite K, !F. cbn [line_seg g_start g_end]. rewrite M. cbn [negb snd l_segs]. rewrite <- L, <- app_assoc. reflexivity.
Qed.

Lemma star_all : l_segs star = star_segs.
Proof.
  assert (G : forall ps o a b l, l_segs o = l ++ [line_seg a b] ->
    l_segs (fold_left (fun o s => snd (push o s)) (map (fun xy => line_seg (fst xy) (snd xy)) (combine (b :: ps) ps)) o)
    = l ++ line_seg a b :: map (fun xy => line_seg (fst xy) (snd xy)) (combine (b :: ps) ps)).
  { induction ps as [|c ps IH]; intros o a b l E; [cbn; exact E|]. cbn [combine map fold_left fst snd].
    rewrite (IH _ b c (l ++ [line_seg a b])).
    - rewrite <- app_assoc. reflexivity.
    - rewrite (push_line _ _ _ _ _ E), <- app_assoc. reflexivity. }
  assert (Q : star_segs = line_seg (star_pt 0) (star_pt 0) :: map (fun xy => line_seg (fst xy) (snd xy)) (combine (star_pt 0 :: map star_pt [1; 2; 3; 4; 5; 6; 7; 8; 9; 0]) (map star_pt [1; 2; 3; 4; 5; 6; 7; 8; 9; 0]))%nat).
  { unfold star_segs, star_rest. generalize star_pt. intros P. reflexivity. }
  unfold star, push_all. rewrite Q. generalize (map star_pt [1; 2; 3; 4; 5; 6; 7; 8; 9; 0]%nat). generalize (star_pt 0). intros p ps. cbn [fold_left].
  rewrite (G ps _ p p []); reflexivity.
Qed.

Lemma star_angle i : PI / 5 / 2 + INR (S i) * (PI / 5) = PI / 5 / 2 + INR i * (PI / 5) + PI / 5.
Proof. rewrite S_INR. lra. Qed.

Lemma star_shape : exists p : nat -> ipt,
  l_segs star = line_seg (p 0%nat) (p 0%nat) :: map (fun i => line_seg (p i) (p (S i))) (seq 0 9) ++ [line_seg (p 9%nat) (p 0%nat)] /\
  (forall i, ix (p i) ^ 2 + iy (p i) ^ 2 = (if Nat.odd i then 5 / 2 else 3 / 2) ^ 2) /\
  (forall i, ix (p i) * ix (p (S i)) + iy (p i) * iy (p (S i)) = 15 / 4 * cos (PI / 5)) /\
  (forall i, ix (p i) * iy (p (S i)) - iy (p i) * ix (p (S i)) = 15 / 4 * sin (PI / 5)) /\
  ix (p 0%nat) * sin (PI / 10) = iy (p 0%nat) * cos (PI / 10) /\ 0 < ix (p 0%nat).
Proof.
  exists star_pt. split; [exact star_all|]. split; [|split; [|split; [|split]]].
  - intros i. unfold star_pt. cbn [ix iy]. set (a := PI / 5 / 2 + INR i * (PI / 5)). set (r := if Nat.odd i then _ else _).
    replace ((r * cos a) ^ 2 + (r * sin a) ^ 2) with (r ^ 2 * (Rsqr (sin a) + Rsqr (cos a))) by (unfold Rsqr; ring). rewrite sin2_cos2. ring.
  - intros i. unfold star_pt. cbn [ix iy]. rewrite star_angle, Nat.odd_succ, <- Nat.negb_odd. set (a := PI / 5 / 2 + INR i * (PI / 5)).
    replace (cos (PI / 5)) with (cos (a + PI / 5 - a)) by (f_equal; ring). rewrite cos_minus. destruct (Nat.odd i); cbn [negb]; field.
  - intros i. unfold star_pt. cbn [ix iy]. rewrite star_angle, Nat.odd_succ, <- Nat.negb_odd. set (a := PI / 5 / 2 + INR i * (PI / 5)).
    replace (sin (PI / 5)) with (sin (a + PI / 5 - a)) by (f_equal; ring). rewrite sin_minus. destruct (Nat.odd i); cbn [negb]; field.
  - unfold star_pt. cbn [ix iy Nat.odd Nat.even negb INR]. replace (PI / 5 / 2 + 0 * (PI / 5)) with (PI / 10) by field. cbn. ring.
  - unfold star_pt. cbn [ix iy INR]. replace (PI / 5 / 2 + 0 * (PI / 5)) with (PI / 10) by field. cbn. pose proof PI_RGT_0.
    assert (0 < cos (PI / 10)) by (apply cos_gt_0; lra). lra.
Qed.
