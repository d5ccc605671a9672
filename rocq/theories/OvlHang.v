(** Two outlines for which [AddOutline] does not return: a board with a round bite, and a
    square which is merged with it. *)

From Coq Require Import Reals List Bool Arith Lra Lia.
From Verif Require Import SegModel SegSpec SegTrig SegFacts SegBox SegSplit SegProps CutModel CutSpec CutFacts CutCases OutModel OutSpec OutFacts OutBox OutArea OutDraw OutPoly OutCut OvlModel OvlSpec OvlCase.
Import ListNotations.
Open Scope R_scope.

(** ** The board *)

Definition bite : seg := arc_of (at2 0 0) (at2 5 0) (at2 (-5) 0) true.
Definition bitten : list seg := [ln (-5) 0 (-5) (-8); ln (-5) (-8) 0 (-8); ln 0 (-8) 5 (-8); ln 5 (-8) 5 0; bite].

Lemma bite_made : set_arc (at2 0 0) (at2 5 0) (at2 (-5) 0) true = (true, bite) /\ s_rad bite = 5 /\ arc_in_order e8 bite /\ s_sang bite = 2 * PI /\ s_eang bite = PI.
Proof.
  destruct (arc_is_made 0 0 5 0 (-5) 0 true 5) as (M & N & O & R); try lra; try (left; abs_lra).
  fold bite in M, R, O. destruct (arc_made _ _ _ _ _ M N) as (_ & _ & _ & _ & _ & _ & O' & _).
  split; [exact M|]. split; [exact R|]. split; [exact O'|].
  unfold bite, arc_of. cbn [s_sang s_eang s_cw px py at2]. rewrite !Rminus_0_r, atan2_rt, atan2_lt by lra. cbn [andb negb]. rewrite ltb_t by (pose proof PI_RGT_0; lra). split; lra.
Qed.

Lemma bite_near v : covers bite v -> -5 <= px v <= 5 /\ -5 <= py v <= 5.
Proof.
  destruct bite_made as (_ & R & _). unfold covers. change (s_ty bite) with SArc. cbv iota. rewrite R. change (s_cen bite) with (at2 0 0).
  intros (w & _ & (X & Y)). cbn [px py at2] in X, Y. pose proof (COS_bound w). pose proof (SIN_bound w). lra.
Qed.

Lemma bitten_drawn : exists o, draw bitten = Some (yes, o) /\ o_closed o = true /\ o_segs o = bitten /\ -7 <= px (o_bl o) <= -5 + e8 /\ 5 - e8 <= px (o_tr o) <= 20.
Proof.
  destruct bite_made as (_ & R & O & A & B). set (front := [ln (-5) 0 (-5) (-8); ln (-5) (-8) 0 (-8); ln 0 (-8) 5 (-8); ln 5 (-8) 5 0]).
  assert (Md : forall s, In s bitten -> made s).
  { intros s I. unfold bitten in I. each_line I; try (left; apply line_made; num). right. left. split; [exact O|reflexivity]. }
  assert (In_box : forall s p, In s bitten -> covers s p -> -5 <= px p <= 5 /\ -8 <= py p <= 5).
  { intros s p I C. unfold bitten in I. each_line I; try (destruct C as (t & Ht & X & Y); cbn in X, Y; split; lra). apply bite_near in C. lra. }
  destruct (draw_ring front bite) as (bl & tr & D).
  - discriminate.
  - repeat (apply Forall_cons; [first [now left|now right]|]). apply Forall_nil.
  - split; [|apply one_point_refl]. unfold front. cbn [app chain]. repeat split; apply one_point_refl.
  - intros f m s n E. unfold front in E. injection E as <- E2. assert (X : In s [ln (-5) (-8) 0 (-8); ln 0 (-8) 5 (-8); ln 5 (-8) 5 0]) by (rewrite E2; apply in_or_app; right; now left).
    each_line X; apply far_apart; num.
  - exact Md.
  - intros t p I C. destruct (In_box t p I C). unfold near_home. lra.
  - change (front ++ [bite]) with bitten in D.
    assert (W : total wind_of bitten < 0).
    { unfold total, bitten. cbn [map fold_right]. unfold wind_of, get_midpoint. change (s_ty bite) with SArc. cbv iota. rewrite A, B, R. change (s_cen bite) with (at2 0 0). change (s_start bite) with (at2 5 0). change (s_end bite) with (at2 (-5) 0).
      unfold ln, line_of. cbn [s_ty s_start s_end snd px py at2]. replace ((2 * PI + PI) * (1 / 2)) with (3 * (PI / 2)) by field. rewrite cos_3PI2, sin_3PI2. lra. }
    unfold oriented in D. rewrite ltb_f in D by lra. eexists. split; [exact D|].
    assert (Bu : built made (mkOut bitten true (total wind_of bitten) true bl tr)) by (apply (draw_built made bitten yes); [exact Md|exact D]).
    split; [reflexivity|]. split; [reflexivity|]. cbn [o_bl o_tr].
    assert (C1 : covers (ln (-5) (-8) 0 (-8)) (at2 (-5) (-8))) by (exists 0; cbn; lra). assert (C2 : covers (ln 0 (-8) 5 (-8)) (at2 5 (-8))) by (exists 1; cbn; lra).
    assert (J1 : In (ln (-5) (-8) 0 (-8)) bitten) by (right; now left). assert (J2 : In (ln 0 (-8) 5 (-8)) bitten) by (right; right; now left).
    destruct (built_in_box _ _ _ Bu J1 C1) as (Q1 & _). destruct (built_in_box _ _ _ Bu J2 C2) as (Q2 & _). cbn [o_bl o_tr px at2] in Q1, Q2.
    destruct (built_tight _ Bu eq_refl) as ((s & q & I & Cq & T) & _ & (w & (s1 & s2 & q1 & q2 & K1 & K2 & L1 & L2 & Wq) & Tw)). cbn [o_segs o_bl o_tr] in *.
    pose proof (In_box s q I Cq). pose proof (In_box s1 q1 K1 L1). pose proof (In_box s2 q2 K2 L2). pose proof e8_small. pose proof e8_pos. destruct Wq; lra.
Qed.

(** ** Where the arc meets lines *)

Definition round5 (a : seg) : Prop := s_ty a = SArc /\ s_cen a = at2 0 0 /\ s_rad a = 5.

Lemma round_lie_far a x0 x1 y : round5 a -> long x0 x1 -> y <= -6 -> intersections a (ln x0 y x1 y) = nothing INone.
Proof.
  intros (T & C & R) L Y. unfold intersections. rewrite T. cbn [ln line_of s_ty]. unfold check_arc_line. rewrite T. cbn [segty_eqb orb negb]. cbv zeta. rewrite T, C, R. unfold ln, line_of, get_start, get_end. cbn [segty_eqb s_ty s_cw s_start s_end px py at2].
  rewrite Bool.andb_false_r. rewrite ltb_t; [reflexivity|]. unfold long in L. assert (K : 1 <= (x0 - x1) * (x0 - x1)) by (destruct L; nra). assert (Q : 36 <= y * y) by nra.
  match goal with |- ?d < 0 => replace d with (- (4 * ((x0 - x1) * (x0 - x1) * (y * y - 25)))) by ring end. assert (0 < (x0 - x1) * (x0 - x1) * (y * y - 25)) by (apply Rmult_lt_0_compat; lra). lra.
Qed.
Lemma round_stand_far a x y0 y1 : round5 a -> long y0 y1 -> x <= -6 -> intersections a (ln x y0 x y1) = nothing INone.
Proof.
  intros (T & C & R) L Y. unfold intersections. rewrite T. cbn [ln line_of s_ty]. unfold check_arc_line. rewrite T. cbn [segty_eqb orb negb]. cbv zeta. rewrite T, C, R. unfold ln, line_of, get_start, get_end. cbn [segty_eqb s_ty s_cw s_start s_end px py at2].
  rewrite Bool.andb_false_r. rewrite ltb_t; [reflexivity|]. unfold long in L. assert (K : 1 <= (y0 - y1) * (y0 - y1)) by (destruct L; nra). assert (Q : 36 <= x * x) by nra.
  match goal with |- ?d < 0 => replace d with (- (4 * ((y0 - y1) * (y0 - y1) * (x * x - 25)))) by ring end. assert (0 < (y0 - y1) * (y0 - y1) * (x * x - 25)) by (apply Rmult_lt_0_compat; lra). lra.
Qed.

Lemma atan2_above x y : 0 < y -> 0 < atan2 y x < PI.
Proof.
  intros Y. destruct (atan2_point x y ltac:(right; lra)) as (_ & S). pose proof (atan2_range y x) as (L & H). pose proof PI_RGT_0 as P.
  assert (D : 0 < sqrt (x * x + y * y)) by (apply sqrt_lt_R0; nra). assert (Q : 0 < sin (atan2 y x)) by nra. split.
  - destruct (Rle_or_lt (atan2 y x) 0) as [K|K]; [|exact K]. assert (sin (atan2 y x) <= 0); [|lra]. destruct (Req_dec (atan2 y x) 0) as [->|N]; [rewrite sin_0; lra|]. left. apply sin_lt_0_var; lra.
  - destruct (Req_dec (atan2 y x) PI) as [E|N]; [rewrite E, sin_PI in Q; lra|lra].
Qed.

(* above its centre it has nothing *)
Lemma bite_above x0 x1 y : 1 <= y -> intersections bite (ln x0 y x1 y) = nothing INone.
Proof.
  intros Y. destruct bite_made as (_ & _ & _ & A & B). unfold intersections. change (s_ty bite) with SArc. cbn [ln line_of s_ty]. unfold check_arc_line. change (s_ty bite) with SArc. cbn [segty_eqb orb negb]. cbv zeta. change (s_ty bite) with SArc. cbn [segty_eqb].
  rewrite Bool.andb_false_r. match goal with |- (if ?b then _ else _) = _ => destruct b; [reflexivity|] end.
  match goal with |- match filter ?h ?l with _ => _ end = _ => replace (filter h l) with (@nil R) end; [reflexivity|].
  match goal with |- _ = filter ?h ?l => generalize l end. intros ts. induction ts as [|t ts IH]; [reflexivity|]. cbn [filter]. rewrite <- IH.
  unfold ln, line_of, get_start, get_end, at_t, near14, start_angle, end_angle. cbn [s_cw s_start s_end px py at2].
  change (s_cw bite) with true. cbv iota. change (s_start bite) with (at2 5 0). change (s_end bite) with (at2 (-5) 0). change (s_cen bite) with (at2 0 0). cbn [px py at2]. rewrite A, B.
  replace (t * y + (1 - t) * y) with y by ring. rewrite !Rminus_0_r. set (x := t * x0 + (1 - t) * x1).
  pose proof (atan2_range y x) as (L & H). assert (P : 0 < atan2 y x < PI) by (apply atan2_above; lra).
  rewrite (leb_f PI (atan2 y x)), (leb_f (atan2 y x + 2 * PI) (2 * PI)) by lra. cbn [andb orb]. rewrite Bool.andb_false_r. cbn [orb].
  rewrite (ltb_f (Rabs y) e14) by (rewrite Rabs_right by lra; unfold e14; lra). rewrite !Bool.andb_false_r. reflexivity.
Qed.

Lemma bite_angle : atan2 (-4) (-3) = atan (4 / 3) - PI /\ 0 < atan (4 / 3) < PI / 2.
Proof.
  split; [|split; [apply atan_sign; lra|apply atan_bound]].
  unfold atan2. destruct (Rlt_dec 0 (-3)); [lra|]. destruct (Rlt_dec (-3) 0); [|lra]. destruct (Rle_dec 0 (-4)); [lra|]. f_equal. f_equal. lra.
Qed.
Lemma bite_hit : intersections bite (ln (-3) (-9) (-3) 1) = found [at2 (-3) (-4)] INone.
Proof.
  destruct bite_made as (_ & R & _ & A & B). unfold intersections. change (s_ty bite) with SArc. cbn [ln line_of s_ty]. unfold check_arc_line. change (s_ty bite) with SArc. cbn [segty_eqb orb negb]. cbv zeta. change (s_ty bite) with SArc. cbn [segty_eqb].
  rewrite Bool.andb_false_r. unfold ln, line_of, get_start, get_end, at_t, near14, start_angle, end_angle. cbn [s_cw s_start s_end px py at2].
  change (s_cw bite) with true. cbv iota. change (s_start bite) with (at2 5 0). change (s_end bite) with (at2 (-5) 0). change (s_cen bite) with (at2 0 0). cbn [px py at2]. rewrite A, B, R.
  match goal with |- context [ltb ?d 0] => replace d with 6400 by lra end. rewrite (ltb_f 6400 0) by lra. rewrite (ltb_f (Rabs 6400) e6) by (rewrite Rabs_right by lra; unfold e6; lra).
  replace (sqrt 6400) with 80 by (symmetry; replace 6400 with (80 * 80) by lra; apply sqrt_square; lra). cbn [negb].
  match goal with |- context [if leb 0 ?t && leb ?t 1 then [?t] else []] => replace t with (1 / 2) by lra end.
  match goal with |- context [if true && (leb 0 ?t && leb ?t 1) then [?t] else []] => replace t with (- (3 / 10)) by lra end.
  rewrite (leb_t 0 (1 / 2)), (leb_t (1 / 2) 1), (leb_f 0 (- (3 / 10))) by lra. cbn [andb app filter].
  replace (1 / 2 * -9 + (1 - 1 / 2) * 1) with (-4) by lra. replace (1 / 2 * -3 + (1 - 1 / 2) * -3) with (-3) by lra. rewrite !Rminus_0_r.
  pose proof bite_angle as (E & P). rewrite E. rewrite (leb_f PI (atan (4 / 3) - PI)), (leb_t PI (atan (4 / 3) - PI + 2 * PI)), (leb_t (atan (4 / 3) - PI + 2 * PI) (2 * PI)) by lra. cbn [andb orb filter].
  fold (at2 (-3) (-4)). rewrite (pm_diff (-3) (-4) 5 0), (pm_diff (-3) (-4) (-5) 0) by num. cbn [orb andb].
  rewrite (ltb_f (Rabs (1 / 2)) e8), (ltb_f (Rabs (1 / 2 - 1)) e8); [cbn [orb]; unfold found; do 2 f_equal; f_equal; apply pt_eq; lra|rewrite Rabs_left by lra; unfold e8; lra|rewrite Rabs_right by lra; unfold e8; lra].
Qed.

(** ** Cutting *)

Definition side : list seg := [ln (-13) (-9) (-3) (-9); ln (-3) (-9) (-3) 1; ln (-3) 1 (-13) 1; ln (-13) 1 (-13) (-9)].
Lemma square_side : square (-13) (-9) = side.
Proof. unfold square, side. replace (-13 + 10) with (-3) by ring. replace (-9 + 10) with 1 by ring. reflexivity. Qed.

Lemma bite_round : round5 bite.
Proof. destruct bite_made as (_ & R & _). now split. Qed.

Lemma side_meets sub : meet_all 0 bitten side sub = inr [(at2 (-3) (-8), (1%nat, 1%nat)); (at2 (-3) (-4), (4%nat, 1%nat))].
Proof.
  unfold bitten, side. cbn [meet_all meet_one]. repeat (meet; cbn [found nothing app map]).
  rewrite (round_lie_far bite (-13) (-3) (-9) bite_round) by num. cbn [nothing].
  rewrite bite_hit. cbn [found app map].
  rewrite bite_above by lra. cbn [nothing]. rewrite (round_stand_far bite (-13) 1 (-9) bite_round) by num. reflexivity.
Qed.

Definition bite1 : seg := with_arc_end bite (at2 (-3) (-4)) (atan (4 / 3) - PI + 2 * PI).
Definition bite2 : seg := new_arc bite (at2 (-3) (-4)) (at2 (-5) 0) (atan (4 / 3) - PI + 2 * PI) PI.
Definition bitten_cut : list seg := [ln (-5) 0 (-5) (-8); ln (-5) (-8) (-3) (-8); ln (-3) (-8) 0 (-8); ln 0 (-8) 5 (-8); ln 5 (-8) 5 0; bite1; bite2].
Definition side_cut : list seg := [ln (-13) (-9) (-3) (-9); ln (-3) (-9) (-3) (-8); ln (-3) (-8) (-3) (-4); ln (-3) (-4) (-3) 1; ln (-3) 1 (-13) 1; ln (-13) 1 (-13) (-9)].

Lemma bite_split : split bite [at2 (-3) (-4)] = (true, ([at2 (-3) (-4)], (bite1, [bite2]))).
Proof.
  destruct bite_made as (_ & R & _ & A & B). unfold split. change (s_ty bite) with SArc. cbn [length filter]. change (s_start bite) with (at2 5 0). change (s_end bite) with (at2 (-5) 0).
  rewrite (pm_diff (-3) (-4) 5 0), (pm_diff (-3) (-4) (-5) 0) by num. cbn [orb negb]. unfold split_arc.
  assert (E : arc_angle bite (at2 (-3) (-4)) = Some (atan (4 / 3) - PI + 2 * PI)).
  { unfold arc_angle, start_angle, end_angle. change (s_cw bite) with true. change (s_cen bite) with (at2 0 0). cbn [px py at2]. rewrite R, A, B. pose proof bite_angle as (E & P). pose proof PI_RGT_0.
    rewrite ltb_f by (replace ((-3 - 0) * (-3 - 0) + (-4 - 0) * (-4 - 0) - 5 * 5) with 0 by ring; rewrite Rabs_R0; unfold e8; lra). rewrite !Rminus_0_r, E. rewrite (ltb_t (atan (4 / 3) - PI)) by lra. rewrite ltb_f by lra. reflexivity. }
  rewrite E, B. reflexivity.
Qed.

Lemma bitten_is_cut : split_both bitten (at2 (-3) (-8)) 1 (at2 (-3) (-4)) 4 = (true, (bitten_cut, 1%nat)).
Proof.
  unfold split_both, bitten. cbn [Nat.eqb nth]. rewrite Bool.andb_false_r. unfold split_once. touch. halve. cbn [Nat.ltb Nat.leb].
  unfold touches. cbn [nth]. change (s_start bite) with (at2 5 0). change (s_end bite) with (at2 (-5) 0). repeat match_pts. cbn [orb negb andb]. unfold split_at. cbn [nth]. rewrite bite_split. reflexivity.
Qed.
Lemma side_split : split (ln (-3) (-9) (-3) 1) [at2 (-3) (-8); at2 (-3) (-4)] = (true, ([at2 (-3) (-8); at2 (-3) (-4)], (ln (-3) (-9) (-3) (-8), [ln (-3) (-8) (-3) (-4); ln (-3) (-4) (-3) 1]))).
Proof.
  unfold split, ln, line_of. cbn [s_ty length filter s_start s_end]. repeat match_pts. cbn [orb negb].
  unfold split_line, line_param, with_end, set_line. cbn [s_start s_end px py pz at2 s_ty s_rad s_sang s_eang s_cw s_cen].
  replace (-3 - -3) with 0 by ring. replace (1 - -9) with 10 by ring. rewrite (ltb_t (Rabs 0) (Rabs 10)) by (rewrite Rabs_R0, Rabs_right; lra).
  replace ((- -9 + -8) * (1 / 10)) with (1 / 10) by field. replace ((- -9 + -4) * (1 / 10)) with (1 / 2) by field.
  rewrite (ltb_f (1 / 10) 0), (ltb_f 1 (1 / 10)), (ltb_f (1 / 2) 0), (ltb_f 1 (1 / 2)) by lra. cbn [orb].
  rewrite (ltb_f e8 (Rabs (1 / 10 * 0 + -3 - -3))), (ltb_f e8 (Rabs (1 / 2 * 0 + -3 - -3))); [|replace (1 / 2 * 0 + -3 - -3) with 0 by ring; rewrite Rabs_R0; unfold e8; lra|replace (1 / 10 * 0 + -3 - -3) with 0 by ring; rewrite Rabs_R0; unfold e8; lra].
  rewrite (ltb_t (1 / 10) (1 / 2)) by lra. fold (at2 (-3) (-8)). fold (at2 (-3) (-4)). fold (at2 (-3) 1). cbn [pz at2]. repeat match_pts.
  unfold eqb. destruct (Req_EM_T 0 0) as [_|N]; [|now elim N]. reflexivity.
Qed.
Lemma side_is_cut : split_both side (at2 (-3) (-8)) 1 (at2 (-3) (-4)) 1 = (true, (side_cut, 1%nat)).
Proof.
  unfold split_both, side. cbn [Nat.eqb nth]. unfold touches. cbn [ln line_of s_start s_end s_ty segty_eqb negb andb]. repeat match_pts. cbn [orb negb andb]. fold (ln (-3) (-9) (-3) 1). rewrite side_split. reflexivity.
Qed.

(** ** Inside and outside *)

Lemma side_out o : o_closed o = true -> o_segs o = side_cut -> -13 - 2 <= px (o_bl o) <= -13 + e8 -> -13 + 10 - e8 <= px (o_tr o) <= -13 + 20 -> is_inside o (at2 (-(3/2)) (-8)) false = (false, false).
Proof.
  intros C E B T. change false with (Nat.odd 0) at 2. apply lines_in; rewrite ?E; unfold side_cut; in_lines.
  skip_lie. skip_left 1. skip_left 0. skip_lie. skip_lie. skip_left (9/10). constructor.
Qed.
Lemma bite1_round : round5 bite1.
Proof. exact bite_round. Qed.
Lemma bite2_round : round5 bite2.
Proof. destruct bite_round as (T & C & R). split; [reflexivity|]. split; assumption. Qed.

Lemma count_stand x0 x1 c y0 y1 y prev next : small x0 -> small x1 -> small y0 -> small y1 -> amid x0 x1 c -> amid y0 y1 y -> count_on (ln x0 y x1 y) y prev (ln c y0 c y1) next = 1%nat.
Proof.
  intros. unfold count_on. rewrite stand_lie by assumption. cbn [found fst snd filter]. assert (S : small c) by (unfold small, amid in *; lra). assert (S' : small y) by (unfold small, amid in *; lra).
  unfold counts. cbn [ln line_of s_ty segty_eqb s_start s_end]. rewrite !pm_diff by (unfold amid in *; first [assumption|lra]). reflexivity.
Qed.
Lemma bitten_holds o : o_closed o = true -> o_segs o = bitten_cut -> -7 <= px (o_bl o) <= -5 + e8 -> 5 - e8 <= px (o_tr o) <= 20 -> is_inside o (at2 (-3) (-6)) false = (true, false).
Proof.
  intros C E B T. pose proof e8_pos. pose proof e8_small. unfold is_inside. rewrite C. cbn [negb]. f_equal. change true with (Nat.odd 1). f_equal.
  assert (Ry : ray o (at2 (-3) (-6)) = ln (-3) (-6) (px (o_bl o) - 5) (-6)).
  { unfold ray. cbn [px py at2]. rewrite leb_t by lra. unfold set_line. cbn [pz at2]. fold (at2 (px (o_bl o) - 5) (-6)). rewrite pm_diff by num. unfold eqb. destruct (Req_EM_T 0 0) as [_|N]; [|now elim N]. reflexivity. }
  unfold count_all. rewrite Ry, E. cbv zeta. set (x := px (o_bl o) - 5). assert (X : -12 <= x <= -9) by (unfold x; lra). unfold bitten_cut. cbn [length seq map Nat.eqb Nat.sub Nat.add nth fold_left py at2].
  rewrite (count_stand (-3) x (-5) 0 (-8) (-6)) by num.
  unfold count_on. repeat (meet; cbn [nothing fst snd]). rewrite (round_lie_far bite1 (-3) x (-6) bite1_round), (round_lie_far bite2 (-3) x (-6) bite2_round) by num. reflexivity.
Qed.

(** ** It does not return *)

Lemma side_parts o b : o_closed o = true -> o_closed b = true -> o_segs o = bitten_cut -> o_segs b = side_cut ->
  -7 <= px (o_bl o) <= -5 + e8 -> 5 - e8 <= px (o_tr o) <= 20 -> -13 - 2 <= px (o_bl b) <= -13 + e8 -> -13 + 10 - e8 <= px (o_tr b) <= -13 + 20 ->
  op_parts o b (at2 (-3) (-8)) (at2 (-3) (-4)) 1 1 false = Hangs.
Proof.
  intros Co Cb Eo Eb H1 H2 H3 H4. unfold op_parts. rewrite Eo, Eb.
  assert (F1 : find_start bitten_cut 1 (at2 (-3) (-8)) = Some 2%nat) by (unfold bitten_cut; here). rewrite F1.
  assert (F2 : find_start side_cut 1 (at2 (-3) (-8)) = Some 2%nat) by (unfold side_cut; here). rewrite F2.
  replace (nth 2 bitten_cut seg_init) with (ln (-3) (-8) 0 (-8)) by reflexivity. replace (nth 2 side_cut seg_init) with (ln (-3) (-8) (-3) (-4)) by reflexivity. rewrite !mid_ln.
  replace (mkPt (1 / 2 * (0 - -3) + -3) (1 / 2 * (-8 - -8) + -8) (pz origin)) with (at2 (-(3/2)) (-8)) by (apply pt_eq; cbn; lra).
  replace (mkPt (1 / 2 * (-3 - -3) + -3) (1 / 2 * (-4 - -8) + -8) (pz (at2 (- (3/2)) (-8)))) with (at2 (-3) (-6)) by (apply pt_eq; cbn; lra).
  rewrite (side_out b Cb Eb H3 H4), (bitten_holds o Co Eo H1 H2). cbn [fst Bool.eqb].
  assert (S1 : s_start bite1 = at2 5 0) by reflexivity. assert (S2 : s_start bite2 = at2 (-3) (-4)) by reflexivity.
  assert (T1 : trim bitten_cut 2 (at2 (-3) (-4)) = Some ([ln (-3) (-8) 0 (-8); ln 0 (-8) 5 (-8); ln 5 (-8) 5 0; bite1], ([ln (-5) 0 (-5) (-8); ln (-5) (-8) (-3) (-8); bite2], 2%nat))).
  { unfold bitten_cut, trim. cbn [firstn skipn pass_until]. rewrite S1, S2. cbn [ln line_of s_start s_end]. repeat match_pts. reflexivity. }
  rewrite T1.
  assert (T2 : trim side_cut 2 (at2 (-3) (-4)) = Some ([ln (-3) (-8) (-3) (-4)], ([ln (-13) (-9) (-3) (-9); ln (-3) (-9) (-3) (-8); ln (-3) (-4) (-3) 1; ln (-3) 1 (-13) 1; ln (-13) 1 (-13) (-9)], 2%nat))) by (unfold side_cut; goes). rewrite T2.
  cbn [andb orb negb]. unfold stitch. cbn [Nat.eqb nth Nat.sub length].
  assert (G : get_end bite1 = at2 5 0) by reflexivity. rewrite G.
  match goal with |- match ?t with _ => _ end = _ => assert (T3 : t = None) end.
  { unfold turn_to, get_start. cbn [firstn skipn place_of]. unfold get_start. cbn [ln line_of s_cw s_end s_start]. repeat match_pts. reflexivity. }
  rewrite T3. reflexivity.
Qed.

Lemma side_pairs s t p : In s bitten -> In t side -> meets_on s t p -> p = at2 (-3) (-8) \/ p = at2 (-3) (-4).
Proof.
  intros I J (ps & f & E & K & _). unfold bitten, side in I, J. each_line I; each_line J; try (meet_in E; try discriminate E; injection E as <- _; destruct K as [<-|[]]; now left).
  - rewrite (round_lie_far bite (-13) (-3) (-9) bite_round) in E by num. discriminate E.
  - rewrite bite_hit in E. injection E as <- _. destruct K as [<-|[]]. now right.
  - rewrite bite_above in E by lra. discriminate E.
  - rewrite (round_stand_far bite (-13) 1 (-9) bite_round) in E by num. discriminate E.
Qed.
Lemma side_corners : exact_corners bitten side.
Proof.
  intros p s (u & t & I & J & M) K _ O. exfalso. revert O. unfold bitten, side in K. cbn [app] in K.
  destruct (side_pairs u t p I J M) as [->| ->]; each_line K; try (change (s_start bite) with (at2 5 0)); apply far_apart; num.
Qed.

Theorem bite_hangs : exists o b, draw bitten = Some (yes, o) /\ draw (square (-13) (-9)) = Some (yes, b) /\ whole_exactly o /\ whole_exactly b /\
  exact_corners (o_segs o) (o_segs b) /\ op_outline o (Some b) false = Hangs.
Proof.
  destruct bitten_drawn as (o & D & Co & So & H1 & H2). destruct (square_drawn (-13) (-9)) as (b & D' & _ & Cb & Sb & H3 & H4); [lra|lra|].
  exists o, b. split; [exact D|]. split; [exact D'|]. split; [split; [exact Co|right; rewrite So; split; [|split]]|]; [..|split; [|split]].
  - repeat (apply Forall_cons; [first [now left|now right]|]). apply Forall_nil.
  - repeat (apply Forall_cons; [now split|]). apply Forall_nil.
  - unfold bitten. cbn. repeat split; reflexivity.
  - apply (square_whole (-13) (-9) b Cb Sb).
  - rewrite So, Sb, square_side. exact side_corners.
  - rewrite square_side in Sb. unfold op_outline. cbv zeta. cbn [o_closed o_segs]. rewrite Co, Cb, So, Sb. cbn [negb]. rewrite side_meets. cbn [firsts existsb app fst]. match_pts. cbn [orb].
    rewrite bitten_is_cut, side_is_cut. apply side_parts; try reflexivity; try assumption.
Qed.
