(** Two outlines with an arc which go wrong: one loses most of its area when a circle is
    added, the other takes a point outside for inside. *)

From Coq Require Import Reals List Bool ZArith Lra Lia.
From Verif Require Import SegModel SegSpec SegTrig SegFacts SegBox SegSplit SegSplitArc SegProps CutModel CutSpec CutFacts CutCircle CutArc CutLine CutArcLine CutCases OutModel OutSpec OutFacts OutBox OutArea OutDraw OutInside OutCases OutPoly OutCut OutDisc OutOps.
Import ListNotations.
Open Scope R_scope.

(** ** Points in the plane *)

Lemma arc_line_flat s o v : s_ty s = SArc -> s_ty o = SLine -> In v (fst (snd (intersections s o))) -> in_plane v.
Proof.
  intros T T2. unfold intersections. rewrite T, T2. unfold check_arc_line. cbv zeta. rewrite T. cbn [segty_eqb orb andb negb].
  repeat match goal with
  | |- In v (fst (snd (if ?b then _ else _))) -> _ => destruct b
  | |- In v (fst (snd (match ?l with nil => _ | _ => _ end))) -> _ => destruct l
  | |- In v (fst (snd (nothing _))) -> _ => intros []
  | |- In v (fst (snd (found (if ?b then _ else _) _))) -> _ => destruct b
  | |- In v (fst (snd (found _ _))) -> _ => cbn [found fst snd In]; intros H; repeat (destruct H as [<-|H]; [reflexivity|]); contradiction
  end.
Qed.

Lemma arcs_flat s c v : arc_ok s -> full_circle c -> clear s c -> In v (fst (snd (intersections s c))) -> in_plane v.
Proof.
  intros A F (C1 & C2 & C3 & C4 & C5). rewrite (arcs_reduce s c (or_intror A) (or_introl F)) by (left; destruct A as ((d & T & _) & _); exact T). unfold check_arcs. cbv zeta. rewrite centre_gap_dist.
  destruct A as ((d & T & _) & _). rewrite T, (proj1 F). cbn [segty_eqb orb andb].
  destruct (_ || _ || _); [intros []|]. unfold touching in C2. rewrite ltb_f by lra.
  assert (E : point_matches (s_cen s) (s_cen c) e3 && ltb (Rabs (s_rad s - s_rad c)) e3 = false).
  { destruct (_ && _) eqn:E; [|reflexivity]. elim C3. now apply alike_test. }
  rewrite E. unfold circle_points. cbv zeta.
  match goal with |- context [let (_, _) := if ?b then _ else _ in _] => destruct b end; cbn [px py];
  repeat match goal with
  | |- In v (fst (snd (if ?b then _ else _))) -> _ => destruct b
  | |- In v (fst (snd (nothing _))) -> _ => intros []
  | |- In v (fst (snd (found _ _))) -> _ => cbn [found fst snd In]; intros H; repeat (destruct H as [<-|H]; [reflexivity|]); contradiction
  end.
Qed.

(** ** What is counted of an arc *)

Lemma arc_hits a l y prev next : arc_ok a -> line_in_order l -> e6 <= line_reach a l ->
  exists ps, lists ps (met a a l) /\ (forall v, In v ps -> in_plane v) /\ count_on l y prev a next = length (filter (counts y prev a next) ps).
Proof.
  intros Oa Ol Re. destruct (arc_line_spec a l a l (or_introl (conj eq_refl eq_refl)) Oa Ol) as (K & _).
  destruct (K Re) as (ps & L & _ & (f & E & _) & _). exists ps. split; [exact L|].
  assert (T : s_ty a = SArc) by (destruct Oa as ((d & T & _) & _); exact T). assert (T2 : s_ty l = SLine) by apply Ol.
  pose proof (fun v => arc_line_flat a l v T T2) as Fl. rewrite E in Fl. unfold count_on. rewrite E.
  destruct ps as [|v ps]; [split; [intros v []|reflexivity]|]. split; [exact Fl|reflexivity].
Qed.

Lemma arc_misses a l y prev next : arc_ok a -> line_in_order l -> line_reach a l < 0 -> count_on l y prev a next = 0%nat.
Proof. intros Oa Ol Re. destruct (arc_line_spec a l a l (or_introl (conj eq_refl eq_refl)) Oa Ol) as (_ & K & _). unfold count_on. destruct (K Re) as (-> & _). reflexivity. Qed.

Lemma same_flat v w : in_plane v -> in_plane w -> same_place v w -> v = w.
Proof. destruct v as [a b c], w as [a' b' c']. unfold in_plane. cbn. intros -> -> (X & Y). cbn in X, Y. now subst. Qed.

Lemma one_hit ps (P : pt -> Prop) v : lists ps P -> (forall w, In w ps -> in_plane w) -> in_plane v -> P v -> (forall w, P w -> same_place w v) -> ps = [v].
Proof.
  intros (L1 & L2 & L3) F Z H U.
  assert (E : forall w, In w ps -> w = v) by (intros w I; apply same_flat; [now apply F|exact Z|apply U; now apply L1]).
  destruct (L2 v H) as (w & I & _). destruct ps as [|a [|b ps]]; [contradiction|rewrite (E a (or_introl eq_refl)); reflexivity|].
  exfalso. pose proof (E a (or_introl eq_refl)) as Ea. pose proof (E b (or_intror (or_introl eq_refl))) as Eb. subst a b. now specialize (L3 0%nat 1%nat v v eq_refl eq_refl (conj eq_refl eq_refl)).
Qed.

(** ** The bowl: a disc of which the lowest part is cut off *)

Definition rim : seg := arc_of (at2 0 0) (at2 3 (-4)) (at2 (-3) (-4)) false.
Definition base : seg := line_of (at2 (-3) (-4)) (at2 3 (-4)).
Definition bowl : list seg := [rim; base].
Definition ball : seg := mkSeg SCircle 4 0 (2 * PI) false (at2 0 (-3)) (at2 4 (-3)) (at2 4 (-3)).

Lemma rim_made : set_arc (at2 0 0) (at2 3 (-4)) (at2 (-3) (-4)) false = (true, rim) /\ s_rad rim = 5 /\ arc_ok rim /\ arc_in_order e8 rim /\
  s_sang rim = - atan (4 / 3) /\ s_eang rim = PI + atan (4 / 3) /\ 0 < atan (4 / 3) < PI / 2 /\ cos (atan (4 / 3)) = 3 / 5 /\ sin (atan (4 / 3)) = 4 / 5.
Proof.
  destruct (arc_is_made 0 0 3 (-4) (-3) (-4) false 5) as (M & N & O & R); try lra; try (left; abs_lra); try (right; abs_lra).
  fold rim in M, R, O. destruct (arc_made _ _ _ _ _ M N) as (_ & _ & _ & _ & _ & _ & O' & _).
  split; [exact M|]. split; [exact R|]. split; [exact O|]. split; [exact O'|].
  assert (A : atan2 (-4) 3 = - atan (4 / 3)). { unfold atan2. destruct (Rlt_dec 0 3); [|lra]. rewrite <- atan_opp. f_equal. lra. }
  assert (B : atan2 (-4) (-3) = atan (4 / 3) - PI). { unfold atan2. destruct (Rlt_dec 0 (-3)); [lra|]. destruct (Rlt_dec (-3) 0); [|lra]. destruct (Rle_dec 0 (-4)); [lra|]. f_equal. f_equal. lra. }
  assert (P : 0 < atan (4 / 3) < PI / 2) by (split; [apply atan_sign; lra|apply atan_bound]).
  rewrite <- and_assoc. split; [|split; [exact P|]].
  - unfold rim, arc_of. cbn [s_sang s_eang s_cw px py at2]. rewrite !Rminus_0_r, A, B. cbn [andb negb]. split; [reflexivity|]. rewrite ltb_t by lra. ring.
  - pose proof (cos_atan_sq (4 / 3)) as Q. pose proof (cos_atan_pos (4 / 3)) as P'. pose proof (sin_atan_cos (4 / 3)) as S.
    assert (C : cos (atan (4 / 3)) = 3 / 5) by nra. split; [exact C|]. rewrite S, C. lra.
Qed.

Lemma rim_covers v : covers rim v <-> dist2 v (at2 0 0) = 25 /\ -4 <= py v.
Proof.
  destruct rim_made as (_ & R & _ & _ & A & B & P & C & S).
  assert (E : covers rim v <-> exists w, - atan (4 / 3) <= w <= PI + atan (4 / 3) /\ on_round (at2 0 0) 5 w v).
  { unfold covers. change (s_ty rim) with SArc. unfold start_angle, end_angle. change (s_cw rim) with false. rewrite A, B, R. reflexivity. }
  rewrite E. split.
  - intros (w & W & (X & Y)). cbn [px py at2] in X, Y. split.
    + unfold dist2. cbn [px py at2]. rewrite X, Y. pose proof (sin2_cos2 w) as Q. unfold Rsqr in Q. nra.
    + rewrite Y. assert (G : - (4 / 5) <= sin w); [|lra]. rewrite <- S, <- sin_neg.
      destruct (Rle_dec w (PI / 2)) as [K|K]; [apply sin_incr_1; lra|].
      replace (sin w) with (sin (PI - w)) by (rewrite sin_PI_x; reflexivity). apply sin_incr_1; lra.
  - intros (D & Y). unfold dist2 in D. cbn [px py at2] in D.
    destruct (on_circle_angle (at2 0 0) 5 v (- atan (4 / 3))) as (w & W & O); [lra|unfold dist2; cbn [px py at2]; lra|].
    exists w. pose proof O as (X & Yw). cbn [px py at2] in X, Yw. rewrite Yw in Y. split; [|exact O]. split; [lra|].
    destruct (Rle_dec w (PI + atan (4 / 3))) as [J|J]; [exact J|]. exfalso. apply Rnot_le_lt in J.
    assert (G : sin (- atan (4 / 3)) <= sin w) by (rewrite sin_neg, S; lra).
    destruct (Rle_dec w (3 * (PI / 2))) as [H|H].
    + assert (sin w < sin (- atan (4 / 3))); [|lra]. replace (sin w) with (sin (PI - w)) by (rewrite sin_PI_x; reflexivity). apply sin_increasing_1; lra.
    + assert (sin w < sin (- atan (4 / 3))); [|lra]. replace (sin w) with (sin (w - 2 * PI)); [apply sin_increasing_1; lra|]. rewrite <- (sin_turn (w - 2 * PI)). f_equal. ring.
Qed.

Lemma bowl_made : (forall t, In t bowl -> made t) /\ Forall piece bowl /\ ring bowl /\ (forall t p, In t bowl -> covers t p -> near_home p).
Proof.
  destruct rim_made as (_ & _ & _ & O & _).
  assert (L1 : line_in_order base) by (apply line_is_made; try lra; left; unfold e8; abs_lra).
  split; [|split; [|split]].
  - intros t [<-|[<-|[]]]; [right; left; split; [exact O|reflexivity]|now left].
  - constructor; [now right|]. constructor; [now left|constructor].
  - split; [|apply one_point_refl]. cbn [chain bowl]. repeat split; apply one_point_refl.
  - intros t p [<-|[<-|[]]] C.
    + apply in_disc_home. apply rim_covers in C. unfold in_disc. lra.
    + destruct C as (u & U & X & Y). cbn in X, Y. unfold near_home. split; lra.
Qed.

Lemma bowl_wind : total wind_of bowl = -54.
Proof.
  destruct rim_made as (_ & R & _ & _ & A & B & _). unfold total, bowl. cbn [map fold_right]. unfold wind_of, get_midpoint.
  change (s_ty rim) with SArc. cbv iota. rewrite A, B, R. change (s_cen rim) with (at2 0 0). change (s_start rim) with (at2 3 (-4)). change (s_end rim) with (at2 (-3) (-4)).
  unfold base, line_of. cbn [s_ty s_start s_end snd px py at2]. replace ((- atan (4 / 3) + (PI + atan (4 / 3))) * (1 / 2)) with (PI / 2) by field. rewrite cos_PI2, sin_PI2. lra.
Qed.

Lemma bowl_drawn : exists o, draw bowl = Some (yes, o) /\ built made o /\ o_closed o = true /\ o_segs o = bowl.
Proof.
  destruct bowl_made as (M & F & G & H).
  destruct (draw_ring [rim] base) as (bl & tr & D); [discriminate|exact F|exact G| |exact M|exact H|].
  { intros f m s n E. injection E as _ E. destruct m; discriminate. }
  eexists. split; [exact D|]. split; [apply (draw_built made bowl yes); [exact M|exact D]|]. split; [reflexivity|].
  cbn [o_segs]. unfold oriented. change ([rim] ++ [base]) with bowl. rewrite bowl_wind, ltb_f by lra. reflexivity.
Qed.

Lemma ball_full : full_circle ball.
Proof. split; [reflexivity|]. cbn. repeat split; lra. Qed.

Lemma bowl_meets : exists p q, intersections rim ball = found [p; q] INone /\ ((p = at2 4 (-3) /\ q = at2 (-4) (-3)) \/ (p = at2 (-4) (-3) /\ q = at2 4 (-3))) /\
  intersections base ball = nothing INone.
Proof.
  destruct rim_made as (_ & R & O & _). pose proof ball_full as Fb.
  assert (D : dist (s_cen rim) (s_cen ball) = 3) by (change (s_cen rim) with (at2 0 0); change (s_cen ball) with (at2 0 (-3)); apply dist_at2; lra).
  assert (Cl : clear rim ball).
  { unfold clear, touching, alike. cbv zeta. rewrite D, R. cbn [s_rad ball]. split; [lra|]. split; [unfold e3; rewrite Rabs_left; lra|].
    split; [intros (_ & K); revert K; unfold e3; rewrite Rabs_right; lra|]. lra. }
  destruct (arcs_points rim ball (or_intror O) (or_introl Fb) (or_introl eq_refl) Cl) as (l & (L1 & L2 & L3) & Le & E & _).
  { discriminate. } { rewrite D, R. cbn. lra. } { rewrite D, R. cbn. lra. }
  assert (Z : forall v, In v l -> in_plane v).
  { intros v I. apply (arcs_flat rim ball v O Fb Cl). rewrite E. destruct l; [contradiction|exact I]. }
  assert (Cm : forall v, seen rim ball v <-> dist2 v (at2 0 0) = 25 /\ py v = -3).
  { intros v. rewrite (seen_common rim ball v O Fb). unfold common. rewrite rim_covers. unfold covers. cbn [ball s_ty s_cen s_rad]. unfold dist2. cbn [px py at2]. split; intros; nra. }
  assert (K : forall v, In v l -> v = at2 4 (-3) \/ v = at2 (-4) (-3)).
  { intros v I. apply L1 in I as J. apply Cm in J. destruct J as (J & Y). specialize (Z v I). destruct v as [x y z]. unfold in_plane in Z. cbn [px py pz] in *. subst y z. unfold dist2 in J. cbn [px py at2] in J.
    assert (Q : (x - 4) * (x + 4) = 0) by nra. apply Rmult_integral in Q. destruct Q; [left|right]; unfold at2; f_equal; lra. }
  assert (I1 : In (at2 4 (-3)) l).
  { destruct (L2 (at2 4 (-3))) as (v & I & S); [apply Cm; unfold dist2; cbn; lra|]. destruct (K v I) as [->| ->]; [exact I|]. destruct S as (S & _). cbn in S. lra. }
  assert (I2 : In (at2 (-4) (-3)) l).
  { destruct (L2 (at2 (-4) (-3))) as (v & I & S); [apply Cm; unfold dist2; cbn; lra|]. destruct (K v I) as [->| ->]; [|exact I]. destruct S as (S & _). cbn in S. lra. }
  assert (Nq : at2 4 (-3) <> at2 (-4) (-3)) by (intros Q; injection Q; lra).
  assert (Lb : intersections base ball = nothing INone).
  { assert (L1' : line_in_order base) by (apply line_is_made; try lra; left; unfold e8; abs_lra).
    destruct (circle_line_spec base ball ball base (or_intror (conj eq_refl eq_refl)) Fb L1') as (H & _).
    destruct H as (ps & (P1 & _) & _ & (f & E' & _) & _).
    - unfold line_reach, reach, dist2, base, line_of, ball. cbn [s_start s_end s_cen s_rad px py at2]. unfold e6. lra.
    - destruct ps as [|v ps]; [exact E'|]. exfalso. destruct (P1 v (or_introl eq_refl)) as (C1 & (t & Ht & X & Y)). unfold covers in C1. cbn [ball s_ty s_cen s_rad] in C1. unfold dist2 in C1. cbn [base line_of s_start s_end px py at2] in *. rewrite X, Y in C1. nra. }
  destruct l as [|p [|q [|r l]]]; cbn [length] in Le; try lia; [contradiction| |].
  - exfalso. destruct I1 as [I1|[]], I2 as [I2|[]]. congruence.
  - exists p, q. split; [exact E|]. split; [|exact Lb]. destruct I1 as [I1|[I1|[]]], I2 as [I2|[I2|[]]]; subst; try congruence; auto.
Qed.

(* where the horizontal line from a point above or below the centre goes to *)
Lemma bowl_line o y : built made o -> o_closed o = true -> o_segs o = bowl -> -10 <= y <= 10 ->
  exists x, (-30 <= x <= -9 \/ 9 <= x <= 30) /\ ray o (at2 0 y) = line_of (at2 0 y) (mkPt x (py (at2 0 y)) 0) /\ line_in_order (line_of (at2 0 y) (mkPt x (py (at2 0 y)) 0)).
Proof.
  intros B C S Y. destruct (line_end_exists o (at2 0 y)) as (x & X & E). exists x.
  assert (Xr : -30 <= x <= -9 \/ 9 <= x <= 30).
  { assert (I1 : In rim (o_segs o)) by (rewrite S; now left).
    assert (P1 : covers rim (at2 (-5) 0)) by (apply rim_covers; unfold dist2; cbn; lra). assert (P2 : covers rim (at2 5 0)) by (apply rim_covers; unfold dist2; cbn; lra).
    destruct (built_in_box o _ _ B I1 P1) as (Q1 & _). destruct (built_in_box o _ _ B I1 P2) as (Q2 & _). cbn [px at2] in Q1, Q2.
    destruct (built_tight o B C) as ((s & q & I & Cq & T) & _ & (w & (s1 & s2 & q1 & q2 & J1 & J2 & C1 & C2 & W) & Tw)).
    assert (G : forall s q, In s (o_segs o) -> covers s q -> -5 <= px q <= 5 /\ -5 <= py q <= 5).
    { intros u v Iu Cu. rewrite S in Iu. destruct Iu as [<-|[<-|[]]]; [|destruct Cu as (t & Ht & U & V); cbn in U, V; split; lra].
      apply rim_covers in Cu. destruct Cu as (Cu & _). unfold dist2 in Cu. cbn [px py at2] in Cu. pose proof (pow2_ge_0 (px v - 0)). pose proof (pow2_ge_0 (py v - 0)). split; split; nra. }
    pose proof (G s q I Cq). pose proof (G s1 q1 J1 C1). pose proof (G s2 q2 J2 C2). pose proof e8_small. pose proof e8_pos.
    destruct X as [(_ & X)|(_ & X)]; [left|right]; destruct W; lra. }
  split; [exact Xr|]. destruct (set_line_cases (at2 0 y) x eq_refl) as [(N & _)|(L & E')]; [|rewrite E; split; assumption].
  exfalso. revert N. apply apart_wide; cbn [px py at2]; try lra; try reflexivity. destruct Xr; [rewrite Rabs_right by lra|rewrite Rabs_left by lra]; lra.
Qed.

Lemma base_misses y x prev next : 1 <= Rabs (-4 - y) -> count_on (line_of (at2 0 y) (mkPt x (py (at2 0 y)) 0)) (py (at2 0 y)) prev base next = 0%nat.
Proof.
  intros H. assert (L1 : line_in_order base) by (apply line_is_made; try lra; left; unfold e8; abs_lra).
  unfold count_on. rewrite (level_none (at2 0 y) x base L1 eq_refl); [reflexivity|]. cbn [base line_of s_start s_end px py at2]. unfold e6. rewrite (Rabs_right (3 - -3)) by lra. lra.
Qed.

Lemma bowl_in o : built made o -> o_closed o = true -> o_segs o = bowl -> is_inside o (at2 0 1) false = (true, false) /\ is_inside o (at2 0 (-7)) false = (false, false).
Proof.
  intros B C S. destruct rim_made as (_ & R & O & _).
  split; unfold is_inside; rewrite C; cbn [negb]; unfold count_all; rewrite S; cbn [bowl length seq map nth fold_left Nat.eqb].
  - destruct (bowl_line o 1 B C S ltac:(lra)) as (x & Xr & -> & L).
    rewrite base_misses by (rewrite Rabs_left; lra).
    destruct (arc_hits rim _ (py (at2 0 1)) base base O L) as (ps & Lp & Z & E).
    { unfold line_reach, reach. change (s_cen rim) with (at2 0 0). rewrite R. unfold dist2, line_of. cbn [s_start s_end px py at2]. unfold e6. destruct Xr; nra. }
    change (nth (2 - 1) [rim; base] seg_init) with base. cbn [Nat.sub Nat.add nth Nat.eqb]. rewrite E.
    set (g := if Rlt_dec x 0 then - sqrt 24 else sqrt 24).
    pose proof (sqrt_sqrt 24 ltac:(lra)) as Sq. pose proof (sqrt_lt_R0 24 ltac:(lra)) as Sp. assert (S5 : sqrt 24 < 5) by nra.
    assert (Gg : g * g = 24) by (unfold g; destruct (Rlt_dec x 0); nra).
    assert (Hit : forall v, met rim rim (line_of (at2 0 1) (mkPt x (py (at2 0 1)) 0)) v <-> same_place v (at2 g 1)).
    { intros v. unfold met. change (s_cen rim) with (at2 0 0). rewrite R. rewrite rim_covers. split.
      - intros ((t & Ht & X & Y) & D & _). cbn [line_of s_start s_end px py at2] in X, Y. pose proof (dist_sq v (at2 0 0)) as D2. rewrite D in D2. unfold dist2 in D2. cbn [px py at2] in D2.
        assert (Y1 : py v = 1) by lra. split; cbn [px py at2]; [|exact Y1]. rewrite Y1 in D2. assert (Q : (px v - g) * (px v + g) = 0) by nra. apply Rmult_integral in Q. destruct Q as [Q|Q]; [lra|].
        unfold g in *. destruct (Rlt_dec x 0); destruct Xr; nra.
      - intros (X & Y). cbn [px py at2] in X, Y. assert (D2 : dist2 v (at2 0 0) = 25) by (unfold dist2; cbn [px py at2]; rewrite X, Y; nra).
        split; [|split; [apply dist2_dist; lra|left; split; lra]]. exists (g / x). cbn [line_of s_start s_end px py at2].
        assert (Q : x * (g / x) = g) by (field; destruct Xr; lra). unfold g in *. destruct (Rlt_dec x 0); destruct Xr; try lra; split; try (split; nra); nra. }
    assert (Ps : ps = [at2 g 1]).
    { apply (one_hit ps _ (at2 g 1) Lp Z eq_refl); [apply Hit; now split|intros w; apply Hit]. }
    rewrite Ps. unfold counts. cbn [filter]. change (s_ty rim) with SArc. cbn [segty_eqb]. change (s_start rim) with (at2 3 (-4)). change (s_end rim) with (at2 (-3) (-4)).
    assert (Gb : -1000 <= g <= 1000) by (unfold g; destruct (Rlt_dec x 0); lra).
    assert (N1 : point_matches (at2 g 1) (at2 3 (-4)) e8 = false) by (apply point_matches_not; apply apart_y; try reflexivity; try (apply not_far; lra); cbn [py at2]; unfold e8; abs_lra).
    assert (N2 : point_matches (at2 g 1) (at2 (-3) (-4)) e8 = false) by (apply point_matches_not; apply apart_y; try reflexivity; try (apply not_far; lra); cbn [py at2]; unfold e8; abs_lra).
    rewrite N1, N2. reflexivity.
  - destruct (bowl_line o (-7) B C S ltac:(lra)) as (x & Xr & -> & L).
    rewrite base_misses by (rewrite Rabs_right; lra).
    rewrite arc_misses; [reflexivity|exact O|exact L|].
    unfold line_reach, reach. change (s_cen rim) with (at2 0 0). rewrite R. unfold dist2, line_of. cbn [s_start s_end px py at2]. destruct Xr; nra.
Qed.

(* the circle about (0,-3) with radius 4 is added *)
Lemma bowl_lost : exists o o', draw bowl = Some (yes, o) /\ whole o /\ full_circle ball /\ op_circle o (Some ball) false = (yes, o') /\
  is_contiguous o' = false /\ (forall s, In s (o_segs o') -> ~ covers s (at2 0 5)).
Proof.
  destruct bowl_drawn as (o & D & B & C & S). destruct bowl_in with (o := o) as (In1 & In2); try assumption.
  destruct rim_made as (_ & R & O & Oi & A1 & A2 & _). destruct bowl_made as (_ & Fp & Rg & _).
  exists o. assert (W : whole o).
  { split; [exact C|]. right. rewrite S. split; [exact Fp|]. split; [|exact Rg]. constructor; [split; reflexivity|]. constructor; [split; reflexivity|constructor]. }
  set (P := at2 4 (-3)). set (Q := at2 (-4) (-3)).
  assert (NPQ : ~ one_point P Q e8) by (apply apart_x; try reflexivity; try (apply not_far; lra); cbn [P Q px at2]; unfold e8; abs_lra).
  destruct (arc_is_made 0 (-3) (-4) (-3) 4 (-3) false 4) as (Ms & Ns & Os & Rs); try lra; try (left; abs_lra); try (right; abs_lra).
  set (sp := arc_of (at2 0 (-3)) (at2 (-4) (-3)) (at2 4 (-3)) false) in *.
  (* the split *)
  assert (CP : covers rim P) by (apply rim_covers; unfold dist2; cbn; lra). assert (CQ : covers rim Q) by (apply rim_covers; unfold dist2; cbn; lra).
  assert (Tip : forall v, v = P \/ v = Q -> point_matches v (s_start rim) e8 = false /\ point_matches v (s_end rim) e8 = false).
  { intros v Hv. change (s_start rim) with (at2 3 (-4)). change (s_end rim) with (at2 (-3) (-4)).
    destruct Hv as [->| ->]; split; apply point_matches_not; apply apart_y; try reflexivity; try (apply not_far; lra); cbn [P Q py at2]; unfold e8; abs_lra. }
  destruct (Tip P (or_introl eq_refl)) as (TP1 & TP2). destruct (Tip Q (or_intror eq_refl)) as (TQ1 & TQ2).
  destruct atan34 as (B34 & C34 & S34). pose proof PI_RGT_0 as PP. set (b := atan (3 / 4)) in *.
  assert (B43 : b <= atan (4 / 3)) by (unfold b; left; apply atan_increasing; lra).
  assert (Sa : start_angle rim = - atan (4 / 3)) by (unfold start_angle; exact A1). assert (Ea : end_angle rim = PI + atan (4 / 3)) by (unfold end_angle; exact A2).
  assert (AP : arc_angle rim P = Some (- b)).
  { apply (arc_angle_complete e8 rim P (- b) Oi); [rewrite Sa; lra|rewrite Sa, Ea; lra|]. split; rewrite R; change (s_cen rim) with (at2 0 0); cbn [P px py at2]; [rewrite cos_neg, C34|rewrite sin_neg, S34]; lra. }
  assert (AQ : arc_angle rim Q = Some (PI + b)).
  { apply (arc_angle_complete e8 rim Q (PI + b) Oi); [rewrite Sa; lra|rewrite Sa, Ea; lra|]. split; rewrite R; change (s_cen rim) with (at2 0 0); cbn [Q px py at2]; replace (PI + b) with (b + PI) by ring; [rewrite neg_cos, C34|rewrite neg_sin, S34]; lra. }
  set (s1 := with_arc_end rim P (- b)). set (n0 := new_arc rim P Q (- b) (PI + b)). set (n1 := new_arc rim Q (s_end rim) (PI + b) (s_eang rim)).
  assert (Sl : split rim [Q; P] = (true, ([Q; P], (s1, [n0; n1])))).
  { unfold split. change (s_ty rim) with SArc. cbn [length filter]. rewrite TP1, TP2, TQ1, TQ2. cbn [orb negb]. unfold split_arc. rewrite AP, AQ. change (s_cw rim) with false. cbv iota zeta. rewrite ltb_t by lra. reflexivity. }
  set (o' := mkOut [s1; sp; n1; base] true (o_wind o) false (o_bl o) (o_tr o)). exists o'.
  split; [exact D|]. split; [exact W|]. split; [exact ball_full|]. split.
  - set (ob := mkOut [rim; base] true (o_wind o) false (o_bl o) (o_tr o)).
    assert (Io : forall m e, is_inside ob m e = is_inside o m e). { intros m e. unfold ob. change [rim; base] with bowl. rewrite <- S, <- C. destruct o. reflexivity. }
    assert (PMs : point_matches P Q e8 = false /\ point_matches Q P e8 = false).
    { split; apply point_matches_not; [exact NPQ|]. intros X. apply NPQ. now apply one_point_sym. }
    destruct PMs as (PM1 & PM2).
    assert (Mid : middles ball P Q = (at2 0 1, at2 0 (-7)) /\ middles ball Q P = (at2 0 (-7), at2 0 1)).
    { assert (E1 : atan2 (py P - py (s_cen ball)) (px P - px (s_cen ball)) = 0). { replace (py P - py (s_cen ball)) with 0 by (cbn; ring). apply atan2_rt. cbn. lra. }
      assert (E2 : atan2 (py Q - py (s_cen ball)) (px Q - px (s_cen ball)) = PI). { replace (py Q - py (s_cen ball)) with 0 by (cbn; ring). apply atan2_lt. cbn. lra. }
      unfold middles. cbv zeta. rewrite E1, E2. rewrite (ltb_f PI 0), (ltb_t 0 PI) by lra.
      replace ((0 + PI) / 2) with (PI / 2) by field. replace ((PI + (0 + 2 * PI)) / 2) with (PI / 2 + PI) by field. replace (PI / 2 + PI + PI) with (PI / 2 + 2 * PI) by ring.
      rewrite cos_turn, sin_turn, neg_cos, neg_sin, cos_PI2, sin_PI2. cbn [ball s_cen s_rad px py at2]. unfold at2. split; f_equal; f_equal; ring. }
    destruct Mid as (Mid1 & Mid2).
    assert (Ie : forall v, v = P \/ v = Q -> is_end_of v rim = false).
    { intros v Hv. unfold is_end_of. change (s_ty rim) with SArc. cbn [segty_eqb negb andb]. destruct (Tip v Hv) as (U1 & U2). unfold get_start, get_end. change (s_cw rim) with false. cbv iota. now rewrite U1, U2. }
    pose proof (Ie P (or_introl eq_refl)) as IP. pose proof (Ie Q (or_intror eq_refl)) as IQ.
    destruct bowl_meets as (p & q & Em & Hm & Eb). fold P Q in Hm.
    unfold op_circle. cbn [o_closed o_segs o_wind o_bl o_tr]. rewrite C, S. cbn [negb ball s_ty segty_eqb]. unfold bowl at 1. cbn [collect]. rewrite Em, Eb. cbn [found nothing map app fst snd].
    fold ob. destruct Hm as [(-> & ->)|(-> & ->)].
    + cbn [distinct existsb app fst]. rewrite PM1. cbn [orb distinct app]. rewrite Mid1. cbv beta iota zeta. fold bowl ob. rewrite !Io, In1, In2. cbn [fst Bool.eqb].
      cbn [bowl o_segs ob existsb snd nth]. rewrite IP, IQ. cbn [orb]. change (s_cen ball) with (at2 0 (-3)). fold sp. unfold P at 1, Q at 1. rewrite Ms.
      change (s_ty rim) with SArc. cbn [segty_eqb negb andb Nat.eqb nth]. fold P Q. rewrite Sl. reflexivity.
    + cbn [distinct existsb app fst]. rewrite PM2. cbn [orb distinct app]. rewrite Mid2. cbv beta iota zeta. fold bowl ob. rewrite !Io, In1, In2. cbn [fst Bool.eqb].
      cbn [bowl o_segs ob existsb snd nth]. rewrite IP, IQ. cbn [orb]. change (s_cen ball) with (at2 0 (-3)). fold sp. unfold P at 1, Q at 1. rewrite Ms.
      change (s_ty rim) with SArc. cbn [segty_eqb negb andb Nat.eqb nth]. fold P Q. rewrite Sl. reflexivity.
  - split.
    + destruct (is_contiguous o') eqn:K; [|reflexivity]. exfalso. apply contiguous_spec in K. destruct K as (_ & [(c & l & E & T)|(K & _)]).
      * injection E as <- _. discriminate.
      * destruct K as (K & _). apply NPQ. apply one_point_sym. exact K.
    + assert (Low : forall w, PI <= w <= 2 * PI -> sin w <= 0) by (intros w Hw; apply sin_le_0; lra).
      pose proof (proj1 (proj2 (proj2 (proj2 (proj2 (proj2 (proj2 rim_made))))))) as PA.

      intros s [<-|[<-|[<-|[<-|[]]]]] K.
      * unfold covers in K. change (s_ty s1) with SArc in K. destruct K as (w & Hw & (_ & Y)). unfold start_angle, end_angle in Hw. change (s_cw s1) with false in Hw. cbn [s1 with_arc_end s_sang s_eang] in Hw. rewrite A1 in Hw.
        change (s_rad s1) with (s_rad rim) in Y. rewrite R in Y. change (s_cen s1) with (at2 0 0) in Y. cbn [py at2] in Y. assert (sin w <= 0); [|lra]. replace (sin w) with (sin (w + 2 * PI)) by apply sin_turn. apply Low. lra.
      * unfold covers in K. change (s_ty sp) with SArc in K. destruct K as (w & _ & (_ & Y)). rewrite Rs in Y. change (s_cen sp) with (at2 0 (-3)) in Y. cbn [py at2] in Y. pose proof (SIN_bound w). lra.
      * unfold n1 in K. destruct (proj1 (covers_new_arc _ _ _ _ _ _) K) as (w & Hw & (_ & Y)). change (s_cw rim) with false in Hw. rewrite R in Y. change (s_cen rim) with (at2 0 0) in Y. cbn [py at2] in Y. rewrite A2 in Hw. unfold low, high in Hw. assert (sin w <= 0); [|lra]. apply Low. lra.
      * destruct K as (t & _ & _ & Y). cbn in Y. lra.
Qed.

(** ** The mouth: a disc of which a sector is cut out *)

Definition jaw : seg := arc_of (at2 0 0) (at2 0 (-5)) (at2 (-4) (-3)) false.
Definition lip : seg := line_of (at2 (-4) (-3)) (at2 0 0).
Definition chin : seg := line_of (at2 0 0) (at2 0 (-5)).
Definition mouth : list seg := [jaw; lip; chin].

Lemma jaw_made : set_arc (at2 0 0) (at2 0 (-5)) (at2 (-4) (-3)) false = (true, jaw) /\ s_rad jaw = 5 /\ arc_ok jaw /\ arc_in_order e8 jaw /\
  s_sang jaw = - (PI / 2) /\ s_eang jaw = PI + atan (3 / 4).
Proof.
  destruct (arc_is_made 0 0 0 (-5) (-4) (-3) false 5) as (M & N & O & R); try lra; try (left; abs_lra); try (right; abs_lra).
  fold jaw in M, R, O. destruct (arc_made _ _ _ _ _ M N) as (_ & _ & _ & _ & _ & _ & O' & _).
  split; [exact M|]. split; [exact R|]. split; [exact O|]. split; [exact O'|].
  assert (A : atan2 (-5) 0 = - (PI / 2)) by (rewrite atan2_down by lra; lra).
  assert (B : atan2 (-3) (-4) = atan (3 / 4) - PI). { unfold atan2. destruct (Rlt_dec 0 (-4)); [lra|]. destruct (Rlt_dec (-4) 0); [|lra]. destruct (Rle_dec 0 (-3)); [lra|]. f_equal. f_equal. lra. }
  destruct atan34 as (P & _). pose proof PI_RGT_0.
  unfold jaw, arc_of. cbn [s_sang s_eang s_cw px py at2]. rewrite !Rminus_0_r, A, B. cbn [andb negb]. split; [reflexivity|]. rewrite ltb_t by lra. ring.
Qed.

Lemma jaw_angle v : covers jaw v <-> exists w, - (PI / 2) <= w <= PI + atan (3 / 4) /\ on_round (at2 0 0) 5 w v.
Proof.
  destruct jaw_made as (_ & R & _ & _ & A & B).
  unfold covers. change (s_ty jaw) with SArc. unfold start_angle, end_angle. change (s_cw jaw) with false. rewrite A, B, R. reflexivity.
Qed.

Lemma jaw_within v : covers jaw v -> dist2 v (at2 0 0) = 25 /\ (0 <= px v \/ -3 <= py v).
Proof.
  intros C. apply jaw_angle in C. destruct C as (w & W & (X & Y)). cbn [px py at2] in X, Y. destruct atan34 as (P & _ & S). pose proof PI_RGT_0. split.
  - unfold dist2. cbn [px py at2]. rewrite X, Y. pose proof (sin2_cos2 w) as Q. unfold Rsqr in Q. nra.
  - destruct (Rle_dec w (PI / 2)) as [K|K]; [left; rewrite X; pose proof (cos_ge_0 w); lra|right].
    rewrite Y. assert (G : - (3 / 5) <= sin w); [|lra]. rewrite <- S, <- sin_neg.
    replace (sin w) with (sin (PI - w)) by (rewrite sin_PI_x; reflexivity). apply sin_incr_1; lra.
Qed.

Lemma jaw_has : covers jaw (at2 (-5) 0) /\ covers jaw (at2 5 0) /\ covers jaw (at2 0 5) /\ covers jaw (at2 0 (-5)) /\ covers jaw (at2 (-4) (-3)).
Proof.
  destruct atan34 as (P & C & S). pose proof PI_RGT_0.
  split; [|split; [|split; [|split]]]; apply jaw_angle; unfold on_round; cbn [px py at2].
  - exists PI. rewrite cos_PI, sin_PI. split; [lra|split; lra].
  - exists 0. rewrite cos_0, sin_0. split; [lra|split; lra].
  - exists (PI / 2). rewrite cos_PI2, sin_PI2. split; [lra|split; lra].
  - exists (- (PI / 2)). rewrite cos_neg, sin_neg, cos_PI2, sin_PI2. split; [lra|split; lra].
  - exists (PI + atan (3 / 4)). replace (PI + atan (3 / 4)) with (atan (3 / 4) + PI) by ring. rewrite neg_cos, neg_sin, C, S. split; [lra|split; lra].
Qed.

Lemma mouth_lines : line_in_order lip /\ line_in_order chin.
Proof. split; apply line_is_made; try lra; [left|right]; unfold e8; abs_lra. Qed.

Lemma mouth_made : (forall t, In t mouth -> made t) /\ Forall piece mouth /\ ring mouth /\ (forall t p, In t mouth -> covers t p -> near_home p).
Proof.
  destruct jaw_made as (_ & _ & _ & O & _). destruct mouth_lines as (L1 & L2).
  split; [|split; [|split]].
  - intros t [<-|[<-|[<-|[]]]]; [right; left; split; [exact O|reflexivity]|now left|now left].
  - constructor; [now right|]. constructor; [now left|]. constructor; [now left|constructor].
  - split; [|apply one_point_refl]. cbn [chain mouth]. repeat split; apply one_point_refl.
  - intros t p [<-|[<-|[<-|[]]]] C.
    + apply in_disc_home. apply jaw_within in C. unfold in_disc. lra.
    + destruct C as (u & U & X & Y). cbn in X, Y. unfold near_home. split; lra.
    + destruct C as (u & U & X & Y). cbn in X, Y. unfold near_home. split; lra.
Qed.

Lemma mouth_wind : total wind_of mouth < 0.
Proof.
  destruct jaw_made as (_ & R & _ & _ & A & B). destruct atan34 as (P & _). pose proof PI_RGT_0. unfold total, mouth. cbn [map fold_right]. unfold wind_of, get_midpoint.
  change (s_ty jaw) with SArc. cbv iota. rewrite A, B, R. change (s_cen jaw) with (at2 0 0). change (s_start jaw) with (at2 0 (-5)). change (s_end jaw) with (at2 (-4) (-3)).
  unfold lip, chin, line_of. cbn [s_ty s_start s_end snd px py at2]. set (m := (- (PI / 2) + (PI + atan (3 / 4))) * (1 / 2)).
  assert (0 < cos m) by (apply cos_gt_0; unfold m; lra). assert (0 < sin m) by (apply sin_gt_0; unfold m; lra). nra.
Qed.

Lemma mouth_drawn : exists o, draw mouth = Some (yes, o) /\ built made o /\ o_closed o = true /\ o_segs o = mouth.
Proof.
  destruct mouth_made as (M & F & G & H).
  destruct (draw_ring [jaw; lip] chin) as (bl & tr & D); [discriminate|exact F|exact G| |exact M|exact H|].
  { intros f m s n E. injection E as <- E. destruct m as [|? m]; [|injection E as _ E; destruct m; discriminate]. injection E as <- _. cbn [jaw lip arc_of line_of s_start s_end].
    apply apart_y; try reflexivity; try (apply not_far; lra); cbn [py at2]; unfold e8; abs_lra. }
  eexists. split; [exact D|]. split; [apply (draw_built made mouth yes); [exact M|exact D]|]. split; [reflexivity|].
  cbn [o_segs]. unfold oriented. change ([jaw; lip] ++ [chin]) with mouth. rewrite ltb_f by (pose proof mouth_wind; lra). reflexivity.
Qed.

(* from (-1,-3) the line goes to the left *)
Lemma mouth_line o : built made o -> o_closed o = true -> o_segs o = mouth ->
  exists x, -12 <= x <= -9 /\ ray o (at2 (-1) (-3)) = line_of (at2 (-1) (-3)) (mkPt x (py (at2 (-1) (-3))) 0) /\ line_in_order (line_of (at2 (-1) (-3)) (mkPt x (py (at2 (-1) (-3))) 0)).
Proof.
  intros B C S. destruct (line_end_exists o (at2 (-1) (-3))) as (x & X & E). exists x.
  assert (Xr : -12 <= x <= -9).
  { assert (I1 : In jaw (o_segs o)) by (rewrite S; now left). destruct jaw_has as (P1 & P2 & _).
    destruct (built_in_box o _ _ B I1 P1) as (Q1 & _). destruct (built_in_box o _ _ B I1 P2) as (Q2 & _). cbn [px at2] in Q1, Q2.
    destruct (built_tight o B C) as ((s & q & I & Cq & T) & _).
    assert (G : -5 <= px q).
    { rewrite S in I. destruct I as [<-|[<-|[<-|[]]]]; [|destruct Cq as (t & Ht & U & V); cbn in U, V; lra|destruct Cq as (t & Ht & U & V); cbn in U, V; lra].
      apply jaw_within in Cq. destruct Cq as (Cu & _). unfold dist2 in Cu. cbn [px py at2] in Cu. pose proof (pow2_ge_0 (px q - 0)). pose proof (pow2_ge_0 (py q - 0)). nra. }
    pose proof e8_small. pose proof e8_pos. cbn [px at2] in X. destruct X as [(_ & X)|(X & _)]; [lra|]. cbn [px at2] in X. lra. }
  split; [exact Xr|]. destruct (set_line_cases (at2 (-1) (-3)) x eq_refl) as [(N & _)|(L & E')]; [|rewrite E; split; assumption].
  exfalso. revert N. apply apart_wide; cbn [px py at2]; try lra; try reflexivity. rewrite Rabs_right by lra. lra.
Qed.

Lemma mouth_lost : exists o, draw mouth = Some (yes, o) /\ whole o /\ is_inside o (at2 (-1) (-3)) false = (true, false) /\
  (forall s y, In s (o_segs o) -> y <= -3 -> ~ covers s (at2 (-1) y)).
Proof.
  destruct mouth_drawn as (o & D & B & C & S). destruct mouth_made as (_ & Fp & Rg & _). destruct jaw_made as (_ & R & O & Oi & _). destruct mouth_lines as (L1 & L2).
  exists o. split; [exact D|]. split; [|split].
  - split; [exact C|]. right. rewrite S. split; [exact Fp|]. split; [|exact Rg]. constructor; [split; reflexivity|]. constructor; [split; reflexivity|]. constructor; [split; reflexivity|constructor].
  - unfold is_inside. rewrite C. cbn [negb]. unfold count_all. rewrite S. destruct (mouth_line o B C S) as (x & Xr & -> & L). pose proof e8_small as E8. pose proof e8_pos as E8p.
    cbn [mouth length seq map nth fold_left Nat.eqb Nat.sub Nat.add].
    assert (Cl : forall s, s = lip \/ s = chin -> clear_of (at2 (-1) (-3)) x s).
    { intros s Hs. unfold clear_of. cbv zeta. cbn [px py at2]. rewrite (Rabs_left (x - -1)) by lra. split; [|split].
      - intros v [->| ->]; destruct Hs as [->| ->]; unfold lip, chin, line_of; cbn [s_start s_end py at2]; [left; lra|right|right|right].
        + rewrite (Rabs_left (-5 - 0)), (Rabs_right (0 - -3)) by lra. lra.
        + rewrite (Rabs_right (0 - -3)) by lra. lra.
        + rewrite (Rabs_left (-5 - 0)), (Rabs_left (-5 - -3)) by lra. lra.
      - left. destruct Hs as [->| ->]; unfold lip, chin, line_of; cbn [s_start s_end py at2]; [rewrite (Rabs_right (0 - -3)) by lra|rewrite (Rabs_left (-5 - 0)) by lra]; unfold e6; lra.
      - intros q K Q. destruct Hs as [->| ->]; destruct K as (t & Ht & X & Y); cbn [lip chin line_of s_start s_end px py at2] in X, Y.
        + assert (t = 0) by lra. subst t. rewrite X. replace (-4 + 0 * (0 - -4) - -1) with (-3) by ring. rewrite Rabs_left by lra. split; [nra|intro; lra].
        + rewrite X. replace (0 + t * (0 - 0) - -1) with 1 by ring. rewrite Rabs_right by lra. split; [nra|intro; lra]. }
    assert (Hm : forall v, v = at2 (-1) (-3) \/ v = at2 (-4) (-3) \/ v = at2 0 0 \/ v = at2 0 (-5) -> at_home v) by (intros v [->|[->|[->| ->]]]; split; cbn; lra).
    assert (N1 : forall prev next, count_on (line_of (at2 (-1) (-3)) (mkPt x (py (at2 (-1) (-3))) 0)) (py (at2 (-1) (-3))) prev lip next = 0%nat).
    { intros prev next. rewrite line_count; try assumption; try (apply Hm; tauto); try reflexivity; [|apply Cl; now left].
      unfold reachb, lip, line_of. cbn [s_start s_end py at2]. rewrite !ltb_f by lra. reflexivity. }
    assert (N2 : forall prev next, count_on (line_of (at2 (-1) (-3)) (mkPt x (py (at2 (-1) (-3))) 0)) (py (at2 (-1) (-3))) prev chin next = 0%nat).
    { intros prev next. rewrite line_count_left; try assumption; try (apply Hm; tauto); try reflexivity; [|apply Cl; now right| |].
      - replace (pass_x chin (py (at2 (-1) (-3)))) with 0 by (unfold pass_x, chin, line_of; cbn [s_start s_end px py at2]; lra). cbn [px at2]. rewrite (ltb_f 0) by lra. apply andb_false_r || (rewrite andb_false_r; reflexivity).
      - intros q (t & _ & X & _) _. cbn in X. rewrite X. lra.
      - cbn [px at2]. rewrite Rabs_left by lra. lra. }
    rewrite N1, N2.
    destruct (arc_hits jaw _ (py (at2 (-1) (-3))) chin lip O L) as (ps & Lp & Z & E).
    { unfold line_reach, reach. change (s_cen jaw) with (at2 0 0). rewrite R. unfold dist2, line_of. cbn [s_start s_end px py at2]. unfold e6. nra. }
    rewrite E.
    assert (Hit : forall v, met jaw jaw (line_of (at2 (-1) (-3)) (mkPt x (py (at2 (-1) (-3))) 0)) v <-> same_place v (at2 (-4) (-3))).
    { intros v. unfold met. change (s_cen jaw) with (at2 0 0). rewrite R. split.
      - intros ((t & Ht & X & Y) & D' & _). cbn [line_of s_start s_end px py at2] in X, Y. pose proof (dist_sq v (at2 0 0)) as D2. rewrite D' in D2. unfold dist2 in D2. cbn [px py at2] in D2.
        assert (Y1 : py v = -3) by lra. split; cbn [px py at2]; [|exact Y1]. rewrite Y1 in D2. assert (Q : (px v - 4) * (px v + 4) = 0) by nra. apply Rmult_integral in Q. destruct Q as [Q|Q]; [|lra].
        exfalso. nra.
      - intros (X & Y). cbn [px py at2] in X, Y. assert (D2 : dist2 v (at2 0 0) = 25) by (unfold dist2; cbn [px py at2]; rewrite X, Y; ring).
        split; [|split; [apply dist2_dist; lra|left]].
        + exists (3 / (- 1 - x)). cbn [line_of s_start s_end px py at2]. assert (Q : (-1 - x) * (3 / (-1 - x)) = 3) by (field; lra). split; [split; nra|]. split; nra.
        + destruct jaw_has as (_ & _ & _ & _ & J). apply jaw_angle in J. apply jaw_angle. destruct J as (w & W & (J1 & J2)). exists w. split; [exact W|]. split; [rewrite X; exact J1|rewrite Y; exact J2]. }
    assert (Ps : ps = [at2 (-4) (-3)]).
    { apply (one_hit ps _ (at2 (-4) (-3)) Lp Z eq_refl); [apply Hit; now split|intros w; apply Hit]. }
    rewrite Ps. unfold counts. cbn [filter]. change (s_ty jaw) with SArc. cbn [segty_eqb]. change (s_start jaw) with (at2 0 (-5)). change (s_end jaw) with (at2 (-4) (-3)).
    assert (M2 : point_matches (at2 (-4) (-3)) (at2 (-4) (-3)) e8 = true) by (apply point_matches_spec; apply one_point_refl). rewrite M2, orb_true_r.
    assert (Mj : made jaw) by (right; left; split; [exact Oi|reflexivity]). destruct jaw_has as (_ & _ & J3 & J4 & _).
    destruct (seg_in_box jaw _ Mj J3) as (_ & K3). destruct (seg_in_box jaw _ Mj J4) as (_ & K4). cbn [py at2] in K3, K4.
    assert (Bj : below jaw (py (at2 (-1) (-3))) = false). { unfold below, box_of. cbn [py at2]. rewrite (leb_f (py (snd (seg_box jaw)))) by lra. apply andb_false_r. }
    rewrite Bj. unfold box_of. cbn [andb]. rewrite ltb_t by (cbn [py at2]; lra).
    assert (Al : above lip (py (at2 (-1) (-3))) = true).
    { unfold above, box_of, seg_box, get_box, lip, line_of. cbn [s_ty s_start s_end px py at2]. rewrite (ltb_f (Rabs _)) by (rewrite Rabs_left; lra). rewrite !ltb_t by lra. cbn [fst snd py px]. rewrite !leb_t by lra. reflexivity. }
    rewrite Al. reflexivity.
  - rewrite S. intros s y [<-|[<-|[<-|[]]]] Y K.
    + apply jaw_within in K. destruct K as (K1 & K2). unfold dist2 in K1. cbn [px py at2] in K1, K2. nra.
    + destruct K as (t & _ & X & Z). cbn in X, Z. lra.
    + destruct K as (t & _ & X & Z). cbn in X, Z. lra.
Qed.
