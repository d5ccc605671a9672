(** Two lines; a line with an arc or a circle. *)

From Coq Require Import Reals Lra Psatz List Bool ZArith Lia.
From Verif Require Import SegModel SegSpec SegTrig SegFacts SegBox SegSplit SegSplitArc CutModel CutSpec CutFacts CutCircle CutArc.
Import ListNotations.
Open Scope R_scope.

(** ** Two lines *)

Lemma lines_spec s o : line_in_order s -> line_in_order o -> e6 <= Rabs (cross s o) ->
  exists t u p, course s t p /\ course o u p /\ in_plane p /\
    (forall t' u' p', course s t' p' -> course o u' p' -> t' = t /\ u' = u /\ same_place p' p) /\
    (in_reach t -> in_reach u -> exists f, intersections s o = found [p] f /\
       (f = IEndpoint /\ (at_tip t \/ at_tip u) \/ f = INone /\ ~ at_tip t /\ ~ at_tip u)) /\
    (~ (in_reach t /\ in_reach u) -> intersections s o = nothing INone).
Proof.
  intros O1 O2 CR. pose proof O1 as (T & C1 & _). pose proof O2 as (T2 & C2 & Z2 & _).
  assert (I : intersections s o = check_lines s o) by (unfold intersections; now rewrite T, T2). rewrite I. clear I.
  unfold check_lines, get_start, get_end. rewrite C2. cbv zeta.
  set (xa1 := px (s_end s) - px (s_start s)). set (ya1 := py (s_end s) - py (s_start s)).
  set (xa2 := px (s_end o) - px (s_start o)). set (ya2 := py (s_end o) - py (s_start o)).
  set (xb1 := px (s_start s)). set (yb1 := py (s_start s)). set (xb2 := px (s_start o)). set (yb2 := py (s_start o)).
  unfold cross in CR. fold xa1 ya1 xa2 ya2 in CR.
  set (num := xa1 * (yb2 - yb1) - ya1 * (xb2 - xb1)). set (den := xa2 * ya1 - ya2 * xa1) in *.
  assert (E6 : 0 < e6) by (unfold e6; lra).
  assert (DN : den <> 0) by (intro Q; rewrite Q, Rabs_R0 in CR; lra).
  rewrite (ltb_f (Rabs den)) by lra.
  set (u := num / den). assert (U : u * den = num) by (unfold u; field; exact DN).
  set (t := if ltb (Rabs xa1) (Rabs ya1) then (u * ya2 + yb2 - yb1) / ya1 else (u * xa2 + xb2 - xb1) / xa1).
  assert (Key : (u * ya2 + yb2 - yb1) * xa1 = (u * xa2 + xb2 - xb1) * ya1).
  { unfold den, num in U. nra. }
  assert (XY : t * xa1 + xb1 = u * xa2 + xb2 /\ t * ya1 + yb1 = u * ya2 + yb2).
  { unfold t. destruct (ltb (Rabs xa1) (Rabs ya1)) eqn:L; [apply ltb_true in L|apply ltb_false in L].
    - assert (ya1 <> 0) by (intro Q; rewrite Q, Rabs_R0 in L; pose proof (Rabs_pos xa1); lra).
      split; [|field; assumption]. replace ((u * ya2 + yb2 - yb1) / ya1 * xa1) with ((u * ya2 + yb2 - yb1) * xa1 / ya1) by (field; assumption).
      rewrite Key. field. assumption.
    - assert (xa1 <> 0). { intro Q. rewrite Q, Rabs_R0 in L. pose proof (Rabs_pos ya1). assert (Rabs ya1 = 0) by lra.
        assert (ya1 = 0) by (destruct (Req_EM_T ya1 0) as [W|W]; [exact W|apply Rabs_no_R0 in W; lra]). apply DN. unfold den. rewrite Q, H1. ring. }
      split; [field; assumption|]. replace ((u * xa2 + xb2 - xb1) / xa1 * ya1) with ((u * xa2 + xb2 - xb1) * ya1 / xa1) by (field; assumption).
      rewrite <- Key. field. assumption. }
  destruct XY as [X Y]. clearbody t.
  exists t, u, (mkPt (u * xa2 + xb2) (u * ya2 + yb2) (pz (s_start o))).
  split. { unfold course. rewrite T. cbn [px py]. fold xa1 ya1 xb1 yb1. split; lra. }
  split. { unfold course. rewrite T2. cbn [px py]. fold xa2 ya2 xb2 yb2. split; ring. }
  split; [exact Z2|]. split.
  { intros t' u' p' A B. unfold course in A, B. rewrite T in A. rewrite T2 in B. fold xa1 ya1 xb1 yb1 in A. fold xa2 ya2 xb2 yb2 in B.
    destruct A as [A1 A2]. destruct B as [B1 B2].
    assert (M1 : (t' - t) * xa1 = (u' - u) * xa2) by lra. assert (M2 : (t' - t) * ya1 = (u' - u) * ya2) by lra.
    assert ((u' - u) * den = 0) as Q.
    { replace ((u' - u) * den) with ((u' - u) * xa2 * ya1 - (u' - u) * ya2 * xa1) by (unfold den; ring). rewrite <- M1, <- M2. ring. }
    apply Rmult_integral in Q. destruct Q as [Q|Q]; [|contradiction].
    assert (u' = u) as -> by lra.
    assert ((t' - t) * den = 0) as W.
    { replace ((t' - t) * den) with (xa2 * ((t' - t) * ya1) - ya2 * ((t' - t) * xa1)) by (unfold den; ring). rewrite M1, M2. ring. }
    apply Rmult_integral in W. destruct W as [W|W]; [|contradiction].
    assert (t' = t) as -> by lra. split; [reflexivity|]. split; [reflexivity|]. unfold same_place. cbn [px py]. split; lra. }
  split.
  - intros [T1 T3] [U1 U3]. rewrite (ltb_t (- e8) u), (ltb_t u), (ltb_t (- e8) t), (ltb_t t) by assumption. cbn [andb]. eexists. split; [reflexivity|].
    assert (TT : forall v, ltb (Rabs v) e8 || ltb (Rabs (v - 1)) e8 = true <-> at_tip v) by (intro v; rewrite orb_true_iff, !ltb_true; reflexivity).
    destruct (ltb (Rabs t) e8 || ltb (Rabs (t - 1)) e8) eqn:Q1; destruct (ltb (Rabs u) e8 || ltb (Rabs (u - 1)) e8) eqn:Q2; cbn [orb].
    + left. split; [reflexivity|]. left. now apply TT.
    + left. split; [reflexivity|]. left. now apply TT.
    + left. split; [reflexivity|]. right. now apply TT.
    + right. split; [reflexivity|]. split; intro Q; apply TT in Q; congruence.
  - intro N. destruct (ltb (- e8) u && ltb u (1 + e8) && ltb (- e8) t && ltb t (1 + e8)) eqn:Q; [|reflexivity].
    exfalso. apply N. rewrite !andb_true_iff, !ltb_true in Q. unfold in_reach. tauto.
Qed.

(** ** A line and something round *)

Section RoundLine.
  Variables (c : pt) (r : R) (lS lE : pt).
  Definition qa : R := (px lS * px lS - 2 * px lS * px lE + px lE * px lE) + (py lS * py lS - 2 * py lS * py lE + py lE * py lE).
  Definition qb : R := 2 * (px c * px lE - px c * px lS + px lS * px lE - px lE * px lE) + 2 * (py c * py lE - py c * py lS + py lS * py lE - py lE * py lE).
  Definition qc : R := (px c * px c - 2 * px c * px lE + px lE * px lE) + (py c * py c - 2 * py c * py lE + py lE * py lE) - r * r.
  Definition qd : R := qb * qb - 4 * qa * qc.
  Hypothesis L : 0 < dist2 lS lE.

  Lemma quad_A : qa = dist2 lS lE. Proof. unfold qa, dist2. ring. Qed.
  Lemma quad t : dist2 (at_t lS lE t) c - r * r = qa * t * t + qb * t + qc.
  Proof. unfold qa, qb, qc, dist2, at_t. cbn [px py]. ring. Qed.

  Lemma quad_D : qd = reach c r lS lE.
  Proof. unfold qd, reach, qa, qb, qc, dist2. ring. Qed.

  Definition root0 : R := (- qb + sqrt qd) / (2 * qa).
  Definition root1 : R := (- qb - sqrt qd) / (2 * qa).
  Definition foot_t : R := - qb / (2 * qa).

  Lemma quad_roots t : 0 < qd -> dist2 (at_t lS lE t) c = r ^ 2 <-> t = root0 \/ t = root1.
  Proof.
    intro P. pose proof quad_A as QA. assert (PA : 0 < qa) by lra. pose proof (quad t) as Q. pose proof (sqrt_sqrt qd ltac:(lra)) as S.
    assert (E : 4 * qa * (qa * t * t + qb * t + qc) = (2 * qa * t + qb - sqrt qd) * (2 * qa * t + qb + sqrt qd)).
    { replace ((2 * qa * t + qb - sqrt qd) * (2 * qa * t + qb + sqrt qd)) with ((2 * qa * t + qb) * (2 * qa * t + qb) - sqrt qd * sqrt qd) by ring. rewrite S. unfold qd. ring. }
    assert (R0 : root0 * (2 * qa) = - qb + sqrt qd) by (unfold root0; field; lra).
    assert (R1 : root1 * (2 * qa) = - qb - sqrt qd) by (unfold root1; field; lra).
    split.
    - intro H. assert (Z : (2 * qa * t + qb - sqrt qd) * (2 * qa * t + qb + sqrt qd) = 0) by (rewrite <- E, <- Q, H; ring).
      apply Rmult_integral in Z. destruct Z as [Z|Z]; [left|right]; apply (Rmult_eq_reg_r (2 * qa)); lra.
    - intro H. assert (Z : (2 * qa * t + qb - sqrt qd) * (2 * qa * t + qb + sqrt qd) = 0).
      { destruct H as [-> | ->]; [replace (2 * qa * root0 + qb - sqrt qd) with 0 by lra|replace (2 * qa * root1 + qb + sqrt qd) with 0 by lra]; ring. }
      rewrite <- E, <- Q in Z. apply Rmult_integral in Z. destruct Z; lra.
  Qed.

  Lemma quad_apart : 0 < qd -> root1 < root0.
  Proof.
    intro P. pose proof quad_A as QA. assert (PA : 0 < qa) by lra. pose proof (sqrt_lt_R0 qd P) as S.
    assert (R0 : root0 * (2 * qa) = - qb + sqrt qd) by (unfold root0; field; lra).
    assert (R1 : root1 * (2 * qa) = - qb - sqrt qd) by (unfold root1; field; lra).
    apply (Rmult_lt_reg_r (2 * qa)); lra.
  Qed.

  Lemma quad_none t : qd < 0 -> dist2 (at_t lS lE t) c <> r ^ 2.
  Proof.
    intros N H. pose proof quad_A as QA. pose proof (quad t) as Q. assert (Z : qa * t * t + qb * t + qc = 0) by (rewrite <- Q, H; ring).
    assert (E : qd = (2 * qa * t + qb) * (2 * qa * t + qb) - 4 * qa * (qa * t * t + qb * t + qc)) by (unfold qd; ring).
    rewrite Z in E. pose proof (Rle_0_sqr (2 * qa * t + qb)) as SQ. unfold Rsqr in SQ. lra.
  Qed.

  (* the place next to the centre *)
  Lemma quad_foot : let f := at_t lS lE foot_t in
    (forall t, dist f c <= dist (at_t lS lE t) c) /\ 4 * dist2 lS lE * (r * r - dist2 f c) = reach c r lS lE.
  Proof.
    pose proof quad_A as QA. assert (PA : 0 < qa) by lra. cbv zeta.
    assert (F : 2 * qa * foot_t = - qb) by (unfold foot_t; field; lra). split.
    - intro t. apply sqrt_le_1_alt. pose proof (quad foot_t) as Q1. pose proof (quad t) as Q2.
      assert (E : qa * t * t + qb * t + qc - (qa * foot_t * foot_t + qb * foot_t + qc) = qa * ((t - foot_t) * (t - foot_t))) by (replace qb with (- (2 * qa * foot_t)) by lra; ring).
      assert (0 <= qa * ((t - foot_t) * (t - foot_t))) by (pose proof (Rle_0_sqr (t - foot_t)) as SQ; unfold Rsqr in SQ; apply Rmult_le_pos; lra). lra.
    - pose proof (quad foot_t) as Q1. rewrite <- QA, <- quad_D.
      replace (4 * qa * (r * r - dist2 (at_t lS lE foot_t) c)) with (- (4 * qa * (qa * foot_t * foot_t + qb * foot_t + qc))) by (rewrite <- Q1; ring).
      unfold qd. replace qb with (- (2 * qa * foot_t)) by lra. ring.
  Qed.
End RoundLine.

Lemma at_t_apart lS lE t u : 0 < dist2 lS lE -> same_place (at_t lS lE t) (at_t lS lE u) -> t = u.
Proof.
  intros L [X Y]. unfold at_t in X, Y. cbn [px py] in X, Y. unfold dist2 in L.
  assert ((t - u) * (px lS - px lE) = 0 /\ (t - u) * (py lS - py lE) = 0) as [P Q] by (split; lra).
  destruct (Req_EM_T t u) as [E|E]; [exact E|]. exfalso. assert (t - u <> 0) by lra.
  apply Rmult_integral in P. apply Rmult_integral in Q. destruct P as [P|P]; [lra|]. destruct Q as [Q|Q]; [lra|]. rewrite P, Q in L. lra.
Qed.

Lemma line_apart l : line_in_order l -> 0 < dist2 (s_start l) (s_end l).
Proof.
  intros (_ & _ & A & B & N). pose proof (apart_dist _ _ A B N) as H. rewrite <- dist_sq. nra.
Qed.

Lemma covers_line l p : s_ty l = SLine -> covers l p <-> exists t, 0 <= t <= 1 /\ same_place p (at_t (s_start l) (s_end l) t).
Proof.
  intro T. unfold covers. rewrite T. unfold same_place, at_t. cbn [px py].
  split; intros (t & H & X & Y); exists (1 - t); (split; [lra|split; lra]).
Qed.

(* the first of a pair going counterclockwise *)
Lemma sorted_pair c r a p q : - PI < a <= PI -> 0 < r -> dist2 p c = r ^ 2 -> dist2 q c = r ^ 2 -> ~ same_place p q ->
  let w v := lift a (atan2 (py v - py c) (px v - px c)) in
  (w p < w q /\ before c a p q) \/ (w q < w p /\ before c a q p).
Proof.
  intros A R P Q N. cbv zeta.
  destruct (turn_to_exists c a p) as (v & V). { rewrite (proj1 (dist2_sq_dist _ _ r ltac:(lra)) P). lra. }
  destruct (turn_to_exists c a q) as (w & W). { rewrite (proj1 (dist2_sq_dist _ _ r ltac:(lra)) Q). lra. }
  rewrite <- (turn_to_lift _ _ _ _ A V), <- (turn_to_lift _ _ _ _ A W).
  assert (N' : ~ same_place q p) by (intros [X Y]; apply N; split; auto).
  destruct (Rle_dec v w) as [L|L].
  - left. pose proof (strictly_before c r a p q v w R P Q N V W L). split; [assumption|]. exists v, w. auto.
  - right. assert (L' : w <= v) by lra. pose proof (strictly_before c r a q p w v R Q P N' W V L'). split; [assumption|]. exists w, v. auto.
Qed.

Lemma round_reduce s o : (round_ok s /\ s_ty o = SLine) \/ (s_ty s = SLine /\ round_ok o) -> intersections s o = check_arc_line s o.
Proof.
  intros [[A B]|[B A]]; destruct (round_facts _ A) as (_ & _ & _ & _ & T & _); unfold intersections; rewrite B; destruct T as [T|T]; rewrite T; reflexivity.
Qed.

(* the list of places found, as the code builds it *)
Definition places (c : pt) (r : R) (lS lE : pt) (l : list R) : Prop :=
  NoDup l /\ (length l <= 2)%nat /\ forall t, In t l <-> 0 <= t <= 1 /\ dist2 (at_t lS lE t) c = r ^ 2.

Lemma places_roots c r lS lE t0 t1 : t1 < t0 -> (forall t, dist2 (at_t lS lE t) c = r ^ 2 <-> t = t0 \/ t = t1) ->
  places c r lS lE ((if leb 0 t0 && leb t0 1 then [t0] else []) ++ (if leb 0 t1 && leb t1 1 then [t1] else [])).
Proof.
  intros L H.
  assert (IN : forall t, leb 0 t && leb t 1 = true <-> 0 <= t <= 1) by (intro t; rewrite andb_true_iff, !leb_true; tauto).
  pose proof (IN t0) as I0. pose proof (IN t1) as I1.
  destruct (leb 0 t0 && leb t0 1); destruct (leb 0 t1 && leb t1 1); cbn [app].
  - split; [repeat constructor; [intros [E|[]]; lra|intros []]|]. split; [cbn; lia|].
    intro t. rewrite H. cbn [In]. split.
    + intros [<-|[<-|[]]]; split; auto; tauto.
    + intros [_ [-> | ->]]; auto.
  - split; [repeat constructor; intros []|]. split; [cbn; lia|].
    intro t. rewrite H. cbn [In]. split.
    + intros [<-|[]]; split; auto; tauto.
    + intros [Q [-> | ->]]; auto. apply I1 in Q. discriminate.
  - split; [repeat constructor; intros []|]. split; [cbn; lia|].
    intro t. rewrite H. cbn [In]. split.
    + intros [<-|[]]; split; auto; tauto.
    + intros [Q [-> | ->]]; auto. apply I0 in Q. discriminate.
  - split; [constructor|]. split; [cbn; lia|].
    intro t. rewrite H. cbn [In]. split; [tauto|]. intros [Q [-> | ->]]; [apply I0 in Q|apply I1 in Q]; discriminate.
Qed.

(* the list of the code *)
Definition place_list (c : pt) (r : R) (lS lE : pt) : list R :=
  (if leb 0 (root0 c r lS lE) && leb (root0 c r lS lE) 1 then [root0 c r lS lE] else []) ++
  (if leb 0 (root1 c r lS lE) && leb (root1 c r lS lE) 1 then [root1 c r lS lE] else []).

Lemma place_list_ok c r lS lE : 0 < dist2 lS lE -> 0 < reach c r lS lE -> places c r lS lE (place_list c r lS lE).
Proof.
  intros L P. rewrite <- quad_D in P. apply places_roots; [now apply quad_apart|]. intro t. now apply quad_roots.
Qed.

Definition tip (t : R) : bool := ltb (Rabs t) e8 || ltb (Rabs (t - 1)) e8.
Definition mark_of (a : bool) (t : R) (p arcS arcE : pt) : bool :=
  ((point_matches p arcS e8 || point_matches p arcE e8) && negb a) || ltb (Rabs t) e8 || ltb (Rabs (t - 1)) e8.

Lemma circle_line_core s o a l : (s = a /\ o = l) \/ (s = l /\ o = a) -> full_circle a -> line_in_order l ->
  let c := s_cen a in let r := s_rad a in let lS := s_start l in let lE := s_end l in
  let ang t := atan2 (py (at_t lS lE t) - py c) (px (at_t lS lE t) - px c) in
  intersections s o =
    (if ltb (Rabs (line_reach a l)) e6 then
       if ltb (foot_t c lS lE) 0 || ltb 1 (foot_t c lS lE) then nothing INone else found [at_t lS lE (foot_t c lS lE)] ITangent
     else if ltb (line_reach a l) 0 then nothing INone
     else match place_list c r lS lE with
          | [t] => found [at_t lS lE t] (if tip t then IEndpoint else INone)
          | [t; u] =>
              let swap := if leb 0 (ang t) then leb 0 (ang u) && ltb (ang u) (ang t) else leb 0 (ang u) || ltb (ang u) (ang t) in
              found (if swap then [at_t lS lE u; at_t lS lE t] else [at_t lS lE t; at_t lS lE u]) (if tip t || tip u then IEndpoint else INone)
          | _ => nothing INone
          end).
Proof.
  intros SO FA OL. pose proof FA as (T & R & _). pose proof OL as (T2 & C2 & _).
  assert (RD : intersections s o = check_arc_line s o).
  { apply round_reduce. destruct SO as [[-> ->]|[-> ->]]; [left|right]; split; try assumption; left; assumption. }
  rewrite RD. clear RD.
  assert (EX : (if segty_eqb (s_ty s) SArc || segty_eqb (s_ty s) SCircle then s else o) = a /\ (if segty_eqb (s_ty s) SArc || segty_eqb (s_ty s) SCircle then o else s) = l).
  { destruct SO as [[-> ->]|[-> ->]]; [rewrite T|rewrite T2]; cbn; auto. }
  destruct EX as [EA EL]. unfold check_arc_line. rewrite EA, EL, T.
  assert (G1 : get_start l = s_start l) by (unfold get_start; now rewrite C2). assert (G2 : get_end l = s_end l) by (unfold get_end; now rewrite C2).
  rewrite G1, G2. cbn [segty_eqb negb]. cbv zeta.
  fold (qa (s_start l) (s_end l)). fold (qb (s_cen a) (s_start l) (s_end l)). fold (qc (s_cen a) (s_rad a) (s_end l)).
  fold (qd (s_cen a) (s_rad a) (s_start l) (s_end l)). rewrite quad_D. fold (line_reach a l).
  destruct (ltb (Rabs (line_reach a l)) e6); [rewrite andb_true_l; reflexivity|]. rewrite andb_false_l.
  destruct (ltb (line_reach a l) 0); [reflexivity|].
  unfold place_list, root0, root1. rewrite quad_D. fold (line_reach a l).
  change (negb false) with true. rewrite andb_true_l. unfold tip.
  match goal with |- context [match ?l with [] => _ | _ => _ end] => destruct l as [|t [|u [|v w]]]; try reflexivity end.
  - rewrite !andb_false_r. reflexivity.
  - rewrite !andb_false_r, !orb_false_l. reflexivity.
Qed.

(* the order of the code for circles is the order of the angles counted from 0 on *)
Lemma swap_lift x y : - PI < x <= PI -> - PI < y <= PI ->
  (if leb 0 x then leb 0 y && ltb y x else leb 0 y || ltb y x) = ltb (lift 0 y) (lift 0 x).
Proof.
  intros X Y. pose proof PI_RGT_0 as P. unfold lift.
  destruct (ltb x 0) eqn:A; [apply ltb_true in A|apply ltb_false in A]; destruct (ltb y 0) eqn:B; [apply ltb_true in B|apply ltb_false in B|apply ltb_true in B|apply ltb_false in B].
  - rewrite (leb_f 0 x), (leb_f 0 y) by lra. cbn [orb]. destruct (ltb y x) eqn:C; [apply ltb_true in C; symmetry; apply ltb_t; lra|apply ltb_false in C; symmetry; apply ltb_f; lra].
  - rewrite (leb_f 0 x), (leb_t 0 y) by lra. symmetry. apply ltb_t. lra.
  - rewrite (leb_t 0 x), (leb_f 0 y) by lra. symmetry. apply ltb_f. lra.
  - rewrite (leb_t 0 x), (leb_t 0 y) by lra. reflexivity.
Qed.

Lemma places_common c r lS lE ts (P : pt -> Prop) : 0 < dist2 lS lE -> places c r lS lE ts ->
  (forall t, In t ts -> P (at_t lS lE t)) -> (forall p, P p -> exists t, In t ts /\ same_place p (at_t lS lE t)) ->
  lists (map (at_t lS lE) ts) P.
Proof.
  intros L (N & _ & _) A B. split; [|split].
  - intros p I. apply in_map_iff in I. destruct I as (t & <- & I). auto.
  - intros p I. destruct (B p I) as (t & T & S). exists (at_t lS lE t). split; [now apply in_map|exact S].
  - intros i j p q I J S. rewrite nth_error_map in I, J. destruct (nth_error ts i) as [t|] eqn:E; [|discriminate]. destruct (nth_error ts j) as [u|] eqn:F; [|discriminate].
    injection I as <-. injection J as <-. apply at_t_apart in S; [|exact L]. subst u.
    apply (proj1 (NoDup_nth_error ts) N); [|congruence]. apply nth_error_Some. congruence.
Qed.

Lemma lists_swap p q P : lists [p; q] P -> lists [q; p] P.
Proof.
  intros (A & B & C). split; [|split].
  - intros x I. apply A. cbn in *. tauto.
  - intros x X. destruct (B x X) as (y & I & S). exists y. split; [cbn in *; tauto|exact S].
  - assert (N : ~ same_place p q) by (intro S; specialize (C 0%nat 1%nat p q eq_refl eq_refl S); discriminate).
    intros i j x y I J S. destruct i as [|[|i]]; destruct j as [|[|j]]; cbn in I, J; try reflexivity; try (destruct i; discriminate); try (destruct j; discriminate).
    + injection I as <-. injection J as <-. exfalso. apply N. destruct S; split; auto.
    + injection I as <-. injection J as <-. exfalso. now apply N.
Qed.

Lemma same_dist2 p q c : same_place p q -> dist2 p c = dist2 q c.
Proof. intros [X Y]. unfold dist2. now rewrite X, Y. Qed.

Lemma common_circle_line a l p : full_circle a -> line_in_order l ->
  common a l p <-> exists t, (0 <= t <= 1 /\ dist2 (at_t (s_start l) (s_end l) t) (s_cen a) = s_rad a ^ 2) /\ same_place p (at_t (s_start l) (s_end l) t).
Proof.
  intros FA OL. pose proof FA as (T & R & _). pose proof OL as (T2 & _). unfold common. rewrite (covers_line l) by assumption.
  rewrite (covers_circle a) by assumption. split.
  - intros [D (t & T3 & S)]. exists t. split; [split; [exact T3|]|exact S]. rewrite <- (same_dist2 _ _ _ S). apply dist2_sq_dist; [lra|assumption].
  - intros (t & [T3 D] & S). split; [|eauto]. apply dist2_sq_dist; [lra|]. rewrite (same_dist2 _ _ _ S). exact D.
Qed.

(* a circle and a line *)
Lemma circle_line_spec s o a l : (s = a /\ o = l) \/ (s = l /\ o = a) -> full_circle a -> line_in_order l ->
  (e6 <= line_reach a l -> exists ps, lists ps (common a l) /\ (length ps <= 2)%nat /\
     (exists f, intersections s o = (match ps with [] => nothing INone | _ => found ps f end) /\
        (f = IEndpoint /\ (exists t, 0 <= t <= 1 /\ at_tip t /\ In (at_t (s_start l) (s_end l) t) ps) \/
         f = INone /\ (forall t, In (at_t (s_start l) (s_end l) t) ps -> ~ at_tip t))) /\
     (forall p q, ps = [p; q] -> before (s_cen a) 0 p q)) /\
  (line_reach a l <= - e6 -> intersections s o = nothing INone /\ forall p, ~ common a l p) /\
  (Rabs (line_reach a l) < e6 -> exists t, let f := at_t (s_start l) (s_end l) t in
     (forall t', dist f (s_cen a) <= dist (at_t (s_start l) (s_end l) t') (s_cen a)) /\
     4 * dist2 (s_start l) (s_end l) * (s_rad a * s_rad a - dist2 f (s_cen a)) = line_reach a l /\
     (0 <= t <= 1 -> intersections s o = found [f] ITangent) /\ (~ 0 <= t <= 1 -> intersections s o = nothing INone)).
Proof.
  intros SO FA OL. pose proof FA as (T & R & _). pose proof OL as (T2 & C2 & _). pose proof (line_apart l OL) as LA.
  rewrite (circle_line_core s o a l SO FA OL). cbv zeta. pose proof (common_circle_line a l) as CM. specialize (fun p => CM p FA OL).
  assert (E6 : 0 < e6) by (unfold e6; lra). pose proof PI_RGT_0 as PP.
  set (lS := s_start l) in *. set (lE := s_end l) in *. set (c := s_cen a) in *. set (r := s_rad a) in *.
  split; [|split].
  - intro G. rewrite (ltb_f (Rabs (line_reach a l))) by (rewrite Rabs_right; lra). rewrite (ltb_f (line_reach a l)) by lra.
    assert (PL : places c r lS lE (place_list c r lS lE)) by (apply place_list_ok; [exact LA|change (reach c r lS lE) with (line_reach a l); lra]).
    assert (LI : lists (map (at_t lS lE) (place_list c r lS lE)) (common a l)).
    { apply (places_common c r); try assumption.
      - intros t I. apply PL in I. apply CM. exists t. split; [exact I|split; reflexivity].
      - intros p H. apply CM in H. destruct H as (t & I & S). exists t. split; [now apply PL|exact S]. }
    assert (TT : forall v, tip v = true <-> at_tip v) by (intro v; unfold tip; rewrite orb_true_iff, !ltb_true; reflexivity).
    assert (AE : forall t u, at_t lS lE t = at_t lS lE u -> t = u) by (intros t u E; apply (at_t_apart lS lE); [exact LA|rewrite E; split; reflexivity]).
    destruct PL as (ND & LE2 & PI2).
    destruct (place_list c r lS lE) as [|t [|u [|v w]]]; [..|cbn in LE2; lia]; cbn [map] in LI.
    + exists []. split; [exact LI|]. split; [cbn; lia|]. split; [|discriminate]. exists INone. split; [reflexivity|]. right. split; [reflexivity|intros t []].
    + exists [at_t lS lE t]. split; [exact LI|]. split; [cbn; lia|]. split; [|discriminate]. eexists. split; [reflexivity|].
      destruct (tip t) eqn:Q.
      * left. split; [reflexivity|]. exists t. split; [apply PI2; now left|]. split; [now apply TT|now left].
      * right. split; [reflexivity|]. intros t' [E|[]] H. apply AE in E. subst t'. apply TT in H. congruence.
    + assert (DT : dist2 (at_t lS lE t) c = r ^ 2) by (apply PI2; now left). assert (DU : dist2 (at_t lS lE u) c = r ^ 2) by (apply PI2; right; now left).
      assert (NS : ~ same_place (at_t lS lE t) (at_t lS lE u)).
      { intro S. apply at_t_apart in S; [|exact LA]. subst u. inversion ND as [|? ? NI]. apply NI. now left. }
      pose proof (sorted_pair c r 0 _ _ ltac:(lra) R DT DU NS) as SP. cbv zeta in SP.
      rewrite swap_lift by apply atan2_range.
      assert (FL : forall ps, (forall x, In x ps <-> x = at_t lS lE t \/ x = at_t lS lE u) ->
         ((if tip t || tip u then IEndpoint else INone) = IEndpoint /\ (exists t0, 0 <= t0 <= 1 /\ at_tip t0 /\ In (at_t lS lE t0) ps) \/
         (if tip t || tip u then IEndpoint else INone) = INone /\ (forall t0, In (at_t lS lE t0) ps -> ~ at_tip t0))).
      { intros ps IP. destruct (tip t) eqn:Q1; [|destruct (tip u) eqn:Q2]; cbn [orb].
        - left. split; [reflexivity|]. exists t. split; [apply PI2; now left|]. split; [now apply TT|apply IP; now left].
        - left. split; [reflexivity|]. exists u. split; [apply PI2; right; now left|]. split; [now apply TT|apply IP; now right].
        - right. split; [reflexivity|]. intros t0 I H. apply IP in I. apply TT in H. destruct I as [E|E]; apply AE in E; subst t0; congruence. }
      destruct SP as [[L B]|[L B]].
      * rewrite ltb_f by lra. exists [at_t lS lE t; at_t lS lE u]. split; [exact LI|]. split; [cbn; lia|]. split.
        -- eexists. split; [reflexivity|]. apply FL. intro x. cbn. intuition.
        -- intros p q E. injection E as <- <-. exact B.
      * rewrite ltb_t by lra. exists [at_t lS lE u; at_t lS lE t]. split; [now apply lists_swap|]. split; [cbn; lia|]. split.
        -- eexists. split; [reflexivity|]. apply FL. intro x. cbn. intuition.
        -- intros p q E. injection E as <- <-. exact B.
  - intro G. rewrite (ltb_f (Rabs (line_reach a l))) by (rewrite Rabs_left; lra). rewrite ltb_t by lra. split; [reflexivity|].
    intros p H. apply CM in H. destruct H as (t & [_ H] & _). revert H. apply quad_none. rewrite quad_D. change (reach c r lS lE) with (line_reach a l). lra.
  - intro G. exists (foot_t c lS lE). rewrite (ltb_t (Rabs (line_reach a l))) by assumption. destruct (quad_foot c r lS lE LA) as [F1 F2]. split; [exact F1|]. split; [exact F2|]. split.
    + intro I. rewrite !ltb_f by lra. reflexivity.
    + intro I. destruct (ltb (foot_t c lS lE) 0 || ltb 1 (foot_t c lS lE)) eqn:Q; [reflexivity|]. apply orb_false_iff in Q. rewrite !ltb_false in Q. exfalso. apply I. lra.
Qed.
