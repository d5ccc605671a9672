(** A line and an arc. *)

From Coq Require Import Reals Lra Psatz List Bool ZArith Lia.
From Verif Require Import SegModel SegSpec SegTrig SegFacts SegBox SegSplit SegSplitArc CutModel CutSpec CutFacts CutCircle CutArc CutLine.
Import ListNotations.
Open Scope R_scope.

Definition arc_mark (a : seg) (this_round : bool) (lS lE : pt) (t : R) : bool :=
  (point_matches (at_t lS lE t) (if this_round then s_start a else get_start a) e8
   || point_matches (at_t lS lE t) (if this_round then s_end a else get_end a) e8) || ltb (Rabs t) e8 || ltb (Rabs (t - 1)) e8.

Definition arc_hit (s a : seg) (lS lE : pt) (t : R) : bool :=
  let x := atan2 (py (at_t lS lE t) - py (s_cen a)) (px (at_t lS lE t) - px (s_cen a)) in
  (leb (start_angle a) x && leb x (end_angle a)) || (leb (start_angle a) (x + 2 * PI) && leb (x + 2 * PI) (end_angle a))
  || near14 (at_t lS lE t) (s_start s) || near14 (at_t lS lE t) (s_end s).

Lemma arc_line_core s o a l : (s = a /\ o = l) \/ (s = l /\ o = a) -> arc_ok a -> line_in_order l ->
  let c := s_cen a in let r := s_rad a in let lS := s_start l in let lE := s_end l in
  let tr := segty_eqb (s_ty s) SArc || segty_eqb (s_ty s) SCircle in
  let ang t := atan2 (py (at_t lS lE t) - py c) (px (at_t lS lE t) - px c) in
  intersections s o =
    (if ltb (line_reach a l) 0 then nothing INone
     else if ltb (Rabs (line_reach a l)) e6 then
       if (leb 0 (foot_t c lS lE) && leb (foot_t c lS lE) 1) && arc_hit s a lS lE (foot_t c lS lE) then found [at_t lS lE (foot_t c lS lE)] ITangent else nothing INone
     else match filter (arc_hit s a lS lE) (place_list c r lS lE) with
          | [] => nothing INone
          | [t] => found [at_t lS lE t] (if match place_list c r lS lE with u :: _ => arc_mark a tr lS lE u | [] => false end then IEndpoint else INone)
          | t :: u :: _ =>
              found (if ltb (lift (start_angle a) (ang t)) (lift (start_angle a) (ang u)) then [at_t lS lE t; at_t lS lE u] else [at_t lS lE u; at_t lS lE t])
                    (if arc_mark a tr lS lE t || arc_mark a tr lS lE u then IEndpoint else INone)
          end).
Proof.
  intros SO AO OL. pose proof AO as ((d & T & _) & _). pose proof OL as (T2 & C2 & _).
  assert (RD : intersections s o = check_arc_line s o).
  { apply round_reduce. destruct SO as [[-> ->]|[-> ->]]; [left|right]; split; try assumption; right; assumption. }
  rewrite RD. clear RD.
  assert (EX : (if segty_eqb (s_ty s) SArc || segty_eqb (s_ty s) SCircle then s else o) = a /\ (if segty_eqb (s_ty s) SArc || segty_eqb (s_ty s) SCircle then o else s) = l).
  { destruct SO as [[-> ->]|[-> ->]]; [rewrite T|rewrite T2]; cbn; auto. }
  destruct EX as [EA EL]. unfold check_arc_line. rewrite EA, EL, T.
  assert (G1 : get_start l = s_start l) by (unfold get_start; now rewrite C2). assert (G2 : get_end l = s_end l) by (unfold get_end; now rewrite C2).
  rewrite G1, G2. cbn [segty_eqb negb]. cbv zeta.
  fold (qa (s_start l) (s_end l)). fold (qb (s_cen a) (s_start l) (s_end l)). fold (qc (s_cen a) (s_rad a) (s_end l)).
  fold (qd (s_cen a) (s_rad a) (s_start l) (s_end l)). rewrite quad_D. fold (line_reach a l).
  rewrite andb_false_r.
  destruct (ltb (line_reach a l) 0); [reflexivity|].
  set (tr := segty_eqb (s_ty s) SArc || segty_eqb (s_ty s) SCircle).
  destruct (ltb (Rabs (line_reach a l)) e6).
  - change (negb true) with false. rewrite andb_false_l, app_nil_r. fold (foot_t (s_cen a) (s_start l) (s_end l)).
    destruct (leb 0 (foot_t (s_cen a) (s_start l) (s_end l)) && leb (foot_t (s_cen a) (s_start l) (s_end l)) 1); [|reflexivity].
    cbn [filter andb]. unfold arc_hit. cbv zeta. match goal with |- context [if ?b then [_] else []] => destruct b; reflexivity end.
  - change (negb false) with true. rewrite andb_true_l.
    unfold place_list, root0, root1. rewrite quad_D. fold (line_reach a l).
    match goal with |- match filter ?h ?ts with [] => _ | _ => _ end = _ => change h with (arc_hit s a (s_start l) (s_end l)); generalize ts end. intro ts.
    unfold arc_mark, lift. destruct (filter (arc_hit s a (s_start l) (s_end l)) ts) as [|t [|u w]]; [reflexivity| |].
    + destruct ts as [|v ts]; [reflexivity|]. change (negb false) with true. rewrite andb_true_r. reflexivity.
    + change (negb false) with true. rewrite !andb_true_r. reflexivity.
Qed.

Lemma arc_hit_spec s a lS lE t : arc_ok a -> dist2 (at_t lS lE t) (s_cen a) = s_rad a ^ 2 ->
  arc_hit s a lS lE t = true <-> covers a (at_t lS lE t) \/ end_near s (at_t lS lE t).
Proof.
  intros AO D. destruct (round_facts a (or_intror AO)) as (R & A0 & A1 & _ & _ & _ & A2). pose proof AO as ((d & T & _) & _).
  apply dist2_sq_dist in D; [|lra].
  pose proof (within_arc_spec (s_cen a) (s_rad a) (at_t lS lE t) (start_angle a) (end_angle a) A0 A1 R D) as W.
  assert (CV : covers a (at_t lS lE t) <-> exists w, start_angle a <= w <= end_angle a /\ on_round (s_cen a) (s_rad a) w (at_t lS lE t)).
  { unfold covers. rewrite T. reflexivity. }
  rewrite CV, <- W. unfold arc_hit, end_near, near14. cbv zeta. cbn [px py].
  rewrite !orb_true_iff, !andb_true_iff, !leb_true, !ltb_true. pose proof two_pi as P2.
  pose proof (atan2_range (py (at_t lS lE t) - py (s_cen a)) (px (at_t lS lE t) - px (s_cen a))) as XR.
  change (at_t lS lE t) with (mkPt (t * px lS + (1 - t) * px lE) (t * py lS + (1 - t) * py lE) 0) in *. cbn [px py] in *.
  set (x := atan2 (t * py lS + (1 - t) * py lE - py (s_cen a)) (t * px lS + (1 - t) * px lE - px (s_cen a))) in *.
  assert (WX : within_arc x (start_angle a) (end_angle a) = true <-> (start_angle a <= x /\ x <= end_angle a) \/ (start_angle a <= x + 2 * PI /\ x + 2 * PI <= end_angle a)).
  { unfold within_arc. cbv zeta. destruct (ltb (end_angle a) x) eqn:Q1; [apply ltb_true in Q1|apply ltb_false in Q1].
    - rewrite (ltb_t (x - 2 * PI)) by lra. rewrite leb_true. split; intro; lra.
    - destruct (ltb x (start_angle a)) eqn:Q2; [apply ltb_true in Q2|apply ltb_false in Q2]; rewrite leb_true; split; intro; lra. }
  rewrite WX. tauto.
Qed.

Lemma covers_place s p q : same_place p q -> covers s p -> covers s q.
Proof.
  intros [X Y]. unfold covers, on_round, dist2. destruct (s_ty s); rewrite ?X, ?Y; auto.
Qed.
Lemma end_near_place s p q : same_place p q -> end_near s p -> end_near s q.
Proof. intros [X Y]. unfold end_near. now rewrite X, Y. Qed.
Lemma place_sym p q : same_place p q -> same_place q p.
Proof. intros [X Y]; split; auto. Qed.

Lemma nodup_lists lS lE ts (P : pt -> Prop) : 0 < dist2 lS lE -> NoDup ts ->
  (forall t, In t ts -> P (at_t lS lE t)) -> (forall p, P p -> exists t, In t ts /\ same_place p (at_t lS lE t)) ->
  lists (map (at_t lS lE) ts) P.
Proof.
  intros L N A B. split; [|split].
  - intros p I. apply in_map_iff in I. destruct I as (t & <- & I). auto.
  - intros p I. destruct (B p I) as (t & T & S). exists (at_t lS lE t). split; [now apply in_map|exact S].
  - intros i j p q I J S. rewrite nth_error_map in I, J. destruct (nth_error ts i) as [t|] eqn:E; [|discriminate]. destruct (nth_error ts j) as [u|] eqn:F; [|discriminate].
    injection I as <-. injection J as <-. apply at_t_apart in S; [|exact L]. subst u.
    apply (proj1 (NoDup_nth_error ts) N); [|congruence]. apply nth_error_Some. congruence.
Qed.

Lemma filter_le (A : Type) (f : A -> bool) l : (length (filter f l) <= length l)%nat.
Proof. induction l as [|x l IH]; cbn; [lia|]. destruct (f x); cbn; lia. Qed.

Lemma arc_line_spec s o a l : (s = a /\ o = l) \/ (s = l /\ o = a) -> arc_ok a -> line_in_order l ->
  (e6 <= line_reach a l -> exists ps, lists ps (met s a l) /\ (length ps <= 2)%nat /\
     (exists f, intersections s o = (match ps with [] => nothing INone | _ => found ps f end) /\ (f = INone \/ f = IEndpoint)) /\
     (forall p q, ps = [p; q] -> before (s_cen a) (start_angle a) p q)) /\
  (line_reach a l < 0 -> intersections s o = nothing INone /\ forall p, ~ common a l p) /\
  (0 <= line_reach a l < e6 -> intersections s o = nothing INone \/
     exists t, 0 <= t <= 1 /\ let f := at_t (s_start l) (s_end l) t in intersections s o = found [f] ITangent /\
     (forall t', dist f (s_cen a) <= dist (at_t (s_start l) (s_end l) t') (s_cen a))).
Proof.
  intros SO AO OL. pose proof OL as (T2 & C2 & _). pose proof (line_apart l OL) as LA. destruct (round_facts a (or_intror AO)) as (R & A0 & A1 & _). pose proof AO as ((d & T & _) & _).
  rewrite (arc_line_core s o a l SO AO OL). cbv zeta.
  assert (E6 : 0 < e6) by (unfold e6; lra). pose proof PI_RGT_0 as PP.
  pose proof (arc_hit_spec s a (s_start l) (s_end l)) as HS.
  pose proof (fun p => covers_line l p T2) as CL.
  set (tr := segty_eqb (s_ty s) SArc || segty_eqb (s_ty s) SCircle).
  set (lS := s_start l) in *. set (lE := s_end l) in *.
  split; [|split].
  - intro G. rewrite (ltb_f (line_reach a l)) by lra. rewrite (ltb_f (Rabs (line_reach a l))) by (rewrite Rabs_right; lra).
    assert (PL : places (s_cen a) (s_rad a) lS lE (place_list (s_cen a) (s_rad a) lS lE)) by (apply place_list_ok; [exact LA|change (reach (s_cen a) (s_rad a) lS lE) with (line_reach a l); lra]).
    destruct PL as (ND & LE2 & PI2).
    pose proof (filter_le _ (arc_hit s a lS lE) (place_list (s_cen a) (s_rad a) lS lE)) as FL.
    pose proof (NoDup_filter (arc_hit s a lS lE) ND) as NF.
    assert (FI : forall t, In t (filter (arc_hit s a lS lE) (place_list (s_cen a) (s_rad a) lS lE)) -> dist2 (at_t lS lE t) (s_cen a) = s_rad a ^ 2).
    { intros t I. apply filter_In in I. apply PI2. tauto. }
    assert (LI : lists (map (at_t lS lE) (filter (arc_hit s a lS lE) (place_list (s_cen a) (s_rad a) lS lE))) (met s a l)).
    { apply nodup_lists; try assumption.
      - intros t I. apply filter_In in I. destruct I as [I H]. apply PI2 in I. destruct I as [I D]. split; [apply CL; exists t; split; [exact I|split; reflexivity]|].
        split; [apply dist2_sq_dist; [lra|exact D]|]. apply HS; assumption.
      - intros p (M & D & H). apply CL in M. destruct M as (t & I & S). apply dist2_sq_dist in D; [|lra]. rewrite (same_dist2 _ _ _ S) in D.
        exists t. split; [|exact S]. apply filter_In. split; [now apply PI2|]. apply HS; [assumption|assumption|]. destruct H as [H|H]; [left; now apply (covers_place a p)|right; now apply (end_near_place s p)]. }
    destruct (filter (arc_hit s a lS lE) (place_list (s_cen a) (s_rad a) lS lE)) as [|t [|u [|v w]]]; [..|cbn in FL; lia]; cbn [map] in LI.
    + exists []. split; [exact LI|]. split; [cbn; lia|]. split; [|discriminate]. exists INone. auto.
    + exists [at_t lS lE t]. split; [exact LI|]. split; [cbn; lia|]. split; [|discriminate]. eexists. split; [reflexivity|].
      match goal with |- context [if ?b then _ else _] => destruct b end; auto.
    + assert (DT := FI t (or_introl eq_refl)). assert (DU := FI u (or_intror (or_introl eq_refl))).
      assert (NS : ~ same_place (at_t lS lE t) (at_t lS lE u)).
      { intro S. apply at_t_apart in S; [|exact LA]. subst u. inversion NF as [|? ? NI]. apply NI. now left. }
      pose proof (sorted_pair (s_cen a) (s_rad a) (start_angle a) _ _ A0 R DT DU NS) as SP. cbv zeta in SP.
      destruct SP as [[L B]|[L B]].
      * rewrite ltb_t by lra. exists [at_t lS lE t; at_t lS lE u]. split; [exact LI|]. split; [cbn; lia|]. split.
        -- eexists. split; [reflexivity|]. match goal with |- context [if ?b then _ else _] => destruct b end; auto.
        -- intros p q E. injection E as <- <-. exact B.
      * rewrite ltb_f by lra. exists [at_t lS lE u; at_t lS lE t]. split; [now apply lists_swap|]. split; [cbn; lia|]. split.
        -- eexists. split; [reflexivity|]. match goal with |- context [if ?b then _ else _] => destruct b end; auto.
        -- intros p q E. injection E as <- <-. exact B.
  - intro G. rewrite ltb_t by assumption. split; [reflexivity|]. intros p [CA CP]. apply CL in CP. destruct CP as (t & _ & S). apply (covers_place a p _ S) in CA.
    assert (D : dist2 (at_t lS lE t) (s_cen a) = s_rad a ^ 2).
    { unfold covers in CA. rewrite T in CA. destruct CA as (w & _ & O). apply on_round_dist in O. rewrite O. ring. }
    revert D. apply quad_none. rewrite quad_D. change (reach (s_cen a) (s_rad a) lS lE) with (line_reach a l). lra.
  - intro G. rewrite (ltb_f (line_reach a l)) by lra. rewrite ltb_t by (rewrite Rabs_right; lra).
    destruct (leb 0 (foot_t (s_cen a) lS lE) && leb (foot_t (s_cen a) lS lE) 1) eqn:Q; [|left; reflexivity]. rewrite andb_true_l.
    destruct (arc_hit s a lS lE (foot_t (s_cen a) lS lE)); [|left; reflexivity].
    right. exists (foot_t (s_cen a) lS lE). rewrite andb_true_iff, !leb_true in Q. split; [exact Q|]. cbv zeta. split; [reflexivity|].
    apply (quad_foot (s_cen a) (s_rad a) lS lE LA).
Qed.
