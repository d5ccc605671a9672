(** Which segments are sharp, where the box of a board is, the cylinder by itself, and
    boards on which the theorems can be tried. *)

From Coq Require Import Reals List Bool ZArith Lra Lia.
From Verif Require Import SegModel SegSpec SegTrig SegFacts SegBox SegSplit SegProps CutSpec CutCases OutModel OutSpec OutFacts OutBox OutArea OutDraw PcbModel PcbSpec PcbCurve PcbPlane PcbCyl PcbWall PcbFace PcbDone PcbBoard.
Import ListNotations.
Open Scope R_scope.

(** ** Which segments are sharp *)

Lemma set_line_sharp a b s : set_line a b = (true, s) -> sharp s.
Proof.
  intro H. destruct (set_line_claim a b) as (s' & [(E & A & B & N & L & SA & SB)|(E & _)]); rewrite H in E; [injection E as <-|discriminate].
  unfold sharp. destruct L as (-> & _). now rewrite SA, SB.
Qed.

Lemma set_arc_sharp c a b cw s : set_arc c a b cw = (true, s) -> ~ one_point a b e8 -> dist a c = dist b c -> sharp s.
Proof.
  intros H N D. destruct (set_arc_spec c a b cw) as (I & _ & _ & J). rewrite H in I, J. cbn [fst snd] in *.
  destruct (proj1 I eq_refl) as (C & A & B & CA & CB & [Q|Q]); [contradiction|]. specialize (J eq_refl N).
  destruct (arc_of_order c a b cw C A B CA CB N Q) as (O & P & Z). rewrite <- J in *. destruct O as (T & R & _ & _ & L & L2 & _).
  unfold sharp. rewrite T. subst s. cbn [arc_of s_cen s_start s_end] in *.
  assert (RB : on_round c (dist b c) (atan2 (py b - py c) (px b - px c)) b).
  { assert (DB : 0 < dist b c) by (rewrite <- D; exact R).
    destruct (atan2_point (px b - px c) (py b - py c)) as [X Y].
    { destruct (Req_dec (px b - px c) 0) as [X|X]; [|now left]. destruct (Req_dec (py b - py c) 0) as [Y|Y]; [|now right]. exfalso.
      unfold dist, dist2 in DB. rewrite X, Y in DB. replace (0^2 + 0^2) with 0 in DB by ring. rewrite sqrt_0 in DB. lra. }
    assert (E : sqrt ((px b - px c) * (px b - px c) + (py b - py c) * (py b - py c)) = dist b c) by (unfold dist, dist2; f_equal; ring).
    rewrite E in X, Y. split; lra. }
  assert (C1 : course (arc_of c a b cw) 1 b).
  { unfold course, arc_of. cbn [s_ty s_cen s_rad s_sang s_eang s_start s_end]. rewrite D.
    match goal with |- on_round c _ (?u + 1 * (?v - ?u)) b => replace (u + 1 * (v - u)) with v by ring end.
    destruct (negb cw && _); [|exact RB]. destruct RB as [X Y]. split; [rewrite cos_turn|rewrite sin_turn]; assumption. }
  do 3 (split; [assumption|]). split; [exact R|]. split; [exact P|]. split; [split; assumption|]. tauto.
Qed.

(** ** The box of a board *)

Lemma sharp_touched s : sharp s ->
  (exists p, covers s p /\ px p = px (fst (seg_box s))) /\ (exists p, covers s p /\ py p = py (fst (seg_box s))) /\
  (exists p, covers s p /\ px p = px (snd (seg_box s))) /\ (exists p, covers s p /\ py p = py (snd (seg_box s))).
Proof.
  intro SH. unfold seg_box. destruct (s_ty s) eqn:T.
  - now apply sharp_type in SH.
  - destruct (line_box_bounds s origin origin T) as (b & -> & _ & A & B & C & D). tauto.
  - destruct (sharp_ends s SH T) as (_ & _ & O). destruct (arc_box_bounds 0 s origin origin O) as (b & -> & K & (p & P & A) & (q & Q & B) & (u & U & C) & (v & V & D)). cbn [snd].
    pose proof (K p P). pose proof (K q Q). pose proof (K u U). pose proof (K v V). repeat split; [exists p|exists u|exists q|exists v]; (split; [assumption|lra]).
  - unfold sharp in SH. rewrite T in SH. destruct (circle_box_bounds s origin origin T ltac:(tauto)) as (b & -> & _ & A & B & C & D). tauto.
Qed.

Lemma join_least b c d : within b d -> within c d -> within (join_box b c) d.
Proof.
  destruct b as [b0 b1], c as [c0 c1], d as [d0 d1]. unfold within, join_box. cbn [fst snd px py]. intros (A1 & A2 & A3 & A4) (B1 & B2 & B3 & B4).
  destruct (ltb (px c0) (px b0)), (ltb (py c0) (py b0)), (ltb (px b1) (px c1)), (ltb (py b1) (py c1)); lra.
Qed.
Lemma fold_least l d : forall b, within b d -> (forall c, In c l -> within c d) -> within (fold_left join_box l b) d.
Proof.
  induction l as [|x l IH]; intros b B H; cbn [fold_left]; [exact B|]. apply IH; [apply join_least; [exact B|apply H; now left]|]. intros c I. apply H. now right.
Qed.

(** All segments in the square from -m to m: the box is computed and not much larger. *)
Lemma calc_box_home o m : Forall sharp (o_segs o) -> o_closed o = true -> o_segs o <> [] -> 0 <= m <= 10^9 ->
  (forall s p, In s (o_segs o) -> covers s p -> - m <= px p <= m /\ - m <= py p <= m) ->
  exists o', calc_box o = Some o' /\ px (o_tr o') - px (o_bl o') < 2 * m + 3 /\ - m - 1 < px (o_bl o') /\ - m - 1 < py (o_bl o').
Proof.
  intros SH CL NE M H. destruct (o_segs o) as [|s l] eqn:E; [now destruct NE|].
  set (B := (mkPt (- m) (- m) 0, mkPt m m 0)).
  assert (WB : forall x, In x (s :: l) -> within (seg_box x) B).
  { intros x I. rewrite Forall_forall in SH. destruct (sharp_touched x (SH x I)) as ((p1 & C1 & D1) & (p2 & C2 & D2) & (p3 & C3 & D3) & (p4 & C4 & D4)).
    apply (H x) in C1, C2, C3, C4; try assumption. unfold within, B. cbn [fst snd px py]. lra. }
  inversion_clear SH as [|? ? S1 SL].
  destruct (box_xy s (o_bl o) (o_tr o) (sharp_type s S1)) as (B1 & B2 & B3 & B4).
  pose proof (WB s (or_introl eq_refl)) as W1.
  assert (WF : within (fold_left join_box (map seg_box l) (snd (get_box s (o_bl o) (o_tr o)))) B).
  { apply fold_least; [unfold within in *; rewrite B1, B2, B3, B4; exact W1|]. intros c I. apply in_map_iff in I. destruct I as (x & <- & I). apply WB. now right. }
  destruct (fold_within (map seg_box l) (snd (get_box s (o_bl o) (o_tr o)))) as [WL _].
  assert (OR : px (fst (seg_box s)) <= px (snd (seg_box s)) + 2 * e8 /\ py (fst (seg_box s)) <= py (snd (seg_box s)) + 2 * e8).
  { destruct (sharp_touched s S1) as ((p1 & C1 & _) & _). apply (sharp_in_box s p1 S1) in C1. unfold in_box in C1. lra. }
  unfold calc_box. rewrite E, CL. cbn [negb].
  destruct (fold_left join_box (map seg_box l) (snd (get_box s (o_bl o) (o_tr o)))) as [b0 b1].
  unfold within, B in WF, WL. cbn [fst snd px py] in WF, WL. rewrite B1, B2, B3, B4 in WL. unfold e8 in OR.
  destruct (adjust_total b0 b1) as (bl & tr & J); try lra. rewrite J. eexists. split; [reflexivity|]. cbn [o_bl o_tr].
  destruct (adjust_spec _ _ _ _ J) as (X & Y & _ & _ & i & j & k & A1 & A2 & A3 & A4 & K). rewrite plus_IZR in A3. lra.
Qed.

Theorem trimmed_plane_defined res b z rev : all_sharp b -> (forall s p, In s (o_segs (b_out b)) -> covers s p -> near_home p) -> trimmed_plane res b z rev <> None.
Proof.
  intros SH H. unfold trimmed_plane.
  assert (X : exists o', calc_box (b_out b) = Some o').
  { destruct (o_segs (b_out b)) as [|s l] eqn:E; [unfold calc_box; rewrite E; eexists; reflexivity|]. destruct (o_closed (b_out b)) eqn:K; [|unfold calc_box; rewrite E, K; eexists; reflexivity].
    destruct (calc_box_home (b_out b) (10^9 - 1)) as (o' & C & _).
    - unfold all_sharp, board_segs in SH. rewrite Forall_app in SH. tauto.
    - exact K.
    - rewrite E. discriminate.
    - lra.
    - intros s' p I C. rewrite E in I. exact (H s' p I C).
    - exists o'. exact C. }
  destruct X as (o' & ->). destruct (negb (o_closed o')); [discriminate|]. destruct (o_segs o'); [discriminate|].
  destruct (plane_bound _ _ _ _ _ _); [|discriminate]. destruct (all_some _); discriminate.
Qed.

(** ** The cylinder by itself *)

Lemma parts_follow o r z a b w l v : 0 < r -> parts o r a b w l v ->
  follows goes (fun t p => on_round o r t p /\ pz p = z) w (map (fun x => CArc z o (fst (fst x)) (snd (fst x)) None) l) v.
Proof.
  intro P. induction 1 as [w|w w' v p q g h l W A B _ _ _ _ _ _ _ _ _ IH]; cbn [map fst snd]; [constructor|]. pose proof PI_RGT_0.
  apply (follows_cons _ _ _ w'); [lra| |exact IH]. intros t x _. replace w' with (w + (w' - w)) in B by ring.
  apply (arc_goes_plain z o p q r w (w' - w) t x P ltac:(lra) A B).
Qed.

Lemma cyl_angles_length a b : (length (cyl_angles a b) <= 3)%nat.
Proof. unfold cyl_angles. cbv zeta. repeat match goal with |- context [if ?x then _ else _] => destruct x end; cbn; lia. Qed.

Lemma forall2_length {A B} {P : A -> B -> Prop} {l l'} : Forall2 P l l' -> length l = length l'.
Proof. induction 1; cbn; congruence. Qed.

(** A cylinder which is accepted is that over an arc. *)
Lemma cyl_is_arc c a b : fst (set_cyl c a b) = true -> ~ one_point a b e8 -> dist a c = dist b c ->
  exists s, set_arc c a b false = (true, s) /\ sharp s /\ s_ty s = SArc /\ s_cen s = c /\ s_cw s = false /\ get_start s = a /\ get_end s = b.
Proof.
  intros H N D. apply set_cyl_accepts in H. destruct H as (C & A & B & CA & CB & Q). destruct (set_arc_spec c a b false) as (I & _).
  assert (K : fst (set_arc c a b false) = true) by (apply I; repeat split; try assumption; right; now rewrite Rabs_minus_sym).
  destruct (set_arc c a b false) as [r s] eqn:E. cbn [fst] in K. subst r. exists s. split; [reflexivity|]. split; [exact (set_arc_sharp _ _ _ _ _ E N D)|].
  destruct (arc_made _ _ _ _ _ E N) as (T & SC & SA & SB & CW & _). unfold get_start, get_end. rewrite CW. tauto.
Qed.

Lemma cyl_is_wall res s top bot rev : s_ty s = SArc -> s_cw s = false -> cyl_make res (snd (set_cyl (s_cen s) (get_start s) (get_end s))) top bot rev = segment_wall res top bot s rev.
Proof.
  intros T CW. unfold segment_wall. rewrite T, CW.
  destruct (Rlt_dec (Rabs (top - bot)) e6) as [L|L]; [rewrite (ltb_t _ _ L)|now rewrite (ltb_f (Rabs (top - bot)) e6) by lra].
  unfold cyl_make. destruct (c_angs _); [reflexivity|]. rewrite ltb_t; [reflexivity|]. unfold e6 in L. lra.
Qed.

Theorem cyl_alone res c a b top bot rev l : fst (set_cyl c a b) = true -> ~ one_point a b e8 -> dist a c = dist b c ->
  cyl_make res (snd (set_cyl c a b)) top bot rev = Some l ->
  (1 <= length l <= 3)%nat /\ Forall (fun t => bound_agrees (t_surf t) (t_out t) /\ t_in t = []) l /\
  exists tops, Forall2 (fun t k => exists r, b_geo (t_out t) = k :: r) l tops /\ follows goes (goes (CArc (Rmax top bot) c a b None)) 0 tops 1.
Proof.
  intros H N D M. destruct (cyl_is_arc c a b H N D) as (s & E & SH & T & <- & CW & <- & <-).
  destruct (cyl_make_parts _ _ _ _ _ _ M) as (AN & _ & F).
  destruct (cyl_for_seg s SH (or_introl T)) as (_ & CC & CR & _ & PT).
  assert (P : 0 < s_rad s) by (unfold sharp in SH; rewrite T in SH; tauto).
  assert (SE : start_angle s < end_angle s < start_angle s + 2 * PI) by (unfold sharp in SH; rewrite T in SH; tauto).
  set (k := snd (set_cyl (s_cen s) (get_start s) (get_end s))) in *.
  assert (LE : (length (cyl_parts k) <= 3)%nat).
  { unfold cyl_parts. rewrite combine_length. assert (length (c_angs k) <= 3)%nat; [|lia]. unfold k, set_cyl.
    destruct (_ || _ || _); [cbn; lia|]. destruct (_ || _); [cbn; lia|]. destruct (ltb _ _); [cbn; lia|]. destruct (point_matches _ _ _); [cbn; lia|]. apply cyl_angles_length. }
  assert (NE : cyl_parts k <> []) by (intro X; rewrite X in PT; inversion PT; lra).
  split; [|split].
  - rewrite <- (forall2_length F). destruct (cyl_parts k); [now destruct NE|cbn [length] in *; lia].
  - apply (wall_agrees res top bot s rev l SH). rewrite <- cyl_is_wall; assumption.
  - exists (map (fun x => CArc (Rmax top bot) (s_cen s) (fst (fst x)) (snd (fst x)) None) (cyl_parts k)). split.
    + clear - F CC. induction F as [|x y xs ys -> _ IH]; cbn [map]; constructor; [|exact IH]. cbn [t_out b_geo]. unfold cyl_geo. rewrite CC. eauto.
    + pose proof (parts_follow _ _ (Rmax top bot) _ _ _ _ _ P PT) as K. apply follows_affine in K; [|lra]. refine (follows_ext _ _ _ _ _ _ _ K). intros t p.
      rewrite (arc_goes_plain (Rmax top bot) (s_cen s) (get_start s) (get_end s) (s_rad s) (start_angle s) (end_angle s - start_angle s) t p); [reflexivity|exact P|lra| |].
      * unfold sharp in SH. rewrite T in SH. destruct SH as (_ & _ & _ & _ & _ & _ & C0 & C1 & _). unfold course, get_start, start_angle in *. rewrite T in C0, C1.
        replace (s_sang s + 1 * (s_eang s - s_sang s)) with (s_eang s) in C1 by ring. replace (s_sang s + 0 * (s_eang s - s_sang s)) with (s_sang s) in C0 by ring. destruct (s_cw s); assumption.
      * replace (start_angle s + (end_angle s - start_angle s)) with (end_angle s) by ring.
        unfold sharp in SH. rewrite T in SH. destruct SH as (_ & _ & _ & _ & _ & _ & C0 & C1 & _). unfold course, get_end, end_angle in *. rewrite T in C0, C1.
        replace (s_sang s + 1 * (s_eang s - s_sang s)) with (s_eang s) in C1 by ring. replace (s_sang s + 0 * (s_eang s - s_sang s)) with (s_sang s) in C0 by ring. destruct (s_cw s); assumption.
Qed.

(** ** A board with a short last edge *)

Definition plate : list seg := [line_of (at2 0 0) (at2 300 0); line_of (at2 300 0) (at2 300 300); line_of (at2 300 300) (at2 0 (2/5)); line_of (at2 0 (2/5)) (at2 0 0)].
Definition drill : seg := mkSeg SCircle 10 0 (2 * PI) false (at2 200 100) (at2 210 100) (at2 210 100).

Lemma plate_lines : Forall line_in_order plate.
Proof.
  unfold plate. repeat apply Forall_cons; [| | | |constructor]; apply line_is_made; try lra; try (left; unfold e8; abs_lra); right; unfold e8; abs_lra.
Qed.

Lemma line_sharp s : line_in_order s -> sharp s.
Proof. intros (T & _ & A & B & N). unfold sharp. rewrite T. tauto. Qed.

Lemma drill_sharp : sharp drill.
Proof.
  unfold sharp. cbn. split; [reflexivity|]. split; [lra|]. do 3 (split; [reflexivity|]). split; [unfold at2; f_equal; lra|]. split; [reflexivity|]. apply apart_x; try reflexivity; try (apply not_far; lra). cbn [px at2]. abs_lra.
Qed.

Lemma plate_drawn : exists o, draw plate = Some (yes, o) /\ o_closed o = true /\ o_segs o = plate.
Proof.
  pose proof plate_lines as L. rewrite Forall_forall in L.
  destruct (draw_ring [line_of (at2 0 0) (at2 300 0); line_of (at2 300 0) (at2 300 300); line_of (at2 300 300) (at2 0 (2/5))] (line_of (at2 0 (2/5)) (at2 0 0))) as (bl & tr & D).
  - discriminate.
  - repeat apply Forall_cons; [| | | |constructor]; now left.
  - split; [|apply one_point_refl]. cbn [chain]. repeat split; apply one_point_refl.
  - intros f m s n E. injection E as <- E.
    assert (X : s = line_of (at2 300 0) (at2 300 300) \/ s = line_of (at2 300 300) (at2 0 (2/5))).
    { destruct m as [|? [|? [|? m]]]; injection E; intros; subst; try tauto; discriminate. }
    cbn [line_of s_start]. destruct X as [->| ->]; cbn [line_of s_end].
    + apply apart_x; try reflexivity; try (apply not_far; lra). cbn [px at2]. abs_lra.
    + pose proof (line_is_made 0 (2/5) 0 0 ltac:(lra) ltac:(lra) ltac:(lra) ltac:(lra)) as (_ & _ & _ & _ & K); [right; unfold e8; abs_lra|]. exact K.
  - intros t I. left. apply L. exact I.
  - intros t p I C. unfold covers in C. destruct I as [<-|[<-|[<-|[<-|[]]]]]; cbn in C; destruct C as (u & U & X & Y); unfold near_home; split; lra.
  - eexists. split; [exact D|]. split; [reflexivity|]. cbn [o_segs]. unfold oriented. rewrite ltb_f; [reflexivity|].
    unfold total, wind_of, line_of. cbn [app map fold_right s_ty s_start s_end at2 px py]. lra.
Qed.

Lemma plate_home s p : In s plate -> covers s p -> - 300 <= px p <= 300 /\ - 300 <= py p <= 300.
Proof. intros I C. unfold covers in C. destruct I as [<-|[<-|[<-|[<-|[]]]]]; cbn in C; destruct C as (u & U & X & Y); split; lra. Qed.

Lemma plate_width o o' : o_closed o = true -> o_segs o = plate -> calc_box o = Some o' -> 299 < px (o_tr o') - px (o_bl o') < 700 /\ - 302 < px (o_bl o') <= 1 /\ - 302 < py (o_bl o') <= 1.
Proof.
  intros C S B. assert (SH : Forall sharp (o_segs o)) by (rewrite S; eapply Forall_impl; [apply line_sharp|apply plate_lines]). assert (NE : o_segs o <> []) by (rewrite S; discriminate).
  destruct (calc_box_sharp o o' SH C NE B) as (_ & _ & W & SQ & K).
  destruct (calc_box_home o 300 SH C NE ltac:(lra)) as (o2 & B2 & W2 & X2 & Y2); [rewrite S; exact plate_home|]. rewrite B in B2. injection B2 as <-.
  assert (C0 : in_box e8 (o_bl o') (o_tr o') (at2 0 0)). { apply (K (line_of (at2 0 0) (at2 300 0))); [rewrite S; now left|]. exists 0. cbn. lra. }
  assert (C1 : in_box e8 (o_bl o') (o_tr o') (at2 300 0)). { apply (K (line_of (at2 0 0) (at2 300 0))); [rewrite S; now left|]. exists 1. cbn. lra. }
  unfold in_box, e8 in C0, C1. cbn [px py at2] in C0, C1. lra.
Qed.

(* the bound of the outline is open to its end when the last edge is longer than what counts as one point *)
Lemma apart_by p q res d : ~ far p -> ~ far q -> 0 <= res -> 1 / 10^7 <= d -> 2 * res <= d -> (d <= Rabs (px p - px q) \/ d <= Rabs (py p - py q)) -> ~ one_point p q res.
Proof.
  intros A B R1 R2 R3 H. assert (K : d^2 <= gap2 p q).
  { unfold gap2. pose proof (pow2_ge_0 (px p - px q)). pose proof (pow2_ge_0 (py p - py q)). pose proof (pow2_ge_0 (pz p - pz q)).
    destruct H as [H|H].
    - assert (d^2 <= (px p - px q)^2); [rewrite <- (pow2_abs (px p - px q)); apply pow_incr; lra|lra].
    - assert (d^2 <= (py p - py q)^2); [rewrite <- (pow2_abs (py p - py q)); apply pow_incr; lra|lra]. }
  apply apart_points; try assumption; nra.
Qed.

Lemma taken_two res a b l : taken_closed res (a :: b :: l) <-> one_point (crv_start a) (crv_end (last (b :: l) a)) res.
Proof.
  split; [intros (f & r & E & O & _); injection E as -> <-; exact O|]. intro O. exists a, (b :: l). split; [reflexivity|]. split; [exact O|]. left. discriminate.
Qed.

Lemma open_four res a b c d : (forall z o p q m, a <> CArc z o p q m) ->
  (open_to_end res [a; b; c; d] <-> ~ one_point (crv_start a) (crv_end b) res /\ ~ one_point (crv_start a) (crv_end c) res).
Proof.
  intro A. unfold open_to_end. split.
  - intro H. split; intro O; [apply (H [a; b] [c; d])|apply (H [a; b; c] [d])]; try reflexivity; try discriminate; apply taken_two; exact O.
  - intros [B C] l1 l2 E N T. destruct l1 as [|x [|y [|u [|v [|w l1]]]]]; cbn [app] in E; try (injection E; intros; subst).
    + destruct T as (f & r & T & _). discriminate.
    + destruct T as (f & r & T & _ & [K|(z & o & p & q & m & K)]); injection T as <- <-; [now destruct K|exact (A _ _ _ _ _ K)].
    + apply taken_two in T. contradiction.
    + apply taken_two in T. contradiction.
    + now destruct N.
    + discriminate.
Qed.

Lemma open_two res a b : ~ taken_closed res [a] -> open_to_end res [a; b].
Proof.
  intros A l1 l2 E N T. destruct l1 as [|x [|y l1]]; cbn [app] in E; try (injection E; intros; subst).
  - destruct T as (f & r & T & _). discriminate.
  - contradiction.
  - destruct l1; [|discriminate]. destruct l2; [now destruct N|discriminate].
Qed.

Lemma small_not_far x y z : -1000 <= x <= 1000 -> -1000 <= y <= 1000 -> -1000 <= z <= 1000 -> ~ far (mkPt x y z).
Proof. intros. unfold far, gap2, origin. cbn [px py pz]. nra. Qed.

Lemma drill_open o : 0 < px (o_tr o) - px (o_bl o) -> open_to_end e8 (par_of o 1 false [drill]) /\ open_to_end e8 (geo_of 1 [drill]).
Proof.
  intro W. split; apply open_two; intros (f & r & T & O & K); injection T as <- <-; cbn [last crv_start crv_end] in O.
  - destruct K as [K|(z & c & p & q & m & K)]; [now destruct K|discriminate].
  - revert O. cbn [moved drill s_cen s_rad at2 px py]. apply (apart_by _ _ e8 1); try (apply small_not_far; lra); try (unfold e8; lra). left. cbn [px]. abs_lra.
Qed.

Definition plate_board (o : outline) : board := mkBoard o [] [drill].
Lemma plate_sharp o : o_segs o = plate -> all_sharp (plate_board o).
Proof.
  intro S. unfold all_sharp, board_segs. cbn [plate_board b_out b_holes b_cuts concat]. rewrite S. apply Forall_app. split; [eapply Forall_impl; [apply line_sharp|apply plate_lines]|].
  constructor; [apply drill_sharp|constructor].
Qed.

(* where the four corners are in the parameters *)
Lemma plate_par o z : par_of o z false plate =
  let q := onto (px (o_bl o)) (py (o_bl o)) (1 / (px (o_tr o) - px (o_bl o))) z false in
  [NLine (q (at2 0 0)) (q (at2 300 0)); NLine (q (at2 300 0)) (q (at2 300 300)); NLine (q (at2 300 300)) (q (at2 0 (2/5))); NLine (q (at2 0 (2/5))) (q (at2 0 0))].
Proof. reflexivity. Qed.
Lemma plate_geo z : geo_of z plate =
  let q := fun p => at_z p z in
  [CLine (q (at2 0 0)) (q (at2 300 0)); CLine (q (at2 300 0)) (q (at2 300 300)); CLine (q (at2 300 300)) (q (at2 0 (2/5))); CLine (q (at2 0 (2/5))) (q (at2 0 0))].
Proof. reflexivity. Qed.

Lemma scaled W n : 299 < W < 700 -> 0 <= n -> n / 700 <= n * (1 / W) <= n / 299.
Proof.
  intros H N. unfold Rdiv. rewrite Rmult_1_l. split; apply Rmult_le_compat_l; try exact N; apply Rinv_le_contravar; lra.
Qed.

Lemma plate_open o o' : o_closed o = true -> o_segs o = plate -> calc_box o = Some o' ->
  open_to_end e8 (par_of o' 1 false plate) /\ open_to_end e8 (geo_of 1 plate) /\ ~ open_to_end (1 / 1000) (par_of o' 1 false plate).
Proof.
  intros C S B. destruct (plate_width o o' C S B) as (W & X & Y). rewrite plate_par, plate_geo. cbv zeta.
  rewrite !open_four by discriminate. cbn [crv_start crv_end]. unfold onto, at_z. cbn [px py pz at2].
  set (k := 1 / (px (o_tr o') - px (o_bl o'))). set (x := px (o_bl o')) in *. set (y := py (o_bl o')) in *.
  assert (K1 : 1 / 700 <= k <= 1 / 299) by (pose proof (scaled _ 1 W ltac:(lra)) as Z; rewrite Rmult_1_l in Z; exact Z).
  assert (F : forall a b, 0 <= a <= 300 -> 0 <= b <= 300 -> ~ far (mkPt ((a - x) * k) ((b - y) * k) 1)).
  { intros a b HA HB. apply small_not_far; [| |lra].
    - assert (- 3 * k <= (a - x) * k <= 700 * k) by (split; apply Rmult_le_compat_r; lra). lra.
    - assert (- 3 * k <= (b - y) * k <= 700 * k) by (split; apply Rmult_le_compat_r; lra). lra. }
  split; [split|split; [split|]].
  - apply (apart_by _ _ e8 (1/10)); try (apply F; lra); try (unfold e8; lra). left. cbn [px]. replace ((0 - x) * k - (300 - x) * k) with (- (300 * k)) by ring. rewrite Rabs_Ropp, Rabs_pos_eq by lra. lra.
  - apply (apart_by _ _ e8 (1/2000)); try (apply F; lra); try (unfold e8; lra). right. cbn [py]. replace ((0 - y) * k - (2 / 5 - y) * k) with (- (2 / 5 * k)) by ring. rewrite Rabs_Ropp, Rabs_pos_eq by lra. lra.
  - apply (apart_by _ _ e8 1); try (apply small_not_far; lra); try (unfold e8; lra). left. cbn [px]. abs_lra.
  - apply (apart_by _ _ e8 (1/10)); try (apply small_not_far; lra); try (unfold e8; lra). right. cbn [py]. abs_lra.
  - intros [_ N]. apply N. left. unfold gap2. cbn [px py pz]. replace ((0 - y) * k - (2 / 5 - y) * k) with (- (2 / 5 * k)) by ring. nra.
Qed.

Theorem plate_plane : exists o, draw plate = Some (yes, o) /\ o_segs o = plate /\ all_sharp (plate_board o) /\
  (exists o' t, trimmed_plane e8 (plate_board o) 1 false = Some (yes, o', [t])) /\
  (exists o', trimmed_plane (1 / 1000) (plate_board o) 1 false = Some (no, o', [])).
Proof.
  destruct plate_drawn as (o & D & C & S). exists o. split; [exact D|]. split; [exact S|]. pose proof (plate_sharp o S) as SH. split; [exact SH|].
  assert (DF : forall res, exists a o' l, trimmed_plane res (plate_board o) 1 false = Some (a, o', l)).
  { intro res. destruct (trimmed_plane res (plate_board o) 1 false) as [[[a o'] l]|] eqn:E; [eauto|]. exfalso. revert E. apply (trimmed_plane_defined _ _ _ _ SH).
    cbn [plate_board b_out]. rewrite S. intros s p I H. apply plate_home in H; [|exact I]. unfold near_home. lra. }
  assert (CB : forall res a o' l, trimmed_plane res (plate_board o) 1 false = Some (a, o', l) -> calc_box o = Some o').
  { intros res a o' l. unfold trimmed_plane. cbn [plate_board b_out]. destruct (calc_box o) as [o2|]; [|discriminate]. destruct (negb _); [intro E; now injection E as _ -> _|]. destruct (o_segs o2); [intro E; now injection E as _ -> _|].
    destruct (plane_bound _ _ _ _ _ _); [|intro E; now injection E as _ -> _]. destruct (all_some _); intro E; now injection E as _ -> _. }
  split.
  - destruct (DF e8) as (a & o' & l & E). destruct (trimmed_plane_cases _ _ _ _ _ _ _ SH E) as (A1 & _ & _ & A2 & _ & A3). pose proof (CB _ _ _ _ E) as B.
    destruct (plate_open o o' C S B) as (P1 & P2 & _). destruct (plate_width o o' C S B) as (W & _).
    assert (T : fst a = true).
    { apply A2. unfold bounding, plate_board; cbn [b_out b_cuts b_holes app map]. rewrite S. split; [exact C|]. split; [discriminate|]. constructor; [split; assumption|]. constructor; [apply drill_open; lra|constructor]. }
    destruct (A3 T) as (t & -> & _). exists o', t. rewrite E. destruct a as [a1 a2]. cbn [fst snd] in *. subst a1 a2. reflexivity.
  - destruct (DF (1/1000)) as (a & o' & l & E). destruct (trimmed_plane_cases _ _ _ _ _ _ _ SH E) as (A1 & _ & _ & A2 & A3 & _). pose proof (CB _ _ _ _ E) as B.
    destruct (plate_open o o' C S B) as (_ & _ & P).
    assert (T : fst a = false).
    { apply not_true_iff_false. intro T. apply A2 in T. destruct T as (_ & _ & T). unfold bounding, plate_board in T; cbn [b_out] in T. rewrite S in T. inversion T as [|? ? [T1 _] _]. contradiction. }
    exists o'. rewrite E, (A3 T). destruct a as [a1 a2]. cbn [fst snd] in *. subst a1 a2. reflexivity.
Qed.

Theorem plate_walls : exists o, draw plate = Some (yes, o) /\ o_segs o = plate /\ all_sharp (plate_board o) /\ fst (vertical e8 (plate_board o) 1 0) = yes.
Proof.
  destruct plate_drawn as (o & D & C & S). exists o. split; [exact D|]. split; [exact S|]. split; [exact (plate_sharp o S)|].
  destruct (vertical_answer e8 (plate_board o) 1 0) as [A B]. unfold plate_board in *. cbn [b_out b_holes b_cuts concat app] in B. rewrite S in B.
  assert (T : fst (fst (vertical e8 (mkBoard o [] [drill]) 1 0)) = true).
  { apply B. split; [exact C|]. split; [discriminate|]. split.
    - apply Forall_forall. intros s I. assert (L : s_ty s = SLine) by (pose proof plate_lines as P; rewrite Forall_forall in P; apply P; exact I).
      assert (H : at_home (s_start s) /\ at_home (s_end s)) by (destruct I as [<-|[<-|[<-|[<-|[]]]]]; unfold at_home; cbn; lra).
      apply wall_made_line; try tauto; try lra. { unfold e8. lra. } rewrite Rabs_pos_eq by lra. unfold e6. lra.
    - constructor; [|constructor]. intro N. apply wall_made_round in N; try lra.
      + destruct N as [N|[N _]]; [rewrite Rabs_pos_eq in N; lra|discriminate].
      + exact drill_sharp.
      + now right.
      + intros p K. cbn in K. unfold dist2 in K. cbn [px py at2] in K. unfold at_home.
        assert (-10 <= px p - 200 <= 10) by (pose proof (pow2_ge_0 (py p - 100)); split; nra). assert (-10 <= py p - 100 <= 10) by (pose proof (pow2_ge_0 (px p - 200)); split; nra). lra.
      + unfold e8. lra. }
  destruct (fst (vertical e8 (mkBoard o [] [drill]) 1 0)) as [a1 a2]. cbn [fst snd] in *. subst. reflexivity.
Qed.

(** ** An arc which starts just below the level of its centre *)

Definition tiny : R := / 10^10.
Definition lowx : R := 5 * (1 - tiny^2) / (1 + tiny^2).
Definition lowy : R := - 10 * tiny / (1 + tiny^2).
Definition bend : seg := arc_of (at2 0 0) (at2 lowx lowy) (at2 (-5) 0) false.
Definition floor_line : seg := line_of (at2 (-5) 0) (at2 lowx lowy).
Definition dome : list seg := [bend; floor_line].

Lemma low_place : lowx^2 + lowy^2 = 25 /\ 4 < lowx < 5 /\ - / 10^8 < lowy < 0 /\ (lowx - 5)^2 + lowy^2 <= 2 / 10^18.
Proof.
  assert (T : 0 < tiny < / 10^9). { unfold tiny. split; [apply Rinv_0_lt_compat; lra|apply Rinv_lt_contravar; lra]. }
  assert (P : 0 < 1 + tiny^2) by nra.
  assert (E : lowx^2 + lowy^2 = 25). { unfold lowx, lowy. field. lra. }
  assert (X : lowx - 5 = - (10 * tiny^2 / (1 + tiny^2))) by (unfold lowx; field; lra).
  assert (IV : 0 < / (1 + tiny^2) <= 1). { split; [apply Rinv_0_lt_compat; exact P|]. rewrite <- Rinv_1 at 2. apply Rinv_le_contravar; nra. }
  assert (TT : 0 < tiny^2 < / 10^18). { split; [nra|]. replace (/ 10^18) with (/10^9 * / 10^9) by lra. nra. }
  assert (X2 : - (10 * / 10^18) < lowx - 5 < 0). { rewrite X. unfold Rdiv. set (i := / (1 + tiny^2)) in *. split; nra. }
  assert (TE : tiny = / 10^10) by reflexivity.
  assert (Y2 : - / 10^9 <= lowy < 0). { unfold lowy, Rdiv. rewrite TE. set (i := / (1 + (/10^10)^2)) in *. rewrite TE in IV. fold i in IV. lra. }
  split; [exact E|]. split; [lra|]. split; [lra|]. 
  assert ((lowx - 5)^2 <= / 10^18) by nra. assert (lowy^2 <= / 10^18). { replace (/ 10^18) with (/10^9 * / 10^9) by lra. nra. } lra.
Qed.

Lemma bend_made : set_arc (at2 0 0) (at2 lowx lowy) (at2 (-5) 0) false = (true, bend) /\ s_rad bend = 5 /\ arc_in_order e8 bend /\ sharp bend /\
  - (PI / 2) < s_sang bend < 0 /\ s_eang bend = PI.
Proof.
  destruct low_place as (E & X & Y & _). pose proof (Rinv_0_lt_compat (10^8) ltac:(lra)).
  destruct (arc_is_made 0 0 lowx lowy (-5) 0 false 5) as (M & N & _ & R); try lra; try (left; abs_lra).
  fold bend in M, R. destruct (arc_made _ _ _ _ _ M N) as (_ & _ & _ & _ & _ & _ & O & _).
  split; [exact M|]. split; [exact R|]. split; [exact O|]. split.
  - apply (set_arc_sharp _ _ _ _ _ M N). unfold dist, dist2. f_equal. cbn [px py at2]. lra.
  - assert (A : atan2 lowy lowx = atan (lowy / lowx)) by (unfold atan2; destruct (Rlt_dec 0 lowx); [reflexivity|lra]).
    assert (B : atan2 0 (-5) = PI). { unfold atan2. destruct (Rlt_dec 0 (-5)); [lra|]. destruct (Rlt_dec (-5) 0); [|lra]. destruct (Rle_dec 0 0); [|lra]. replace (0 / -5) with 0 by lra. rewrite atan_0. ring. }
    assert (Q : - (PI / 2) < atan (lowy / lowx) < 0).
    { split; [pose proof (atan_bound (lowy / lowx)); lra|]. rewrite <- atan_0. apply atan_increasing. unfold Rdiv. pose proof (Rinv_0_lt_compat lowx ltac:(lra)). nra. }
    unfold bend, arc_of. cbn [s_sang s_eang px py at2 andb negb]. rewrite !Rminus_0_r, A, B. split; [exact Q|]. rewrite ltb_f; [reflexivity|]. pose proof PI_RGT_0. lra.
Qed.

Lemma dome_lines : line_in_order floor_line.
Proof. destruct low_place as (E & X & Y & _). pose proof (Rinv_0_lt_compat (10^8) ltac:(lra)). apply line_is_made; try lra. left. unfold e8. rewrite Rabs_left; lra. Qed.

Lemma dome_home s p : In s dome -> covers s p -> - 6 <= px p <= 6 /\ - 6 <= py p <= 6.
Proof.
  destruct low_place as (E & X & Y & _). destruct bend_made as (_ & R & _). intros [<-|[<-|[]]] C.
  - destruct C as (w & _ & A & B). rewrite R in A, B. cbn [bend arc_of s_cen at2 px py] in A, B. pose proof (COS_bound w). pose proof (SIN_bound w). lra.
  - destruct C as (u & U & A & B). cbn in A, B. assert (0 < / 10^8 < 1) by lra. split; nra.
Qed.

Lemma dome_drawn : exists o, draw dome = Some (yes, o) /\ o_closed o = true /\ o_segs o = dome.
Proof.
  destruct bend_made as (_ & R & O & _ & A & B).
  destruct (draw_ring [bend] floor_line) as (bl & tr & D).
  - discriminate.
  - constructor; [now right|]. constructor; [now left|constructor].
  - change (ring dome). split; [|apply one_point_refl]. cbn [chain dome]. repeat split; apply one_point_refl.
  - intros f m s n E. injection E as _ E. destruct m; discriminate.
  - intros t [<-|[<-|[]]]; [right; left; split; [exact O|reflexivity]|left; exact dome_lines].
  - intros t p I C. apply dome_home in C; [|exact I]. unfold near_home. lra.
  - eexists. split; [exact D|]. split; [reflexivity|]. cbn [o_segs]. unfold oriented. rewrite ltb_f; [reflexivity|].
    destruct low_place as (E & X & Y & _). pose proof (Rinv_0_lt_compat (10^8) ltac:(lra)) as P8.
    unfold total. cbn [app map fold_right]. unfold wind_of, get_midpoint. change (s_ty bend) with SArc. cbv iota. rewrite B, R. change (s_cen bend) with (at2 0 0). change (s_start bend) with (at2 lowx lowy). change (s_end bend) with (at2 (-5) 0).
    unfold floor_line, line_of. cbn [s_ty s_start s_end snd px py at2]. set (m := (s_sang bend + PI) * (1 / 2)).
    assert (SM : 0 < sin m) by (apply sin_gt_0; unfold m; pose proof PI_RGT_0; lra). pose proof (COS_bound m) as CM. nra.
Qed.

Definition dome_board (o : outline) : board := mkBoard o [] [].
Lemma dome_sharp o : o_segs o = dome -> all_sharp (dome_board o).
Proof.
  intro S. unfold all_sharp, board_segs, dome_board. cbn [b_out b_holes b_cuts concat app]. rewrite S, app_nil_r. destruct bend_made as (_ & _ & _ & SH & _).
  constructor; [exact SH|]. constructor; [apply line_sharp, dome_lines|constructor].
Qed.

Lemma low_close : one_point (mkPt lowx lowy 1) (mkPt 5 0 1) e8.
Proof. destruct low_place as (_ & _ & _ & K). left. unfold gap2. cbn [px py pz]. unfold e8. lra. Qed.

Theorem dome_fails : exists o, draw dome = Some (yes, o) /\ o_segs o = dome /\ all_sharp (dome_board o) /\
  vertical e8 (dome_board o) 1 0 = (no, []) /\ (exists o', trimmed_plane e8 (dome_board o) 1 false = Some (no, o', [])).
Proof.
  destruct dome_drawn as (o & D & C & S). exists o. split; [exact D|]. split; [exact S|]. pose proof (dome_sharp o S) as SH. split; [exact SH|].
  destruct bend_made as (_ & R & _ & SB & A & B). destruct low_place as (E & X & Y & _). pose proof PI_RGT_0 as PP. split.
  - assert (W : segment_wall e8 1 0 bend false = None).
    { apply wall_made_round; try lra; try (unfold e8; lra).
      - exact SB.
      - now left.
      - intros p K. apply (dome_home bend) in K; [|now left]. unfold at_home. lra.
      - right. split; [reflexivity|]. rewrite Rmax_left by lra. exists 0, (mkPt 5 0 1). unfold start_angle, end_angle. change (s_cw bend) with false. cbv iota. rewrite R.
        split; [apply sin_0|]. split; [lra|]. split; [split; cbn [px py bend arc_of s_cen at2]; [rewrite cos_0|rewrite sin_0]; ring|]. split; [reflexivity|]. left. split; [lra|]. exact low_close. }
    unfold vertical, dome_board. cbn [b_out]. rewrite C, S. cbn [negb dome walls]. rewrite W. reflexivity.
  - destruct (trimmed_plane e8 (dome_board o) 1 false) as [[[a o'] l]|] eqn:T.
    2:{ exfalso. revert T. apply (trimmed_plane_defined _ _ _ _ SH). unfold dome_board. cbn [b_out]. rewrite S. intros s p I K. apply dome_home in K; [|exact I]. unfold near_home. lra. }
    destruct (trimmed_plane_cases _ _ _ _ _ _ _ SH T) as (A1 & _ & _ & A2 & A3 & _). exists o'.
    assert (GC : get_curves 1 bend = Some [CArc 1 (at2 0 0) (at2 lowx lowy) (mkPt (0 + 5) 0 0) None; CArc 1 (at2 0 0) (mkPt (0 + 5) 0 0) (at2 (-5) 0) None]).
    { unfold get_curves. replace (s_ty bend) with SArc by reflexivity. f_equal. unfold curve_arc. replace (s_cw bend) with false by reflexivity. rewrite B, R.
      unfold pieces. rewrite (leb_f 0 (s_sang bend)) by lra. cbn [andb]. unfold eqb. destruct (Req_EM_T (s_sang bend) PI); [lra|]. rewrite (leb_f PI 0), (leb_t PI PI) by lra. reflexivity. }
    assert (F : fst a = false).
    { apply not_true_iff_false. intro F. apply A2 in F. destruct F as (_ & _ & F). unfold bounding, dome_board in F. cbn [b_out] in F. rewrite S in F. inversion F as [|? ? [_ G] _].
      unfold geo_of, dome in G. cbn [map] in G. rewrite GC in G. change (get_curves 1 floor_line) with (Some [CLine (at_z (at2 (-5) 0) 1) (at_z (at2 lowx lowy) 1)]) in G.
      cbn [all_some concat app] in G.
      eapply (G [_]); [reflexivity|discriminate|].
      eexists _, []. split; [reflexivity|]. split; [|right; do 5 eexists; reflexivity]. cbn [last crv_start crv_end moved bend arc_of s_start s_cen px py at2].
      replace (0 + 5) with 5 by ring. exact low_close. }
    rewrite (A3 F). destruct a as [a1 a2]. cbn [fst snd] in *. subst. reflexivity.
Qed.

(** ** The transforms *)

Lemma flips_curves z s l c m : get_curves z s = Some l -> In c l -> transform c = Some m -> xf_form m = 1%Z /\ det m = 1.
Proof.
  intros H I T. assert (K : exists x y, m = flip x y).
  { unfold get_curves in H. destruct (s_ty s); [discriminate| | |].
    - injection H as <-. destruct I as [<-|[]]. discriminate.
    - injection H as <-. unfold curve_arc in I. destruct (s_cw s); apply in_map_iff in I; destruct I as (q & <- & _); [injection T as <-; eauto|discriminate].
    - injection H as <-. destruct I as [<-|[<-|[]]]; discriminate. }
  destruct K as (x & y & ->). split; [reflexivity|]. unfold det, flip, dot, cross. cbn [xf_x xf_y xf_z px py pz]. ring.
Qed.

Lemma flips_walls res top bot s rev l t c m : segment_wall res top bot s rev = Some l -> In t l -> In c (b_geo (t_out t)) -> transform c = Some m -> xf_form m = 1%Z /\ det m = 1.
Proof.
  intros H I IC T. assert (K : exists x y, m = flip x y).
  { apply segment_wall_cases in H. destruct H as (_ & [(_ & t' & -> & H)|(_ & H)]).
    - destruct I as [<-|[]]. destruct rev; apply wall_is in H; subst t'; cbn [t_out b_geo] in IC; repeat (destruct IC as [<-|IC]; [discriminate|]); destruct IC.
    - destruct (cyl_make_parts _ _ _ _ _ _ H) as (_ & _ & F). destruct (forall2_in _ _ _ _ F I) as (x & _ & ->). cbn [t_out b_geo] in IC. unfold cyl_geo in IC.
      destruct IC as [<-|[<-|[<-|[<-|[]]]]]; try discriminate. injection T as <-. eauto. }
  destruct K as (x & y & ->). split; [reflexivity|]. unfold det, flip, dot, cross. cbn [xf_x xf_y xf_z px py pz]. ring.
Qed.

(** ** Cases *)

Definition hoop (cw : bool) : seg := arc_of (at2 0 0) (at2 3 (-4)) (at2 (-3) (-4)) cw.
Lemma hoop_made cw : set_arc (at2 0 0) (at2 3 (-4)) (at2 (-3) (-4)) cw = (true, hoop cw) /\ ~ one_point (at2 3 (-4)) (at2 (-3) (-4)) e8 /\
  dist (at2 3 (-4)) (at2 0 0) = dist (at2 (-3) (-4)) (at2 0 0) /\ sharp (hoop cw) /\ s_rad (hoop cw) = 5.
Proof.
  destruct (arc_is_made 0 0 3 (-4) (-3) (-4) cw 5) as (M & N & _ & R); try lra; try (left; abs_lra); try (right; abs_lra).
  assert (D : dist (at2 3 (-4)) (at2 0 0) = dist (at2 (-3) (-4)) (at2 0 0)) by (unfold dist, dist2; f_equal; cbn [px py at2]; lra).
  split; [exact M|]. split; [exact N|]. split; [exact D|]. split; [exact (set_arc_sharp _ _ _ _ _ M N D)|exact R].
Qed.

Lemma hoop_wall : exists l, segment_wall e8 1 0 (hoop false) false = Some l.
Proof.
  apply none_or. destruct (hoop_made false) as (_ & _ & _ & SH & R). intro N.
  apply wall_made_round in N; try lra; try (unfold e8; lra); [|exact SH|now left|].
  - destruct N as [N|[_ (w & p & S & _ & (PX & PY) & Z & [[_ O]|[_ O]])]]; [rewrite Rabs_pos_eq in N; lra| |];
      (rewrite R, S in PY; cbn [hoop arc_of s_cen at2 py] in PY; rewrite R in PX; cbn [hoop arc_of s_cen at2 px] in PX; pose proof (COS_bound w) as CB; rewrite Rmax_left in Z by lra;
       revert O; unfold get_start, get_end; cbn [hoop arc_of s_cw s_start s_end]; unfold at_z; cbn [px py at2]; rewrite Rmax_left by lra; destruct p as [x y z]; cbn [px py pz] in *; subst z;
       apply (apart_by _ _ e8 1); try (apply small_not_far; lra); try (unfold e8; lra); right; cbn [py]; subst y; abs_lra).
  - intros p (w & _ & A & B). rewrite R in A, B. cbn [hoop arc_of s_cen at2 px py] in A, B. pose proof (COS_bound w). pose proof (SIN_bound w). unfold at_home. lra.
Qed.

Lemma cyl_case : fst (set_cyl (at2 0 0) (at2 3 (-4)) (at2 (-3) (-4))) = true /\ ~ one_point (at2 3 (-4)) (at2 (-3) (-4)) e8 /\
  dist (at2 3 (-4)) (at2 0 0) = dist (at2 (-3) (-4)) (at2 0 0) /\ cyl_make e8 (snd (set_cyl (at2 0 0) (at2 3 (-4)) (at2 (-3) (-4)))) 1 0 false <> None.
Proof.
  destruct (hoop_made false) as (_ & N & D & SH & _). destruct (cyl_for_seg (hoop false) SH (or_introl eq_refl)) as (A & _). split; [exact A|]. split; [exact N|]. split; [exact D|].
  apply none_or. destruct hoop_wall as (l & L). exists l. rewrite <- L. apply (cyl_is_wall e8 (hoop false)); reflexivity.
Qed.

Lemma drill_home p : covers drill p -> at_home p.
Proof.
  intro K. cbn in K. unfold dist2 in K. cbn [px py at2] in K. unfold at_home.
  assert (-10 <= px p - 200 <= 10) by (pose proof (pow2_ge_0 (py p - 100)); split; nra). assert (-10 <= py p - 100 <= 10) by (pose proof (pow2_ge_0 (px p - 200)); split; nra). lra.
Qed.

Lemma drill_wall top bot rev : -1 <= top <= 1 -> -1 <= bot <= 1 -> 1 / 1000 <= Rabs (top - bot) -> exists l, segment_wall e8 top bot drill rev = Some l.
Proof.
  intros A B D. apply none_or. intro N. apply wall_made_round in N; try lra; try (unfold e8; lra); [|exact drill_sharp|now right|exact drill_home].
  destruct N as [N|[N _]]; [lra|discriminate].
Qed.

Lemma walls_case : sharp drill /\ (exists l, segment_wall e8 1 0 drill true = Some l) /\
  exists s, set_arc (at2 0 0) (at2 3 (-4)) (at2 (-3) (-4)) false = (true, s) /\ sharp s /\ s_ty s = SArc /\ exists l, segment_wall e8 1 0 s false = Some l.
Proof.
  split; [exact drill_sharp|]. split; [apply drill_wall; try lra; rewrite Rabs_pos_eq; lra|]. destruct (hoop_made false) as (M & _ & _ & SH & _).
  exists (hoop false). split; [exact M|]. split; [exact SH|]. split; [reflexivity|exact hoop_wall].
Qed.

Lemma floor_home : at_home (s_start floor_line) /\ at_home (s_end floor_line).
Proof. destruct low_place as (_ & X & Y & _). pose proof (Rinv_0_lt_compat (10^8) ltac:(lra)). unfold at_home. cbn. assert (/ 10^8 < 1) by lra. cbn in *. lra. Qed.

Lemma made_case : s_ty floor_line = SLine /\ at_home (s_start floor_line) /\ at_home (s_end floor_line) /\ sharp drill /\ (forall p, covers drill p -> at_home p).
Proof. split; [reflexivity|]. split; [apply floor_home|]. split; [apply floor_home|]. split; [exact drill_sharp|exact drill_home]. Qed.

Lemma swapped_case : sharp floor_line /\ s_ty floor_line = SLine /\ (exists l, segment_wall e8 1 0 floor_line false = Some l) /\
  (exists l, segment_wall e8 0 1 floor_line false = Some l) /\ sharp drill /\ exists l, segment_wall e8 0 1 drill true = Some l.
Proof.
  split; [apply line_sharp, dome_lines|]. split; [reflexivity|].
  assert (K : forall a b, -1 <= a <= 1 -> -1 <= b <= 1 -> e6 <= Rabs (a - b) -> exists l, segment_wall e8 a b floor_line false = Some l).
  { intros a b A B D. apply none_or. apply (wall_made_line e8 a b floor_line false eq_refl (proj1 floor_home) (proj2 floor_home)); try lra. unfold e8. lra. }
  split; [apply K; try lra; unfold e6; abs_lra|]. split; [apply K; try lra; unfold e6; abs_lra|]. split; [exact drill_sharp|]. apply drill_wall; try lra. abs_lra.
Qed.

Lemma forms_case : exists s l t c m, set_arc (at2 0 0) (at2 3 (-4)) (at2 (-3) (-4)) true = (true, s) /\ sharp s /\
  (exists l' c' m', get_curves 1 s = Some l' /\ In c' l' /\ transform c' = Some m') /\
  segment_wall e8 1 0 drill true = Some l /\ In t l /\ In c (b_geo (t_out t)) /\ transform c = Some m.
Proof.
  destruct (hoop_made true) as (M & _ & _ & SH & _). destruct (drill_wall 1 0 true) as (l & L); try lra. { rewrite Rabs_pos_eq; lra. }
  pose proof L as L'. apply segment_wall_cases in L'. destruct L' as (_ & [(T & _)|(_ & H)]); [discriminate|].
  destruct (cyl_make_parts _ _ _ _ _ _ H) as (_ & _ & F).
  destruct (cyl_for_seg drill drill_sharp (or_intror eq_refl)) as (_ & _ & _ & _ & PT).
  set (k := snd (set_cyl (s_cen drill) (get_start drill) (get_end drill))) in *.
  assert (NE : cyl_parts k <> []). { intro X. rewrite X in PT. unfold start_angle, end_angle in PT. cbn [drill s_cw s_sang s_eang] in PT. pose proof PI_RGT_0. inversion PT. lra. }
  destruct F as [|x t xs ts ET F]; [now destruct NE|]. exists (hoop true), (t :: ts), t. do 2 eexists. split; [exact M|]. split; [exact SH|]. split.
  - pose proof (curves_follow 1 _ SH) as (l' & E & FO). unfold get_curves in E. replace (s_ty (hoop true)) with SArc in E by reflexivity. injection E as E.
    unfold curve_arc in E. replace (s_cw (hoop true)) with true in E by reflexivity. cbv zeta in E.
    match type of E with map _ ?P = _ => destruct P as [|q qs] eqn:Q end; [cbn [map] in E; subst l'; inversion FO; lra|].
    exists l'. cbn [map] in E. do 2 eexists. split; [|split; [rewrite <- E; now left|reflexivity]].
    unfold get_curves. replace (s_ty (hoop true)) with SArc by reflexivity. f_equal. unfold curve_arc. replace (s_cw (hoop true)) with true by reflexivity. cbv zeta. rewrite Q. exact E.
  - split; [exact L|]. split; [now left|]. rewrite ET. cbn [t_out b_geo]. unfold cyl_geo. split; [right; right; left; reflexivity|reflexivity].
Qed.
