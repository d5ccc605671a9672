(** Outlines which serve as cases. *)

From Coq Require Import Reals List Bool ZArith Lra Lia.
From Verif Require Import SegModel SegSpec SegTrig SegFacts SegBox SegSplit SegProps CutModel CutSpec CutCases OutModel OutSpec OutFacts OutBox OutArea OutDraw OutInside.
Import ListNotations.
Open Scope R_scope.

(** A triangle, drawn clockwise. *)
Definition tri1 : seg := line_of (at2 0 0) (at2 0 4).
Definition tri2 : seg := line_of (at2 0 4) (at2 3 0).
Definition tri3 : seg := line_of (at2 3 0) (at2 0 0).
Definition triangle : list seg := [tri1; tri2; tri3].

Lemma triangle_made : (forall t, In t triangle -> made t) /\ Forall piece triangle /\ ring triangle /\
  (forall t p, In t triangle -> covers t p -> near_home p).
Proof.
  assert (L1 : line_in_order tri1) by (apply line_is_made; try lra; right; unfold e8; abs_lra).
  assert (L2 : line_in_order tri2) by (apply line_is_made; try lra; right; unfold e8; abs_lra).
  assert (L3 : line_in_order tri3) by (apply line_is_made; try lra; left; unfold e8; abs_lra).
  split; [|split; [|split]].
  - intros t [<-|[<-|[<-|[]]]]; now left.
  - repeat (constructor; [now left|]). constructor.
  - split; [|apply one_point_refl]. cbn [chain triangle]. repeat split; apply one_point_refl.
  - intros t p [<-|[<-|[<-|[]]]] (u & U & X & Y); cbn in X, Y; unfold near_home; split; lra.
Qed.

Lemma triangle_open : stays_open [tri1; tri2].
Proof.
  intros f m s n E. injection E as <- E2. assert (X : In s [tri2]) by (rewrite E2; apply in_or_app; right; now left).
  destruct X as [<-|[]]. apply apart_x; try reflexivity; try (apply not_far; lra). cbn [px at2 tri1 tri2 line_of s_end s_start]. abs_lra.
Qed.

Lemma triangle_wind : total wind_of triangle = 12.
Proof. unfold total, triangle, wind_of, tri1, tri2, tri3, line_of. cbn. ring. Qed.

(* its first two sides, the third one which closes it, one which is refused *)
Lemma triangle_case : exists o, draw [tri1; tri2] = Some (yes, o) /\ built made o /\ fits o tri3 /\ closes o tri3 /\ ~ fits o tri2 /\
  exists o', add_segment o (Some tri3) = Some (yes, o') /\ built made o' /\ o_closed o' = true /\ o_segs o' = [reverse tri3; reverse tri2; reverse tri1].
Proof.
  destruct triangle_made as (M & F & G & H).
  assert (F2 : Forall piece [tri1; tri2]) by (repeat (constructor; [now left|]); constructor).
  assert (C2 : chain [tri1; tri2]) by (cbn [chain]; split; [apply one_point_refl|exact I]).
  destruct (draw_chain [tri1; tri2] F2 C2 triangle_open) as (bl & tr & D).
  assert (B : built made (mkOut [tri1; tri2] false (total wind_of [tri1; tri2]) false bl tr)).
  { apply (draw_built made [tri1; tri2] yes); [|exact D]. intros s I. apply M. destruct I as [<-|[<-|[]]]; [now left|right; now left]. }
  destruct (draw_ring [tri1; tri2] tri3) as (bl' & tr' & D'); [discriminate|exact F|exact G|exact triangle_open|exact M|exact H|].
  eexists. split; [exact D|]. split; [exact B|]. split; [|split; [|split]].
  - split; [reflexivity|]. right. split; [now left|]. intros l t E. cbn [o_segs] in E. change [tri1; tri2] with ([tri1] ++ [tri2]) in E. apply app_inj_tail in E. destruct E as (_ & <-). apply one_point_refl.
  - right. exists tri1, [tri2]. split; [reflexivity|]. apply one_point_refl.
  - intros (_ & [(T & _)|(_ & L)]); [discriminate|]. specialize (L [tri1] tri2 eq_refl). revert L.
    apply apart_x; try reflexivity; try (apply not_far; lra). cbn [px at2 tri2 line_of s_end s_start]. abs_lra.
  - assert (A : add_segment (mkOut [tri1; tri2] false (total wind_of [tri1; tri2]) false bl tr) (Some tri3) = draw ([tri1; tri2] ++ [tri3])).
    { unfold draw in D |- *. rewrite fold_left_app, D. reflexivity. }
    rewrite A, D'. eexists. split; [reflexivity|]. split; [|split; [reflexivity|]].
    + apply (draw_built made ([tri1; tri2] ++ [tri3]) yes); [exact M|exact D'].
    + cbn [o_segs]. unfold oriented. change ([tri1; tri2] ++ [tri3]) with triangle. rewrite triangle_wind, ltb_t by lra. reflexivity.
Qed.

(** A circle too far away. *)
Definition far_circle : seg := mkSeg SCircle 1 0 (2 * PI) false (at2 (-3 * 10^9) 0) (at2 (-3 * 10^9 + 1) 0) (at2 (-3 * 10^9 + 1) 0).
Lemma far_full : full_circle far_circle.
Proof. split; [reflexivity|]. cbn. repeat split; lra. Qed.
Lemma far_circle_case : fits out_init far_circle /\ closes out_init far_circle /\ covers far_circle (at2 (-3 * 10^9 + 1) 0) /\ add_segment out_init (Some far_circle) = None.
Proof.
  assert (F : fits out_init far_circle) by (split; [reflexivity|left; split; reflexivity]).
  assert (K : closes out_init far_circle) by (left; reflexivity).
  assert (C : covers far_circle (at2 (-3 * 10^9 + 1) 0)).
  { unfold covers. cbn [s_ty far_circle]. unfold dist2. cbn [px py at2 s_cen s_rad far_circle]. ring. }
  split; [exact F|]. split; [exact K|]. split; [exact C|].
  apply (add_undefined out_init far_circle far_circle (at2 (-3 * 10^9 + 1) 0)); [constructor|right; right; exact far_full|exact F|exact K|now left|exact C|cbn [px at2]; lra].
Qed.

(** A closed outline made of an arc and three lines. *)
Lemma keyhole_case : exists o, draw keyhole = Some (yes, o) /\ built made o /\ o_closed o = true /\ length (o_segs o) = 4%nat.
Proof.
  destruct keyhole_turned as (o & v & D & C & S & _). exists o. split; [exact D|]. split; [apply (draw_built made keyhole yes); [exact (proj1 keyhole_made)|exact D]|]. split; [exact C|]. rewrite S. reflexivity.
Qed.

(** A disc, a point in it and one next to it. *)
Lemma dot_case : built made dot_outline /\ o_closed dot_outline = true /\ o_segs dot_outline = [dot] /\
  line_end dot_outline (at2 (1 / 100) (1 / 100)) (-5) /\ dist (at2 (1 / 100) (1 / 100)) (s_cen dot) < s_rad dot /\
  e6 <= 4 * ((-5 - 1 / 100) ^ 2 * Rabs (s_rad dot ^ 2 - (1 / 100 - py (s_cen dot)) ^ 2)).
Proof.
  split; [apply (draw_built made [dot] yes); [|exact dot_drawn]; intros s [<-|[]]; right; right; exact dot_full|].
  split; [reflexivity|]. split; [reflexivity|]. split; [left; cbn; lra|]. split.
  - apply Rsqr_incrst_0; [|apply dist_pos|cbn; lra]. unfold Rsqr. rewrite dist_sq. unfold dist2. cbn [px py at2 s_cen s_rad dot]. lra.
  - cbn [s_rad s_cen dot py at2]. unfold e6. rewrite Rabs_right; lra.
Qed.

Lemma add_taken o s : fits o s ->
  (~ closes o s -> exists w bl tr, add_segment o (Some s) = Some (yes, mkOut (o_segs o ++ [s]) false w (o_bbok o) bl tr)) /\
  (closes o s -> add_segment o (Some s) = None \/
     exists l w bl tr, add_segment o (Some s) = Some (yes, mkOut l true w true bl tr) /\ (l = o_segs o ++ [s] \/ turned (o_segs o ++ [s]) l)).
Proof.
  intros F. destruct (add_cases o s) as [(N & _)|[(_ & N & E)|(_ & K & E)]]; [contradiction|split; [now intros _|contradiction]|split; [contradiction|now intros _]].
Qed.

Lemma triangle_area : exists o, draw triangle = Some (yes, o) /\ built made o /\ o_closed o = true /\ Forall (fun s => s_ty s = SLine) (o_segs o) /\ encloses (o_segs o) 6.
Proof.
  destruct triangle_case as (o & D & _ & _ & _ & _ & o' & A & B & C & S). exists o'.
  split; [|split; [exact B|split; [exact C|]]].
  - change triangle with ([tri1; tri2] ++ [tri3]). unfold draw in D |- *. rewrite fold_left_app, D. exact A.
  - rewrite S. split; [repeat (constructor; [reflexivity|]); constructor|].
    apply encloses_spec; [repeat (constructor; [now left|]); constructor|].
    unfold total. cbn [map fold_right]. unfold sweep, tri1, tri2, tri3, line_of, reverse. cbn. field.
Qed.
