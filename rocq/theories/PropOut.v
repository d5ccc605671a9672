(** The claims about outlines (C105-C109), each with a concrete case. *)

From Coq Require Import Reals List Bool.
From Verif Require Import SegModel SegSpec SegSplit SegProps CutModel CutSpec CutCases OutModel OutSpec OutFacts OutBox OutArea OutDraw OutInside OutCases.
Import ListNotations.
Open Scope R_scope.

(** ** C105 *)

(** A null pointer is refused. *)
Theorem c105_null : forall o, add_segment o None = Some (no, o).
Proof. exact add_null. Qed.
Print Assumptions c105_null.

(** What does not fit is refused and changes nothing. *)
Theorem c105_refused : forall o s, ~ fits o s -> add_segment o (Some s) = Some (no, o).
Proof. exact add_refused. Qed.
Print Assumptions c105_refused.

(** What fits is taken; the outline is closed exactly if it closes it, and the segments
    are then as they were drawn or travelled the other way round. *)
Theorem c105_taken : forall o s, fits o s ->
  (~ closes o s -> exists w bl tr, add_segment o (Some s) = Some (yes, mkOut (o_segs o ++ [s]) false w (o_bbok o) bl tr)) /\
  (closes o s -> add_segment o (Some s) = None \/
     exists l w bl tr, add_segment o (Some s) = Some (yes, mkOut l true w true bl tr) /\ (l = o_segs o ++ [s] \/ turned (o_segs o ++ [s]) l)).
Proof. exact add_taken. Qed.
Print Assumptions c105_taken.

(** Within 10^9 of the origin the effect is always defined. *)
Theorem c105_defined : forall o s, built made o -> made s -> (forall t p, In t (o_segs o ++ [s]) -> covers t p -> near_home p) ->
  exists r o', add_segment o (Some s) = Some (r, o').
Proof. exact add_defined. Qed.
Print Assumptions c105_defined.

(** Further left than the least [int] closing an outline is undefined behaviour. *)
Theorem c105_undefined : forall o s t p, built made o -> made s -> fits o s -> closes o s ->
  In t (o_segs o ++ [s]) -> covers t p -> px p < - 2^31 - 1 -> add_segment o (Some s) = None.
Proof. exact add_undefined. Qed.
Print Assumptions c105_undefined.

Example c105_case : exists o, draw [tri1; tri2] = Some (yes, o) /\ built made o /\ fits o tri3 /\ closes o tri3 /\ ~ fits o tri2 /\
  exists o', add_segment o (Some tri3) = Some (yes, o') /\ built made o' /\ o_closed o' = true /\ o_segs o' = [reverse tri3; reverse tri2; reverse tri1].
Proof. exact triangle_case. Qed.
Example c105_far : fits out_init far_circle /\ closes out_init far_circle /\ covers far_circle (at2 (-3 * 10^9 + 1) 0) /\ add_segment out_init (Some far_circle) = None.
Proof. exact far_circle_case. Qed.

(** ** C106 *)

(** Whatever is added in whatever order, an open outline is a course of lines and arcs
    and a closed one a circle or a closed course. *)
Theorem c106_shape : forall P o, built P o -> shape o.
Proof. exact built_shape. Qed.
Print Assumptions c106_shape.

(** What [IsContiguous] answers for any list of segments. *)
Theorem c106_contiguous : forall o, is_contiguous o = true <->
  o_closed o = true /\ ((exists c l, o_segs o = c :: l /\ s_ty c = SCircle) \/ ring (o_segs o)).
Proof. exact contiguous_spec. Qed.
Print Assumptions c106_contiguous.

(** For an outline made with [AddSegment] it says whether it is closed. *)
Theorem c106_closed : forall P o, built P o -> is_contiguous o = o_closed o.
Proof. exact built_contiguous. Qed.
Print Assumptions c106_closed.

Example c106_case : exists o, draw keyhole = Some (yes, o) /\ built made o /\ o_closed o = true /\ length (o_segs o) = 4%nat.
Proof. exact keyhole_case. Qed.

(** ** C107 *)

(** A closed outline of lines has its area to the left. *)
Theorem c107_lines : forall P o, built P o -> o_closed o = true -> Forall (fun s => s_ty s = SLine) (o_segs o) ->
  exists v, 0 <= v /\ forall v', encloses (o_segs o) v' <-> v' = v.
Proof. exact lines_counterclockwise. Qed.
Print Assumptions c107_lines.

(** With arcs this holds of the lines through the middles of the arcs. *)
Theorem c107_straightened : forall P o l, built P o -> o_closed o = true -> straightened (o_segs o) l ->
  exists v, 0 <= v /\ forall v', encloses l v' <-> v' = v.
Proof. exact straight_counterclockwise. Qed.
Print Assumptions c107_straightened.

(** But not of the outline: one drawn counterclockwise is turned to clockwise. *)
Theorem c107_arcs_refuted : exists o v, draw keyhole = Some (yes, o) /\ o_closed o = true /\ o_segs o = rev (map reverse keyhole) /\
  0 < v /\ (forall v', encloses keyhole v' <-> v' = v) /\ (forall v', encloses (o_segs o) v' <-> v' = - v).
Proof. exact keyhole_turned. Qed.
Print Assumptions c107_arcs_refuted.

Example c107_case : exists o, draw triangle = Some (yes, o) /\ built made o /\ o_closed o = true /\ Forall (fun s => s_ty s = SLine) (o_segs o) /\ encloses (o_segs o) 6.
Proof. exact triangle_area. Qed.

(** ** C108 *)

(** Every point of the outline is in its box, up to 1e-8. *)
Theorem c108_in_box : forall o s p, built made o -> In s (o_segs o) -> covers s p -> in_box e8 (o_bl o) (o_tr o) p.
Proof. exact built_in_box. Qed.
Print Assumptions c108_in_box.

(** The box of a closed outline is a square with integer corners and even sides. *)
Theorem c108_square : forall P o, built P o -> o_closed o = true -> o_bbok o = true /\ square_box o.
Proof. exact built_square. Qed.
Print Assumptions c108_square.

(** It is not much too large. *)
Theorem c108_tight : forall o, built made o -> o_closed o = true ->
  (exists s p, In s (o_segs o) /\ covers s p /\ px p < px (o_bl o) + 1 + e8) /\ (exists s p, In s (o_segs o) /\ covers s p /\ py p < py (o_bl o) + 1 + e8) /\
  (exists w, spans (o_segs o) w /\ px (o_tr o) - px (o_bl o) < w + 3 + 2 * e8).
Proof. exact built_tight. Qed.
Print Assumptions c108_tight.

Example c108_case : built made dot_outline /\ o_closed dot_outline = true /\ o_segs dot_outline = [dot].
Proof. exact (conj (proj1 dot_case) (conj eq_refl eq_refl)). Qed.

(** ** C109 *)

(** What is answered for a circle; [x] is the place to which the line from [p] is drawn. *)
Theorem c109_circle : forall o c p x e, built made o -> o_closed o = true -> o_segs o = [c] -> in_plane p -> line_end o p x ->
  let clearance := 4 * ((x - px p) ^ 2 * Rabs (s_rad c ^ 2 - (py p - py (s_cen c)) ^ 2)) in
  (e6 <= clearance -> dist p (s_cen c) < s_rad c -> is_inside o p e = (true, e)) /\
  (e6 <= clearance -> s_rad c < dist p (s_cen c) -> is_inside o p e = (false, e)) /\
  (clearance < e6 -> ~ one_point p (mkPt x (py p) 0) e8 -> is_inside o p e = (leb (Rmin (px p) x) (px (s_cen c)) && leb (px (s_cen c)) (Rmax (px p) x), e)).
Proof. exact circle_inside. Qed.
Print Assumptions c109_circle.

(** An outline which is not closed has no inside. *)
Theorem c109_open : forall o p e, o_closed o = false -> is_inside o p e = (false, true).
Proof. exact open_inside. Qed.
Print Assumptions c109_open.

(** A point far outside is taken for inside when it is level with the top of the circle. *)
Theorem c109_level_refuted : draw [dot] = Some (yes, dot_outline) /\
  is_inside dot_outline (at2 (9 / 10) (1 / 50)) false = (true, false) /\ dist (at2 (9 / 10) (1 / 50)) (s_cen dot) > 80 * s_rad dot.
Proof. exact (conj dot_drawn dot_point). Qed.
Print Assumptions c109_level_refuted.

Example c109_case : built made dot_outline /\ o_closed dot_outline = true /\ o_segs dot_outline = [dot] /\
  line_end dot_outline (at2 (1 / 100) (1 / 100)) (-5) /\ dist (at2 (1 / 100) (1 / 100)) (s_cen dot) < s_rad dot /\
  e6 <= 4 * ((-5 - 1 / 100) ^ 2 * Rabs (s_rad dot ^ 2 - (1 / 100 - py (s_cen dot)) ^ 2)).
Proof. exact dot_case. Qed.
