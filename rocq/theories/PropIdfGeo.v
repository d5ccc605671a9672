(** Properties C134 to C136: the outlines of IDF boards, their arcs, what they become
    in IGES, and which way round they go. *)

From Coq Require Import Reals List Bool.
From Verif Require Import SegModel SegSpec OutModel OutSpec IdfGeo IdfGeoSpec IdfArc IdfConv IdfLoop IdfWind IdfGeoCase IdfGeoTop.
Import ListNotations.
Open Scope R_scope.

(** C134: the centre and the radius computed for an arc are those of the arc from the
    start to the end which turns by the angle given. *)
Theorem c134_arc a b d : a <> b -> arc_deg d -> let s := arc_seg a b d false in
  g_start s = a /\ g_end s = b /\ g_ang s = d /\ is_arc a b d (g_cen s) (g_rad s).
Proof. exact (arc_claim a b d). Qed.
Print Assumptions c134_arc.

Example c134_arc_case : arc_deg 90 /\ far_apart east north /\ is_arc east north 90 (mkI 0 0) 1.
Proof. exact (conj deg90 (conj north_apart quarter)). Qed.

(** There is one such centre only. *)
Theorem c134_only_one a b d c r c' r' : arc_deg d -> is_arc a b d c r -> is_arc a b d c' r' -> c = c' /\ r = r'.
Proof. exact (arc_unique a b d c r c' r'). Qed.
Print Assumptions c134_only_one.

(** Small angles make a line; angles of nearly a full turn make a circle about the
    first point through the second. *)
Theorem c134_line_circle a b d :
  (line_deg d -> arc_seg a b d false = line_seg a b) /\
  (circle_deg d -> let s := arc_seg a b d false in g_cen s = a /\ g_rad s = away a b /\ g_ang s = 360).
Proof. exact (line_circle_claim a b d). Qed.
Print Assumptions c134_line_circle.

(** In the convention of KiCad the first point is the centre, the second the start; the
    end is where the start is after the turn, up to the ten thousandth part of a degree. *)
Theorem c134_kicad a b d : a <> b -> full_turn d = false -> 1 / 100 <= Rabs d -> exists e, Rabs e <= rad (1 / 10000) /\
  let s := arc_seg a b d true in
  g_cen s = a /\ g_start s = b /\ g_ang s = d /\ g_rad s = away a b /\ g_end s = rotated a (rad d - e) b.
Proof. exact (kicad_arc a b d). Qed.
Print Assumptions c134_kicad.

(** With its ends exchanged a segment is the one from the second point to the first; a
    circle stays where it is. *)
Theorem c134_swapped a b d : a <> b ->
  swap_ends (line_seg a b) = line_seg b a /\
  (arc_deg d -> swap_ends (arc_seg a b d false) = arc_seg b a (- d) false) /\
  (circle_deg d -> swap_ends (arc_seg a b d false) = mkSg a b a (- 360) 0 (away a b)).
Proof. exact (swapped a b d). Qed.
Print Assumptions c134_swapped.

Example c134_swapped_case : east <> north /\ arc_deg 90.
Proof. exact (conj (far_apart_ne east north north_apart) deg90). Qed.

(** An angle above 360 degrees, which no check refuses, makes another arc. *)
Theorem c134_beyond_full_turn_refuted :
  ~ (forall a b d, a <> b -> 1 / 100 < Rabs d -> ~ circle_deg d -> let s := arc_seg a b d false in
     (exists c r, is_arc a b d c r) -> is_arc a b d (g_cen s) (g_rad s)).
Proof. exact beyond_refuted. Qed.
Print Assumptions c134_beyond_full_turn_refuted.

(** The arc put into the outline is travelled as the file says: after each part of the
    way the start has turned by that part of the angle. *)
Theorem c134_converted_arc a b d : far_apart a b -> arc_deg d -> exists c r, is_arc a b d c r /\
  let s := convert_seg (arc_seg a b d false) in
  s_ty s = SArc /\ s_cen s = to3 c /\ s_rad s = r /\ s_start s = to3 a /\ s_end s = to3 b /\
  forall t, 0 <= t <= 1 -> course s t (to3 (rotated c (t * rad d) a)).
Proof. exact (arc_course a b d). Qed.
Print Assumptions c134_converted_arc.

Theorem c134_converted_line_circle a b d : far_apart a b ->
  (convert_seg (line_seg a b) = mkSeg SLine 0 0 0 false origin (to3 a) (to3 b)) /\
  (circle_deg d -> exists p, convert_seg (arc_seg a b d false) = mkSeg SCircle (away a b) 0 (2 * PI) false (to3 a) p p /\
     p = mkPt (ix a + away a b) (iy a) 0).
Proof. exact (fun F => conj (convert_line a b F) (convert_circle a b d F)). Qed.
Print Assumptions c134_converted_line_circle.

(** C135: a loop of lines and arcs which leads back to its start, and does not come near
    it before, becomes a closed outline of the same pieces, as they were or travelled
    the other way round. *)
Theorem c135_loop p l z : l <> [] -> Forall loop_seg (l ++ [z]) -> follows p (l ++ [z]) p ->
  Forall (fun s => ~ one_point (to3 (g_end s)) (to3 p) e8) l ->
  (forall s t, In s (l ++ [z]) -> covers (convert_seg s) t -> near_home t) ->
  exists o, convert_oln out_init (l ++ [z]) = Some (true, o) /\ built made o /\ o_closed o = true /\
    (o_segs o = map convert_seg (l ++ [z]) \/ turned (map convert_seg (l ++ [z])) (o_segs o)).
Proof. exact (convert_closed p l z). Qed.
Print Assumptions c135_loop.

Example c135_loop_case : Forall loop_seg tri_loop /\ follows corner tri_loop corner /\
  Forall (fun s => ~ one_point (to3 (g_end s)) (to3 corner) e8) [line_seg corner right_c; line_seg right_c top_c] /\
  (forall s t, In s tri_loop -> covers (convert_seg s) t -> near_home t).
Proof. exact (conj tri_segs (conj tri_follows (conj tri_open tri_home))). Qed.

(** One which ends elsewhere is taken just as well, and the outline is left open. *)
Theorem c135_open p l q : l <> [] -> Forall loop_seg l -> follows p l q ->
  Forall (fun s => ~ one_point (to3 (g_end s)) (to3 p) e8) l ->
  (forall s t, In s l -> covers (convert_seg s) t -> near_home t) ->
  exists o, convert_oln out_init l = Some (true, o) /\ o_closed o = false /\ o_segs o = map convert_seg l.
Proof. exact (convert_nearly p l q). Qed.
Print Assumptions c135_open.

(** This happens to loops whose end counts as their start when the file is read. *)
Theorem c135_closed_in_idf_refuted : exists o,
  idf_matches nearly corner e5 = true /\ convert_oln out_init nearly_loop = Some (true, o) /\
  o_closed o = false /\ o_segs o = map convert_seg nearly_loop.
Proof. exact nearly_open. Qed.
Print Assumptions c135_closed_in_idf_refuted.

(** Nothing can be added to a closed outline. *)
Theorem c135_again o l : o_closed o = true -> convert_oln o l = Some (false, o).
Proof. exact (convert_again o l). Qed.
Print Assumptions c135_again.

(** C136: segments which follow each other are all taken. *)
Theorem c136_pushed p l q : Forall loop_seg l -> follows p l q -> exists o, pushes iout_init l = Some o /\ l_segs o = l.
Proof. exact (pushed_claim p l q). Qed.
Print Assumptions c136_pushed.

(** A loop of three or more lines is counterclockwise just if its area is not negative. *)
Theorem c136_lines p l q o : (3 <= length l)%nat -> Forall loop_seg l -> Forall (fun s => g_ang s = 0) l -> follows p l q ->
  pushes iout_init l = Some o -> (is_ccw o = true <-> 0 <= area2 p (map g_end l)).
Proof. exact (ccw_lines p l q o). Qed.
Print Assumptions c136_lines.

Example c136_lines_case : pushes iout_init tri_loop = Some (mkIo tri_loop (-12)) /\ is_ccw (mkIo tri_loop (-12)) = true /\
  area2 corner (map g_end tri_loop) = 12.
Proof. exact tri_pushed. Qed.

(** With arcs the answer is right if the area is larger than what is lost by taking
    arcs for two half chords. *)
Theorem c136_arcs p l q o : (3 <= length l)%nat -> Forall loop_seg l -> follows p l q -> pushes iout_init l = Some o ->
  all_lost l < Rabs (seg_area2 l + cross q p) -> (is_ccw o = true <-> 0 < seg_area2 l + cross q p).
Proof. exact (ccw_arcs p l q o). Qed.
Print Assumptions c136_arcs.

Example c136_arcs_case : Forall loop_seg slice /\ follows east slice east /\ all_lost slice < Rabs (seg_area2 slice + cross east east).
Proof. exact slice_case. Qed.

(** Else it may be wrong. *)
Theorem c136_arcs_refuted : exists o, pushes iout_init crescent = Some o /\ Forall loop_seg crescent /\ follows east crescent east /\
  0 < seg_area2 crescent /\ is_ccw o = false.
Proof. exact crescent_wrong. Qed.
Print Assumptions c136_arcs_refuted.

(** For two segments, one of them an arc, it is right. *)
Theorem c136_two p s t o : loop_seg s -> loop_seg t -> follows p [s; t] p -> pushes iout_init [s; t] = Some o ->
  seg_area2 [s; t] <> 0 -> (is_ccw o = true <-> 0 < seg_area2 [s; t]).
Proof. exact (ccw_two_pushed p s t o). Qed.
Print Assumptions c136_two.

Example c136_two_case : loop_seg (arc_seg east south 270 false) /\ loop_seg (line_seg south east) /\
  follows east [arc_seg east south 270 false; line_seg south east] east /\ seg_area2 [arc_seg east south 270 false; line_seg south east] <> 0.
Proof. exact two_case. Qed.
