(** The claims about the surfaces made of an outline (C114-C120), each with a concrete
    case. *)

From Coq Require Import Reals List Bool ZArith.
From Verif Require Import SegModel SegSpec SegProps CutCases OutModel OutSpec OutDraw PcbModel PcbSpec PcbCurve PcbPlane PcbCyl PcbWall PcbFace PcbDone PcbBoard PcbCase.
Import ListNotations.
Open Scope R_scope.

(** ** C114 *)

(** Which cylinders are accepted; one which is not is empty afterwards. *)
Theorem c114_accepted : forall c a b, fst (set_cyl c a b) = true <->
  in_plane c /\ in_plane a /\ in_plane b /\ ~ one_point c a e8 /\ ~ one_point c b e8 /\ Rabs (dist a c - dist b c) <= e8.
Proof. exact set_cyl_accepts. Qed.
Print Assumptions c114_accepted.

Theorem c114_refused : forall c a b, fst (set_cyl c a b) = false -> snd (set_cyl c a b) = cyl_clear.
Proof. exact set_cyl_refused. Qed.
Print Assumptions c114_refused.

(** It is made of one to three surfaces. Their upper edges, one after the other, go along
    the arc from the first point counterclockwise to the second. *)
Theorem c114_parts : forall res c a b top bot rev l, fst (set_cyl c a b) = true -> ~ one_point a b e8 -> dist a c = dist b c ->
  cyl_make res (snd (set_cyl c a b)) top bot rev = Some l ->
  (1 <= length l <= 3)%nat /\ Forall (fun t => bound_agrees (t_surf t) (t_out t) /\ t_in t = []) l /\
  exists tops, Forall2 (fun t k => exists r, b_geo (t_out t) = k :: r) l tops /\ follows goes (goes (CArc (Rmax top bot) c a b None)) 0 tops 1.
Proof. exact cyl_alone. Qed.
Print Assumptions c114_parts.

Example c114_case : fst (set_cyl (at2 0 0) (at2 3 (-4)) (at2 (-3) (-4))) = true /\ ~ one_point (at2 3 (-4)) (at2 (-3) (-4)) e8 /\
  dist (at2 3 (-4)) (at2 0 0) = dist (at2 (-3) (-4)) (at2 0 0) /\ cyl_make e8 (snd (set_cyl (at2 0 0) (at2 3 (-4)) (at2 (-3) (-4)))) 1 0 false <> None.
Proof. exact cyl_case. Qed.

(** ** C115 *)

(** Along the bounds of a wall, the curves in the parameters of the surface and those in
    space describe the same closed way; there are no inner bounds. *)
Theorem c115_bounds : forall res top bot s rev l, sharp s -> segment_wall res top bot s rev = Some l ->
  Forall (fun t => bound_agrees (t_surf t) (t_out t) /\ t_in t = []) l.
Proof. exact wall_agrees. Qed.
Print Assumptions c115_bounds.

(** Together the surfaces cover what is above the segment between the heights, and no
    more. *)
Theorem c115_covers : forall res top bot s rev l p, sharp s -> segment_wall res top bot s rev = Some l ->
  ((exists t, In t l /\ patch t p) <-> covers s p /\ Rmin top bot <= pz p <= Rmax top bot).
Proof. exact wall_covers. Qed.
Print Assumptions c115_covers.

(** Lines, and arcs whose points are at the same distance from the centre, are sharp. *)
Theorem c115_sharp_line : forall a b s, set_line a b = (true, s) -> sharp s.
Proof. exact set_line_sharp. Qed.
Print Assumptions c115_sharp_line.
Theorem c115_sharp_arc : forall c a b cw s, set_arc c a b cw = (true, s) -> ~ one_point a b e8 -> dist a c = dist b c -> sharp s.
Proof. exact set_arc_sharp. Qed.
Print Assumptions c115_sharp_arc.

Example c115_case : sharp drill /\ (exists l, segment_wall e8 1 0 drill true = Some l) /\
  exists s, set_arc (at2 0 0) (at2 3 (-4)) (at2 (-3) (-4)) false = (true, s) /\ sharp s /\ s_ty s = SArc /\ exists l, segment_wall e8 1 0 s false = Some l.
Proof. exact walls_case. Qed.

(** ** C116 *)

(** With the top above the bottom the normal points to the right of the way along the
    segment, or to the left. *)
Theorem c116_faces : forall res top bot s rev l, sharp s -> bot < top -> segment_wall res top bot s rev = Some l -> Forall (faces rev s) l.
Proof. exact wall_faces. Qed.
Print Assumptions c116_faces.

(** The other way round, walls over lines are turned, walls over arcs and circles not. *)
Theorem c116_swapped : forall res top bot s rev l, sharp s -> top < bot -> segment_wall res top bot s rev = Some l ->
  Forall (faces (if match s_ty s with SLine => true | _ => false end then negb rev else rev) s) l.
Proof. exact wall_faces_swapped. Qed.
Print Assumptions c116_swapped.

Example c116_case : sharp floor_line /\ s_ty floor_line = SLine /\ (exists l, segment_wall e8 1 0 floor_line false = Some l) /\
  (exists l, segment_wall e8 0 1 floor_line false = Some l) /\ sharp drill /\ exists l, segment_wall e8 0 1 drill true = Some l.
Proof. exact swapped_case. Qed.

(** ** C117 *)

(** Over a line there is a wall when the heights are 1e-6 apart. *)
Theorem c117_line : forall res top bot s rev, s_ty s = SLine -> at_home (s_start s) -> at_home (s_end s) ->
  - 10^6 <= top <= 10^6 -> - 10^6 <= bot <= 10^6 -> 0 <= res <= e8 ->
  (segment_wall res top bot s rev <> None <-> e6 <= Rabs (top - bot)).
Proof. exact wall_made_line. Qed.
Print Assumptions c117_line.

(** Over an arc or circle there is none when they are less than 0.001 apart, or when an
    end of the arc is next to the place where it crosses the level of its centre. *)
Theorem c117_round : forall res top bot s rev, sharp s -> s_ty s = SArc \/ s_ty s = SCircle -> (forall p, covers s p -> at_home p) ->
  - 10^6 <= top <= 10^6 -> - 10^6 <= bot <= 10^6 -> 0 <= res <= e8 ->
  (segment_wall res top bot s rev = None <-> Rabs (top - bot) < 1 / 1000 \/ (s_ty s = SArc /\ crosses_next res (Rmax top bot) s)).
Proof. exact wall_made_round. Qed.
Print Assumptions c117_round.

(** A closed outline whose arc starts 1e-9 below the level of its centre: there are no
    walls and there is no plane. *)
Theorem c117_low_start_refuted : exists o, draw dome = Some (yes, o) /\ o_segs o = dome /\ all_sharp (mkBoard o [] []) /\
  vertical e8 (mkBoard o [] []) 1 0 = (no, []) /\ (exists o', trimmed_plane e8 (mkBoard o [] []) 1 false = Some (no, o', [])).
Proof. exact dome_fails. Qed.
Print Assumptions c117_low_start_refuted.

Example c117_case : s_ty floor_line = SLine /\ at_home (s_start floor_line) /\ at_home (s_end floor_line) /\ sharp drill /\ (forall p, covers drill p -> at_home p).
Proof. exact made_case. Qed.

(** ** C118 *)

(** The curves in space which stand for a segment go along it, one after the other. *)
Theorem c118_curves : forall z s, sharp s -> exists l, get_curves z s = Some l /\ follows goes (course_at z s) 0 l 1.
Proof. exact curves_follow. Qed.
Print Assumptions c118_curves.

(** Those in the parameters of the plane over a square box go the same way. *)
Theorem c118_plane_curves : forall bl tr z rev s, px bl < px tr -> px tr - px bl = py tr - py bl -> sharp s ->
  exists l, curve_on_plane (px bl) (px tr) (py bl) z s rev = Some l /\ follows (lifted (plane_surf bl tr z rev)) (course_at z s) 0 l 1.
Proof. exact (fun bl tr z rev s w q => plane_curves_follow bl tr z rev w q s). Qed.
Print Assumptions c118_plane_curves.

(** Every transform is marked as form 1, which stands for the determinant -1; all have
    the determinant 1. *)
Theorem c118_form_of_curves_refuted : forall z s l c m, get_curves z s = Some l -> In c l -> transform c = Some m -> xf_form m = 1%Z /\ det m = 1.
Proof. exact flips_curves. Qed.
Print Assumptions c118_form_of_curves_refuted.
Theorem c118_form_of_walls_refuted : forall res top bot s rev l t c m, segment_wall res top bot s rev = Some l -> In t l -> In c (b_geo (t_out t)) ->
  transform c = Some m -> xf_form m = 1%Z /\ det m = 1.
Proof. exact flips_walls. Qed.
Print Assumptions c118_form_of_walls_refuted.

Example c118_case : exists s l t c m, set_arc (at2 0 0) (at2 3 (-4)) (at2 (-3) (-4)) true = (true, s) /\ sharp s /\
  (exists l' c' m', get_curves 1 s = Some l' /\ In c' l' /\ transform c' = Some m') /\
  segment_wall e8 1 0 drill true = Some l /\ In t l /\ In c (b_geo (t_out t)) /\ transform c = Some m.
Proof. exact forms_case. Qed.

(** ** C119 *)

(** Walls of a board are made when the outline is closed and there is a wall over every
    segment of the outline, the holes and the cutouts. *)
Theorem c119_answer : forall res b top bot, let r := vertical res b top bot in
  snd (fst r) = negb (fst (fst r)) /\
  (fst (fst r) = true <-> o_closed (b_out b) = true /\ o_segs (b_out b) <> [] /\
     Forall (fun s => segment_wall res top bot s false <> None) (o_segs (b_out b)) /\
     Forall (fun s => segment_wall res top bot s true <> None) (b_holes b ++ concat (b_cuts b))).
Proof. exact vertical_answer. Qed.
Print Assumptions c119_answer.

Theorem c119_covers : forall res b top bot p, all_sharp b -> fst (fst (vertical res b top bot)) = true ->
  ((exists t, In t (snd (vertical res b top bot)) /\ patch t p) <-> exists s, In s (board_segs b) /\ covers s p /\ Rmin top bot <= pz p <= Rmax top bot).
Proof. exact vertical_covers. Qed.
Print Assumptions c119_covers.

Theorem c119_sides : forall res b top bot t, all_sharp b -> In t (snd (vertical res b top bot)) -> fst (fst (vertical res b top bot)) = true ->
  bound_agrees (t_surf t) (t_out t) /\ t_in t = [] /\
  exists s, (In s (o_segs (b_out b)) /\ (bot < top -> faces false s t)) \/ (In s (b_holes b ++ concat (b_cuts b)) /\ (bot < top -> faces true s t)).
Proof. exact vertical_sides. Qed.
Print Assumptions c119_sides.

(** After a failure the list holds the walls over the segments before the one over which
    there is none. *)
Theorem c119_failure : forall res b top bot, fst (fst (vertical res b top bot)) = false ->
  exists done ws, Forall2 (fun x w => segment_wall res top bot (fst x) (snd x) = Some w) done ws /\ snd (vertical res b top bot) = concat ws /\
    (o_closed (b_out b) = true -> o_segs (b_out b) <> [] -> exists s rev rest, segment_wall res top bot s rev = None /\
      map (fun s => (s, false)) (o_segs (b_out b)) ++ map (fun s => (s, true)) (b_holes b ++ concat (b_cuts b)) = done ++ (s, rev) :: rest).
Proof. exact vertical_failure. Qed.
Print Assumptions c119_failure.

Example c119_case : exists o, draw plate = Some (yes, o) /\ o_segs o = plate /\ all_sharp (mkBoard o [] [drill]) /\ fst (vertical e8 (mkBoard o [] [drill]) 1 0) = yes.
Proof. exact plate_walls. Qed.

(** ** C120 *)

(** A plane is made when the outline is closed and no beginning of the curves of a bound
    is taken for closed; then its bounds follow the outline, the cutouts and the holes. *)
Theorem c120_plane : forall res b z rev a o l, all_sharp b -> trimmed_plane res b z rev = Some (a, o, l) ->
  snd a = negb (fst a) /\ o_segs o = o_segs (b_out b) /\ o_closed o = o_closed (b_out b) /\
  (fst a = true <-> o_closed (b_out b) = true /\ o_segs (b_out b) <> [] /\
     Forall (fun l => open_to_end res (par_of o z rev l) /\ open_to_end res (geo_of z l)) (bounding b)) /\
  (fst a = false -> l = []) /\
  (fst a = true -> exists t, l = [t] /\ t_surf t = plane_surf (o_bl o) (o_tr o) z rev /\
     px (o_bl o) < px (o_tr o) /\ px (o_tr o) - px (o_bl o) = py (o_tr o) - py (o_bl o) /\
     Forall2 (bound_follows z (t_surf t)) (bounding b) (t_out t :: t_in t)).
Proof. exact trimmed_plane_cases. Qed.
Print Assumptions c120_plane.

(** The plane is level and faces up, or down when asked for. *)
Theorem c120_level : forall bl tr z rev u v, pz (surf_at (plane_surf bl tr z rev) u v) = z.
Proof. exact plane_level. Qed.
Print Assumptions c120_level.
Theorem c120_normal : forall bl tr z rev u v, px tr - px bl = py tr - py bl ->
  normal (plane_surf bl tr z rev) u v (mkPt 0 0 ((if rev then -1 else 1) * (px tr - px bl)^2)).
Proof. exact plane_normal. Qed.
Print Assumptions c120_normal.

(** All of the outline lies over the plane, up to 1e-8. *)
Theorem c120_box : forall o o', Forall sharp (o_segs o) -> o_closed o = true -> o_segs o <> [] -> calc_box o = Some o' ->
  forall s p, In s (o_segs o) -> covers s p -> in_box e8 (o_bl o') (o_tr o') p.
Proof. exact (fun o o' h c n e => proj2 (proj2 (proj2 (proj2 (calc_box_sharp o o' h c n e))))). Qed.
Print Assumptions c120_box.

Theorem c120_defined : forall res b z rev, all_sharp b -> (forall s p, In s (o_segs (b_out b)) -> covers s p -> near_home p) -> trimmed_plane res b z rev <> None.
Proof. exact trimmed_plane_defined. Qed.
Print Assumptions c120_defined.

(** A board 300 wide with a last edge of 0.4: with the resolution 1e-8 there is a plane,
    with 0.001, which a file read without one has, there is none. *)
Theorem c120_resolution_refuted : exists o, draw plate = Some (yes, o) /\ o_segs o = plate /\ all_sharp (mkBoard o [] [drill]) /\
  (exists o' t, trimmed_plane e8 (mkBoard o [] [drill]) 1 false = Some (yes, o', [t])) /\
  (exists o', trimmed_plane (1 / 1000) (mkBoard o [] [drill]) 1 false = Some (no, o', [])).
Proof. exact plate_plane. Qed.
Print Assumptions c120_resolution_refuted.
