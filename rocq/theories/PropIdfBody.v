(** Properties C137 and C138: the bodies of components and of OTHER outlines of IDF
    boards, and where they are put. *)

From Coq Require Import Reals List Bool Lra.
From Verif Require Import SegModel SegSpec OutModel OutSpec PcbModel PcbSpec IdfGeo IdfGeoSpec IdfGeoCase IdfLoop IdfBody IdfBodySpec IdfBodyFacts.
Import ListNotations.
Open Scope R_scope.

(** C137: seen from its side of the board, a component is turned counterclockwise by its
    angle about its own origin, which is where the file says, and is as high above that
    side as in its own model, plus the offset. *)
Theorem c137_placed thick s p : let q := place_apply (place_component thick s) p in
  let at_ := mkI (vX s + oX s) (vY s + oY s) in
  above (on_bottom s) thick q = pz p + oZ s /\
  seen (on_bottom s) (mkI (ix (plan q) - ix at_) (iy (plan q) - iy at_)) = rotated izero (rad (vA s + oA s)) (plan p).
Proof. exact (place_seen thick s p). Qed.
Print Assumptions c137_placed.

(** Distances are kept, and nothing is mirrored. *)
Theorem c137_rigid thick s : rigid (place_component thick s).
Proof. exact (place_rigid thick s). Qed.
Print Assumptions c137_rigid.

(** Any loop which becomes a closed outline makes a body, if it is 0.001 thick. *)
Theorem c137_made res p l z th : 1 / 1000 <= th -> l <> [] -> Forall loop_seg (l ++ [z]) -> follows p (l ++ [z]) p ->
  Forall (fun s => ~ one_point (to3 (g_end s)) (to3 p) e8) l ->
  (forall s t, In s (l ++ [z]) -> covers (convert_seg s) t -> near_home t) ->
  exists o body, convert_oln out_init (l ++ [z]) = Some (true, o) /\ o_closed o = true /\ all_sharp (mkBoard o [] []) /\
    build_component res (l ++ [z]) th = Some (Part body) /\ component_body res (mkBoard o [] []) th = Some body.
Proof. exact (component_made res p l z th). Qed.
Print Assumptions c137_made.

Example c137_made_case : Forall loop_seg tri_loop /\ follows corner tri_loop corner /\
  Forall (fun s => ~ one_point (to3 (g_end s)) (to3 corner) e8) [line_seg corner right_c; line_seg right_c top_c] /\
  (forall s t, In s tri_loop -> covers (convert_seg s) t -> near_home t).
Proof. exact (conj tri_segs (conj tri_follows (conj tri_open tri_home))). Qed.

(** Without an outline, with less thickness, or with one which cannot be converted there
    is no body, and no error either. *)
Theorem c137_none res l th : l = [] \/ th < 1 / 1000 \/ (exists o, convert_oln out_init l = Some (false, o)) ->
  build_component res l th = Some NoPart.
Proof. exact (component_none res l th). Qed.
Print Assumptions c137_none.

(** All surfaces of the body of a component look outward, and both planes are there
    unless [GetTrimmedPlane] fails (see C120); if the walls succeed they are
    all of the outline from the bottom to the top. *)
Theorem c137_body res b th l : all_sharp b -> 0 < th -> component_body res b th = Some l -> exists ws l1 l2 a1 a2 o1 o2,
  l = ws ++ l1 ++ l2 /\ Forall (fun t => exists s, wall_of b true s t) ws /\
  trimmed_plane res b (th) false = Some (a1, o1, l1) /\ trimmed_plane res (mkBoard o1 (b_cuts b) (b_holes b)) (0) true = Some (a2, o2, l2) /\
  level_if (fst a1) (th) true l1 /\ level_if (fst a2) (0) false l2 /\
  (fst (fst (vertical res b th 0)) = true -> forall p, (exists t, In t ws /\ patch t p) <-> exists s, In s (board_segs b) /\ covers s p /\ 0 <= pz p <= th).
Proof. exact (component_parts res b th l). Qed.
Print Assumptions c137_body.

Example c137_body_case : exists o, convert_oln out_init tri_loop = Some (true, o) /\ all_sharp (mkBoard o [] []) /\
  exists l, component_body e8 (mkBoard o [] []) 1 = Some l.
Proof. exact tri_component. Qed.

(** C138: on the top side the walls of an OTHER outline look outward, but both planes
    look up: the lower one looks into the body. *)
Theorem c138_top res b th bt l : all_sharp b -> 0 < th -> other_body res b false th bt = Some l -> exists ws l1 l2 a1 a2 o1 o2,
  l = ws ++ l1 ++ l2 /\ Forall (fun t => exists s, wall_of b true s t) ws /\
  trimmed_plane res b (th + bt) false = Some (a1, o1, l1) /\ trimmed_plane res (mkBoard o1 (b_cuts b) (b_holes b)) (bt) false = Some (a2, o2, l2) /\
  level_if (fst a1) (th + bt) true l1 /\ level_if (fst a2) (bt) true l2.
Proof. exact (other_top res b th bt l). Qed.
Print Assumptions c138_top.

(** On the bottom side both look down, the upper one into the body; the walls over lines
    look inward, those over arcs and circles outward. *)
Theorem c138_bottom res b th bt l : all_sharp b -> 0 < th -> other_body res b true th bt = Some l -> exists ws l1 l2 a1 a2 o1 o2,
  l = ws ++ l1 ++ l2 /\
  Forall (fun t => exists s, (s_ty s = SLine -> wall_of b false s t) /\ (s_ty s <> SLine -> wall_of b true s t)) ws /\
  trimmed_plane res b (- (th + bt)) true = Some (a1, o1, l1) /\ trimmed_plane res (mkBoard o1 (b_cuts b) (b_holes b)) (- bt) true = Some (a2, o2, l2) /\
  level_if (fst a1) (- (th + bt)) false l1 /\ level_if (fst a2) (- bt) false l2.
Proof. exact (other_bottom res b th bt l). Qed.
Print Assumptions c138_bottom.

Example c138_case : exists o, convert_oln out_init tri_loop = Some (true, o) /\ all_sharp (mkBoard o [] []) /\
  (exists l, other_body e8 (mkBoard o [] []) false 1 (4 / 5) = Some l) /\ (exists l, other_body e8 (mkBoard o [] []) true 1 (4 / 5) = Some l).
Proof. exact tri_others. Qed.

(** After the first body no other one is made, whatever the cutouts do to its outline as
    long as it stays closed. *)
Theorem c138_first_only res bt cut x f cs l o outs s :
  x_loops x = f :: cs -> convert_oln out_init f = Some (true, o) -> convert_all cs = Some (Some outs) ->
  let b := fold_left cut outs (mkBoard o [] []) in
  o_closed (b_out b) = true -> other_body res b (x_bottom x) (x_thick x) bt = Some s ->
  Exists (fun y => x_loops y <> []) l ->
  make_others res bt cut (mkBoard out_init [] []) (x :: l) = Some (false, [s]).
Proof. exact (others_first res bt cut x f cs l o outs s). Qed.
Print Assumptions c138_first_only.

(** So that each of them has a body is not true. *)
Theorem c138_each_refuted cut : length two_others = 2%nat /\ Forall (fun x => x_loops x <> []) two_others /\
  exists s, make_others e8 (4 / 5) cut (mkBoard out_init [] []) two_others = Some (false, [s]).
Proof. exact (conj eq_refl (conj two_nonempty (two_lost cut))). Qed.
Print Assumptions c138_each_refuted.
