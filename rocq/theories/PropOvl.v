(** The claims about merging outlines, cutting one out of another and adding cutouts
    (C121-C124), each with a concrete case. *)

From Coq Require Import Reals List Bool.
From Verif Require Import SegModel SegSpec SegProps CutModel CutSpec CutCases OutModel OutSpec OutDraw OutOps OvlModel OvlSpec OvlOps OvlAdd OvlCase OvlHang.
Import ListNotations.
Open Scope R_scope.

(** ** C121 *)

(** When the answer is true, the outline is the part of the one which starts out of the
    other followed by the part of the other which starts out of it, and closed. *)
Theorem c121_union : forall o b, whole_exactly o -> whole_exactly b -> exact_corners (o_segs o) (o_segs b) -> forall r o' a',
  Forall (fun s => s_cw s = false) (o_segs o) -> Forall (fun s => s_cw s = false) (o_segs b) -> passes_once (o_segs o) (o_segs b) ->
  op_outline o (Some b) false = Merged r o' a' -> fst r = true ->
  r = yes /\ a' = None /\ whole_exactly o' /\ is_contiguous o' = true /\ exists p q w x w' x' inside,
    meets_at (o_segs o) (o_segs b) p /\ meets_at (o_segs o) (o_segs b) q /\ ~ one_point p q e8 /\
    parted o b p q w x w' x' inside /\ turned_round (if inside then x ++ w' else w ++ x') (o_segs o').
Proof. exact union_result. Qed.
Print Assumptions c121_union.

(** There is always an answer, without clockwise arcs or when an outline is cut out. *)
Theorem c121_answers : forall o b sub, whole_exactly o -> whole_exactly b -> exact_corners (o_segs o) (o_segs b) ->
  sub = true \/ (Forall (fun s => s_cw s = false) (o_segs o) /\ Forall (fun s => s_cw s = false) (o_segs b)) ->
  exists r o' a', op_outline o (Some b) sub = Merged r o' a'.
Proof. exact outline_answers. Qed.
Print Assumptions c121_answers.

(** A clockwise arc and the call need not return: a board with a round bite. *)
Theorem c121_answers_refuted : exists o b, draw bitten = Some (yes, o) /\ draw (square (-13) (-9)) = Some (yes, b) /\ whole_exactly o /\ whole_exactly b /\
  exact_corners (o_segs o) (o_segs b) /\ op_outline o (Some b) false = Hangs.
Proof. exact bite_hangs. Qed.
Print Assumptions c121_answers_refuted.

Example c121_case : exists o b, draw (square 0 0) = Some (yes, o) /\ draw (square 5 5) = Some (yes, b) /\ whole_exactly o /\ whole_exactly b /\
  Forall (fun s => s_cw s = false) (o_segs o) /\ Forall (fun s => s_cw s = false) (o_segs b) /\ exact_corners (o_segs o) (o_segs b) /\ passes_once (o_segs o) (o_segs b) /\
  forall sub, op_outline o (Some b) sub = Merged yes (mkOut (if sub then notched else wide) true (o_wind o) false (o_bl o) (o_tr o)) None.
Proof. exact squares_meet. Qed.

(** ** C122 *)

(** When the answer is true, the outline is the part which starts out of the other one
    followed by the part of the other which starts inside, backwards; unless the latter
    is the part from the first point to the second and has more than one segment: then
    the outline is not contiguous. *)
Theorem c122_difference : forall o b, whole_exactly o -> whole_exactly b -> exact_corners (o_segs o) (o_segs b) -> forall r o' a',
  op_outline o (Some b) true = Merged r o' a' -> fst r = true ->
  r = yes /\ a' = None /\ exists p q w x w' x' inside,
    meets_at (o_segs o) (o_segs b) p /\ meets_at (o_segs o) (o_segs b) q /\ ~ one_point p q e8 /\ parted o b p q w x w' x' inside /\
    ((inside = true \/ length w' = 1%nat) -> whole_exactly o' /\ is_contiguous o' = true /\ turned_round (if inside then x ++ rev (map reverse x') else w ++ rev (map reverse w')) (o_segs o')) /\
    (inside = false -> length w' <> 1%nat -> is_contiguous o' = false).
Proof. exact difference_result. Qed.
Print Assumptions c122_difference.

(** The corner of a square is cut off with a square: true, and the outline is broken. *)
Theorem c122_contiguous_refuted : exists o b o', draw (square 0 0) = Some (yes, o) /\ draw (square (-5) (-5)) = Some (yes, b) /\ whole_exactly o /\ whole_exactly b /\
  exact_corners (o_segs o) (o_segs b) /\ op_outline o (Some b) true = Merged yes o' None /\ o_segs o' = jumbled /\ is_contiguous o' = false.
Proof. exact corner_jumbled. Qed.
Print Assumptions c122_contiguous_refuted.

Example c122_case : exists o b, draw (square 0 0) = Some (yes, o) /\ draw (square 5 5) = Some (yes, b) /\ whole_exactly o /\ whole_exactly b /\
  exact_corners (o_segs o) (o_segs b) /\ op_outline o (Some b) true = Merged yes (mkOut notched true (o_wind o) false (o_bl o) (o_tr o)) None.
Proof. destruct squares_meet as (o & b & D & D' & Wo & Wb & _ & _ & E & _ & R). exists o, b. exact (conj D (conj D' (conj Wo (conj Wb (conj E (R true)))))). Qed.

(** ** C123 *)

(** Whether the outline is closed, its direction and its box are kept, the box is called
    out of date; the argument is gone exactly when the answer is true. *)
Theorem c123_keeps : forall o a sub r o' a', op_outline o a sub = Merged r o' a' ->
  o_closed o' = o_closed o /\ o_wind o' = o_wind o /\ o_bbok o' = false /\ o_bl o' = o_bl o /\ o_tr o' = o_tr o /\
  (r = yes \/ r = no \/ r = (false, false)) /\ (r = yes -> a' = None) /\ (a <> None -> r <> yes -> a' <> None).
Proof. exact outline_keeps. Qed.
Print Assumptions c123_keeps.

Theorem c123_refused : forall o a sub, o_closed o = false \/ a = None \/ (exists b, a = Some b /\ o_closed b = false) ->
  op_outline o a sub = Merged no (mkOut (o_segs o) (o_closed o) (o_wind o) false (o_bl o) (o_tr o)) a.
Proof. exact outline_refused. Qed.
Print Assumptions c123_refused.

Theorem c123_misses : forall o b sub, o_closed o = true -> o_closed b = true -> apart (o_segs o) (o_segs b) ->
  op_outline o (Some b) sub = Merged (false, false) (mkOut (o_segs o) true (o_wind o) false (o_bl o) (o_tr o)) (Some b).
Proof. exact outline_misses. Qed.
Print Assumptions c123_misses.

(** A circle within this one is an error when it is added, and none when it is cut out; a
    circle around this one is an error. *)
Theorem c123_circles : forall o b s t sub, o_closed o = true -> o_closed b = true -> o_segs o = [s] -> o_segs b = [t] ->
  full_circle s -> full_circle t -> ~ alike s t -> ~ touching s t ->
  let kept := mkOut [s] true (o_wind o) false (o_bl o) (o_tr o) in
  (dist (s_cen s) (s_cen t) <= s_rad s - s_rad t -> op_outline o (Some b) sub = Merged (false, negb sub) kept (Some b)) /\
  (dist (s_cen s) (s_cen t) <= s_rad t - s_rad s -> op_outline o (Some b) sub = Merged no kept (Some b)).
Proof. exact circles_within. Qed.
Print Assumptions c123_circles.

Example c123_circles_case : full_circle circle5 /\ full_circle circle3 /\ ~ alike circle5 circle3 /\ ~ touching circle5 circle3 /\
  dist (s_cen circle5) (s_cen circle3) <= s_rad circle5 - s_rad circle3.
Proof. exact circles_inside. Qed.

Example c123_case : exists o b, draw (square 0 0) = Some (yes, o) /\ draw (square 50 50) = Some (yes, b) /\ o_closed o = true /\ o_closed b = true /\ apart (o_segs o) (o_segs b).
Proof. exact squares_closed. Qed.

(** ** C124 *)

(** True: the argument is taken over; false: there is an error and it is the caller's. *)
Theorem c124_answer : forall b a ov r b' a', add_cut b a ov = Added r b' a' -> (r = yes /\ a' = None) \/ (r = no /\ (a <> None -> a' <> None)).
Proof. exact cut_answer. Qed.
Print Assumptions c124_answer.

Theorem c124_hole_answer : forall b a ov, exists r b' a', add_hole b a ov = Added r b' a' /\ ((r = yes /\ a' = None) \/ (r = no /\ (a <> None -> a' <> None))).
Proof. exact hole_answer. Qed.
Print Assumptions c124_hole_answer.

(** At most one cutout more. *)
Theorem c124_keeps : forall b a ov r b' a', add_cut b a ov = Added r b' a' ->
  p_holes b' = p_holes b /\ (length (p_cuts b') = length (p_cuts b) \/ (length (p_cuts b') = S (length (p_cuts b)) /\ r = yes /\ (ov = false -> p_out b' = p_out b)))%nat.
Proof. exact cut_keeps. Qed.
Print Assumptions c124_keeps.

(** What meets nothing is stored, as is everything when overlaps are not looked for. *)
Theorem c124_stored : forall b x ov, o_closed x = true ->
  ov = false \/ (o_closed (p_out b) = true /\ apart (o_segs (p_out b)) (o_segs x) /\ (forall c, In c (p_cuts b) -> o_closed c = true /\ apart (o_segs c) (o_segs x))) ->
  exists o' cuts', add_cut b (Some x) ov = Added yes (mkPlate o' (cuts' ++ [x]) (p_holes b)) None /\ same_but_box (p_out b) o' /\ Forall2 same_but_box (p_cuts b) cuts'.
Proof. exact cut_stored. Qed.
Print Assumptions c124_stored.

Theorem c124_hole_stored : forall b c ov, s_ty c = SCircle ->
  ov = false \/ (o_closed (p_out b) = true /\ (forall s, In s (o_segs (p_out b)) -> intersections s c = nothing INone) /\ (forall x, In x (p_cuts b) -> o_closed x = true /\ (forall s, In s (o_segs x) -> intersections s c = nothing INone))) ->
  exists o' cuts', add_hole b (Some c) ov = Added yes (mkPlate o' cuts' (p_holes b ++ [c])) None /\ same_but_box (p_out b) o' /\ Forall2 same_but_box (p_cuts b) cuts'.
Proof. exact hole_stored. Qed.
Print Assumptions c124_hole_stored.

(** What is cut out of the outline is not stored; what is merged with a cutout is not
    compared with those after it. *)
Theorem c124_taken : forall b x r o', o_closed x = true -> op_outline (p_out b) (Some x) true = Merged r o' None -> fst r = true ->
  add_cut b (Some x) true = Added yes (mkPlate o' (p_cuts b) (p_holes b)) None.
Proof. exact cut_taken. Qed.
Print Assumptions c124_taken.

Theorem c124_merged : forall b x c1 c c2 a' c', o_closed x = true -> o_closed (p_out b) = true -> apart (o_segs (p_out b)) (o_segs x) -> p_cuts b = c1 ++ c :: c2 ->
  (forall u, In u c1 -> o_closed u = true /\ apart (o_segs u) (o_segs x)) -> op_outline c (Some x) false = Merged yes c' a' ->
  exists o1 c1', add_cut b (Some x) true = Added yes (mkPlate o1 (c1' ++ c' :: c2) (p_holes b)) None /\ same_but_box (p_out b) o1 /\ Forall2 same_but_box c1 c1'.
Proof. intros b x c1 c c2 a' c'. exact (cut_merged b x c1 c c2 a' c'). Qed.
Print Assumptions c124_merged.

(** A cutout need not lie on the board, although overlaps are looked for. *)
Theorem c124_inside_refuted : exists o b, draw (square 0 0) = Some (yes, o) /\ draw (square 50 50) = Some (yes, b) /\
  exists o', add_cut (mkPlate o [] []) (Some b) true = Added yes (mkPlate o' [b] []) None /\ same_but_box o o' /\
  (forall s v, In s (o_segs o) -> covers s v -> px v <= 10 /\ py v <= 10) /\ (forall s v, In s (o_segs b) -> covers s v -> 50 <= px v /\ 50 <= py v).
Proof. exact stored_outside. Qed.
Print Assumptions c124_inside_refuted.

Example c124_case : exists o b, draw (square 0 0) = Some (yes, o) /\ draw (square 5 5) = Some (yes, b) /\ forall cuts holes,
  add_cut (mkPlate o cuts holes) (Some b) true = Added yes (mkPlate (mkOut notched true (o_wind o) false (o_bl o) (o_tr o)) cuts holes) None.
Proof. exact notch_taken. Qed.
(** Two of the same cutout: only the first is merged. *)
Example c124_case_merged : exists o c x, draw (square (-50) (-50)) = Some (yes, o) /\ draw (square 0 0) = Some (yes, c) /\ draw (square 5 5) = Some (yes, x) /\ 
  exists o', add_cut (mkPlate o [c; c] []) (Some x) true = Added yes (mkPlate o' [mkOut wide true (o_wind c) false (o_bl c) (o_tr c); c] []) None.
Proof. exact cutouts_merged. Qed.
