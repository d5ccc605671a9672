(** The claims about what is inside an outline of lines and about operations of an
    outline with a circle (C110-C113), each with a concrete case. *)

From Coq Require Import Reals List Bool.
From Verif Require Import SegModel SegSpec SegSplit SegProps CutModel CutSpec CutCases OutModel OutSpec OutFacts OutCases OutPoly OutCut OutDisc OutOps OutLost.
Import ListNotations.
Open Scope R_scope.

(** ** C110 *)

(** For an outline of lines which the point keeps away from, the answer is whether the
    number of lines which pass to the right of the point is odd; it is the same on the
    left. *)
Theorem c110_polygon : forall o p x e, built made o -> o_closed o = true -> Forall (fun s => s_ty s = SLine) (o_segs o) -> exact_ring (o_segs o) ->
  (forall s, In s (o_segs o) -> at_home (s_start s) /\ at_home (s_end s)) -> in_plane p -> at_home p -> line_end o p x -> 1 <= Rabs (x - px p) ->
  (forall s, In s (o_segs o) -> clear_of p x s) ->
  exists n m, counted (passes_right p) (o_segs o) n /\ counted (passes_left p) (o_segs o) m /\ Nat.odd n = Nat.odd m /\ is_inside o p e = (Nat.odd n, e).
Proof. exact polygon_inside. Qed.
Print Assumptions c110_polygon.

Example c110_case : exists o x, draw triangle = Some (yes, o) /\ built made o /\ o_closed o = true /\ Forall (fun s => s_ty s = SLine) (o_segs o) /\ exact_ring (o_segs o) /\
  (forall s, In s (o_segs o) -> at_home (s_start s) /\ at_home (s_end s)) /\ at_home (at2 1 1) /\ line_end o (at2 1 1) x /\ 1 <= Rabs (x - 1) /\
  (forall s, In s (o_segs o) -> clear_of (at2 1 1) x s) /\ is_inside o (at2 1 1) false = (true, false).
Proof. exact triangle_inside. Qed.

(** With an arc the answer can be wrong: a disc with a sector cut out, and a point in the
    cut from which one gets away downwards without meeting the outline. *)
Theorem c110_arc_refuted : exists o, draw mouth = Some (yes, o) /\ whole o /\ is_inside o (at2 (-1) (-3)) false = (true, false) /\
  (forall s y, In s (o_segs o) -> y <= -3 -> ~ covers s (at2 (-1) y)).
Proof. exact mouth_lost. Qed.
Print Assumptions c110_arc_refuted.

(** ** C111 *)

(** What is reported as done leaves a closed course, unless a line or arc meets the
    circle in two places. *)
Theorem c111_joined : forall o c sub r o', whole o -> (forall s, In s (o_segs o) -> piece s -> ~ met_twice s c) ->
  op_circle o (Some c) sub = (r, o') -> fst r = true -> r = yes /\ whole o' /\ is_contiguous o' = true.
Proof. exact op_joined. Qed.
Print Assumptions c111_joined.

Example c111_case : forall sub, whole out5 /\ (forall s, In s (o_segs out5) -> piece s -> ~ met_twice s circle8) /\ exists o', op_circle out5 (Some circle8) sub = (yes, o').
Proof.
  intros sub. split; [split; [reflexivity|]; left; exists circle5; split; reflexivity|]. split; [|apply op_58]. intros s [<-|[]] [H|H]; discriminate.
Qed.

(** An arc which meets the circle in two places: a circle is added to a disc with a piece
    cut off, the answer is true, the result is no closed course and the upper part of the
    disc is gone. *)
Theorem c111_lost_refuted : exists o o', draw bowl = Some (yes, o) /\ whole o /\ full_circle ball /\ op_circle o (Some ball) false = (yes, o') /\
  is_contiguous o' = false /\ (forall s, In s (o_segs o') -> ~ covers s (at2 0 5)).
Proof. exact bowl_lost. Qed.
Print Assumptions c111_lost_refuted.

(** ** C112 *)

(** Two discs whose edges cross: what is left of the edge of the first is what is not
    inside the second, and of the edge of the second what is outside the first or, for
    the difference, inside it. *)
Theorem c112_crossing : forall o s c sub, built made o -> o_closed o = true -> o_segs o = [s] -> full_circle c ->
  (forall m, covers c m -> in_plane m -> in_line (s_cen s) (s_cen c) m -> level_clear o s m) ->
  forall r o', op_circle o (Some c) sub = (r, o') -> fst r = true ->
  r = yes /\ exists s' sp, o_segs o' = [s'; sp] /\
    (forall v, covers s' v <-> dist v (s_cen s) = s_rad s /\ s_rad c <= dist v (s_cen c)) /\
    (forall v, covers sp v <-> dist v (s_cen c) = s_rad c /\ (if sub then dist v (s_cen s) <= s_rad s else s_rad s <= dist v (s_cen s))).
Proof. exact discs. Qed.
Print Assumptions c112_crossing.

(** It is done whenever they cross in points which are told apart. *)
Theorem c112_done : forall o s c sub, built made o -> o_closed o = true -> o_segs o = [s] -> full_circle c ->
  (forall m, covers c m -> in_plane m -> in_line (s_cen s) (s_cen c) m -> level_clear o s m) ->
  (forall p, common s c p -> in_plane p -> ~ one_point (s_cen c) p e8) ->
  (forall p q, common s c p -> common s c q -> in_plane p -> in_plane q -> ~ same_place p q -> ~ one_point p q e8) ->
  ~ alike s c -> ~ touching s c -> Rabs (s_rad s - s_rad c) < dist (s_cen s) (s_cen c) <= s_rad s + s_rad c ->
  fst (fst (op_circle o (Some c) sub)) = true.
Proof. exact discs_done. Qed.
Print Assumptions c112_done.

(** In all other cases nothing is done; it is an error unless they are apart or what is
    to be taken away is inside. *)
Theorem c112_apart : forall o s c sub, built made o -> o_closed o = true -> o_segs o = [s] -> full_circle c ->
  let d := dist (s_cen s) (s_cen c) in let r := s_rad s in let r2 := s_rad c in
  let refused e := op_circle o (Some c) sub = ((false, e), mkOut [s] true (o_wind o) false (o_bl o) (o_tr o)) in
  (r + r2 < d -> refused false) /\
  (d <= r + r2 -> alike s c \/ touching s c -> refused true) /\
  (d <= r + r2 -> ~ alike s c -> ~ touching s c -> d <= r - r2 -> refused (negb sub)) /\
  (d <= r + r2 -> ~ alike s c -> ~ touching s c -> d <= r2 - r -> refused true).
Proof. exact discs_apart. Qed.
Print Assumptions c112_apart.

Example c112_case : draw [circle5] = Some (yes, out5) /\ built made out5 /\ o_segs out5 = [circle5] /\ full_circle circle8 /\
  (forall m, covers circle8 m -> in_plane m -> in_line (s_cen circle5) (s_cen circle8) m -> level_clear out5 circle5 m) /\
  intersections circle5 circle8 = found [at2 4 3; at2 4 (-3)] INone /\ forall sub, exists o', op_circle out5 (Some circle8) sub = (yes, o').
Proof. exact (conj circle5_drawn (conj out5_built (conj eq_refl (conj circle8_full (conj out5_clear (conj circles_58 op_58)))))). Qed.

(** ** C113 *)

(** Whatever the answer, the box stays as it was and is marked as not valid; when
    nothing is done without an error the segments are those from before. *)
Theorem c113_kept : forall o a sub r o', op_circle o a sub = (r, o') ->
  o_closed o' = o_closed o /\ o_wind o' = o_wind o /\ o_bbok o' = false /\ o_bl o' = o_bl o /\ o_tr o' = o_tr o /\
  (r = yes \/ r = no \/ r = (false, false)) /\ (r = (false, false) -> o_segs o' = o_segs o).
Proof. exact op_keeps. Qed.
Print Assumptions c113_kept.

(** An open outline, a null pointer and anything but a circle are refused. *)
Theorem c113_refused : forall o a sub, o_closed o = false \/ a = None \/ (exists c, a = Some c /\ s_ty c <> SCircle) ->
  op_circle o a sub = (no, mkOut (o_segs o) (o_closed o) (o_wind o) false (o_bl o) (o_tr o)).
Proof. exact op_refused. Qed.
Print Assumptions c113_refused.

(** A circle which no segment meets changes nothing and is no error. *)
Theorem c113_misses : forall o c sub, o_closed o = true -> s_ty c = SCircle -> (forall s, In s (o_segs o) -> intersections s c = nothing INone) ->
  op_circle o (Some c) sub = ((false, false), mkOut (o_segs o) true (o_wind o) false (o_bl o) (o_tr o)).
Proof. exact op_misses. Qed.
Print Assumptions c113_misses.

(** As the box is stale, a point of the union of two discs is said to be outside. *)
Theorem c113_stale_box_refuted : exists o', draw [circle5] = Some (yes, out5) /\ op_circle out5 (Some circle8) false = (yes, o') /\
  o_bl o' = at2 (-5) (-5) /\ o_tr o' = at2 5 5 /\ dist (at2 12 0) (s_cen circle8) < s_rad circle8 /\ is_inside o' (at2 12 0) false = (false, false).
Proof. exact stale_box. Qed.
Print Assumptions c113_stale_box_refuted.

Example c113_case : o_closed out5 = true /\ s_ty circle8 = SCircle /\ (exists c, s_ty c = SCircle /\ forall s, In s (o_segs out5) -> intersections s c = nothing INone).
Proof. exact (conj eq_refl (conj eq_refl far_missed)). Qed.
