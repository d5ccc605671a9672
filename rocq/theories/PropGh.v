(** The claims about the handles of geometry (C125-C128), each with a concrete case. *)

From Coq Require Import List Bool ZArith.
From Verif Require Import GhModel GhSpec GhRun GhList GhListFacts GhCase.
Import ListNotations.

(** ** C125 *)

(** A program which gives every object one owner runs to its end, and every object has
    one owner in the state it ends in. *)
Theorem c125_careful_runs : forall l, careful_run l empty -> exists s, run l empty = Some s /\ sound s.
Proof. exact careful_safe. Qed.
Print Assumptions c125_careful_runs.

(** Every object is inside one which a handle has, or which was detached. *)
Theorem c125_owned : forall s p, reached s -> live s p -> exists r, inside s r p /\ (nobodys s r \/ exists h, owns s h r).
Proof. exact every_object_owned. Qed.
Print Assumptions c125_owned.

(** Without [Detach] nothing is left when the handles are gone. *)
Theorem c125_no_leak : forall l s p, careful_run l empty -> Forall keeps_all l -> run l empty = Some s -> live s p ->
  exists h r, owns s h r /\ inside s r p.
Proof. exact nothing_leaks. Qed.
Print Assumptions c125_no_leak.

(** Not so with a copy of a handle, a handle on a cutout, an outline in itself, or the
    pointer of a handle given to an outline. *)
Theorem c125_any_program_refuted :
  crashes [Make KSeg true; Copy 0; Destroy 0; Destroy 1] /\
  crashes (attached_cutout ++ [Destroy 1; Destroy 0]) /\
  crashes [Make KOut true; AddCutout 0 (ByPtr 0) stored; Destroy 0] /\
  crashes [Make KOut true; Make KSeg true; AddSegment 0 (ByPtr 1) true; Destroy 1; Destroy 0].
Proof.
  exact (conj (proj1 copied_crashes) (conj (proj2 attached_cutout_crashes) (conj (proj2 own_cutout_crashes) (proj1 given_twice_crashes)))).
Qed.
Print Assumptions c125_any_program_refuted.

Example c125_case : careful_run board empty /\ careful_run moved empty /\ Forall keeps_all (board ++ [Destroy 0]) /\
  obj (after board) 0 = Some (Out true [0] [6; 7] [2] [4]) /\ obj (after board) 2 = Some (Out false [] [3] [] []).
Proof.
  exact (conj board_careful (conj moved_careful (conj (proj2 (proj2 board_closed)) (conj (proj1 board_lists) (proj1 (proj2 board_lists)))))).
Qed.

(** ** C126 *)

(** What the end of a handle destroys: its object and what is inside; nothing else. *)
Theorem c126_destroy : forall s h p, reached s -> owns s h p -> exists s', exec (Destroy h) s = Some (s', true) /\
  (forall q, inside s p q -> ~ live s' q) /\ (forall q, ~ inside s p q -> obj s' q = obj s q) /\
  (forall g, hs s' g = if Nat.eqb g h then None else hs s g).
Proof. exact destroy_exactly. Qed.
Print Assumptions c126_destroy.

Theorem c126_delete : forall s h p, reached s -> owns s h p -> exists s' k, exec (Del h) s = Some (s', true) /\
  hs s' h = Some (mkHnd k false None) /\ (forall q, inside s p q -> ~ live s' q) /\
  (forall q, ~ inside s p q -> obj s' q = obj s q) /\ (forall g, g <> h -> hs s' g = hs s g).
Proof. exact del_exactly. Qed.
Print Assumptions c126_delete.

(** A detached object stays as it is, and belongs to nobody. *)
Theorem c126_detach : forall s h p, reached s -> owns s h p -> exists s' k, exec (Detach h) s = Some (s', true) /\
  hs s' h = Some (mkHnd k false None) /\ nobodys s' p /\ (forall q, q <> p -> obj s' q = obj s q) /\
  (forall q, lists s' p q <-> lists s p q) /\ (forall g, g <> h -> hs s' g = hs s g).
Proof. exact detach_exactly. Qed.
Print Assumptions c126_detach.

(** [NewSegment] and [NewOutline] destroy the object the handle had; the header promises
    that it is detached. *)
Theorem c126_new_destroys : forall s h p, reached s -> owns s h p -> exists s' r g, exec (New h) s = Some (s', true) /\
  ~ live s r /\ owns s' h r /\ obj s' r = Some g /\ listed g = [] /\ (forall q, inside s p q -> ~ live s' q) /\
  (forall q, ~ inside s p q -> q <> r -> obj s' q = obj s q) /\ (forall k, k <> h -> hs s' k = hs s k).
Proof. exact new_exactly. Qed.
Print Assumptions c126_new_destroys.

Example c126_case : reached (after board) /\ owns (after board) 0 0 /\ inside (after board) 0 3 /\ inside (after board) 0 6.
Proof. exact (conj board_reached (conj board_owns board_inside)). Qed.

(** ** C127 *)

(** What is given to an outline is the outline's when the answer is true and still the
    caller's when it is false. *)
Theorem c127_handed : forall s o h a, reached s -> careful s o -> adds o h a ->
  exists s' b, exec o s = Some (s', b) /\ handed s s' h a b.
Proof. exact handed_over. Qed.
Print Assumptions c127_handed.

(** With [Detach] forgotten by the caller, a pointer is owned twice. *)
Theorem c127_pointer_refuted : crashes [Make KOut true; Make KSeg true; AddSegment 0 (ByPtr 1) true; Destroy 1; Destroy 0] /\
  fine [Make KOut true; Make KSeg true; AddSegment 0 (ByPtr 1) true; Detach 1; Destroy 1; Destroy 0].
Proof. exact given_twice_crashes. Qed.
Print Assumptions c127_pointer_refuted.

Example c127_case : reached (after before_add) /\ (forall y, careful (after before_add) (AddSegment 0 (ByHandle 6) y)) /\
  owns (after before_add) 6 8 /\ (forall s b, exec (AddSegment 0 (ByHandle 6) true) (after before_add) = Some (s, b) -> b = true) /\
  (forall s b, exec (AddSegment 0 (ByHandle 6) false) (after before_add) = Some (s, b) -> b = false).
Proof. exact (conj before_add_reached (conj add_careful (conj before_add_owns add_answers))). Qed.

(** ** C128 *)

Local Open Scope Z_scope.

(** Surfaces are appended to the caller's array. *)
Theorem c128_surfaces : forall s h p g, owns s h p -> obj s p = Some g -> forall new a n old, proper a n old -> new <> [] ->
  get_vertical (true, new) h a n s = Some (true, Some (old ++ map Some new), Z.of_nat (length (old ++ map Some new))) /\
  get_plane (true, new) h a n s = Some (true, Some (old ++ map Some new), Z.of_nat (length (old ++ map Some new))).
Proof. exact surfaces_do. Qed.
Print Assumptions c128_surfaces.

(** Nothing to append: false, and nothing is changed. *)
Theorem c128_nothing : forall s h p g, owns s h p -> obj s p = Some g -> forall ok new a n old, proper a n old -> ok = false \/ new = [] ->
  get_vertical (ok, new) h a n s = Some (false, a, n) /\ get_plane (ok, new) h a n s = Some (false, a, n) /\
  get_curves (ok, new) h a n s = Some (false, a, n) /\ get_curve_on_plane (ok, new) h a n s = Some (false, a, n).
Proof. exact no_surfaces. Qed.
Print Assumptions c128_nothing.

(** Curves never are: true, a larger count, and the new elements are not written. *)
Theorem c128_curves_refuted : forall s h p g, owns s h p -> obj s p = Some g -> forall new a n old, proper a n old -> new <> [] ->
  get_curves (true, new) h a n s = Some (true, Some (old ++ repeat None (length new)), n + Z.of_nat (length new)) /\
  get_curve_on_plane (true, new) h a n s = Some (true, Some (old ++ repeat None (length new)), n + Z.of_nat (length new)).
Proof. exact curves_do. Qed.
Print Assumptions c128_curves_refuted.

(** [GetSegmentWall] refuses every valid handle. *)
Theorem c128_wall_refuted : forall s h p, owns s h p -> forall core a n, get_wall core h a n s = Some (false, a, n).
Proof. exact wall_never. Qed.
Print Assumptions c128_wall_refuted.

(** A handle whose object was destroyed by its owner: the others answer false, two
    use what was destroyed. *)
Theorem c128_left_over : forall s h p core a n, left_over s h p ->
  get_vertical core h a n s = Some (false, a, n) /\ get_plane core h a n s = Some (false, a, n) /\ get_curves core h a n s = Some (false, a, n) /\
  (forall given k, split given k core h a n s = Some (false, a, n)) /\ (forall w, get_list w h s = Some (false, None, 0)) /\
  get_curve_on_plane core h a n s = None /\ get_wall core h a n s = None.
Proof. exact left_over_do. Qed.
Print Assumptions c128_left_over.

(** Segments, cutouts and drill holes: the list of the outline; false when it is empty. *)
Theorem c128_lists : forall s h p g, owns s h p -> obj s p = Some g -> forall w, get_list w h s =
  match list_of w g with [] => Some (false, None, 0) | l => Some (true, Some (map Some l), Z.of_nat (length l)) end.
Proof. exact get_list_do. Qed.
Print Assumptions c128_lists.

(** [Split] appends too, when array and count fit together. *)
Theorem c128_split : forall s h p g, owns s h p -> obj s p = Some g -> forall k new a n old, k > 0 -> proper a n old ->
  split true k (true, new) h a n s = Some (true, Some (old ++ map Some new), Z.of_nat (length (old ++ map Some new))).
Proof. exact split_do. Qed.
Print Assumptions c128_split.

Theorem c128_split_refused : forall s h p g, owns s h p -> obj s p = Some g -> forall given k new ok a n,
  given = false /\ k <> 0 \/ k < 0 \/ ok = false /\ k <> 0 -> split given k (ok, new) h a n s = Some (false, a, n).
Proof. exact split_refused. Qed.
Print Assumptions c128_split_refused.

(** With no array the count of the caller is still added to; the surface functions do
    not do that.  And no points is success. *)
Theorem c128_split_count_refuted : forall s h p g, owns s h p -> obj s p = Some g -> forall k new n, k > 0 ->
  split true k (true, new) h None n s = Some (true, Some (map Some new), n + Z.of_nat (length new)).
Proof. exact split_loose. Qed.
Print Assumptions c128_split_count_refuted.

Theorem c128_split_none : forall s h p, owns s h p -> forall given core a n, split given 0 core h a n s = Some (true, a, n).
Proof. exact split_nothing. Qed.
Print Assumptions c128_split_none.

Theorem c128_intersections : forall s h p g, owns s h p -> obj s p = Some g -> forall new,
  intersections (true, new) h None 0 s = Some (true, Some (map Some new), Z.of_nat (length new)).
Proof. exact intersections_do. Qed.
Print Assumptions c128_intersections.

Theorem c128_intersections_refused : forall s h p g, owns s h p -> obj s p = Some g -> forall ok new a n,
  a <> None \/ n <> 0 \/ ok = false -> intersections (ok, new) h a n s = Some (false, a, n).
Proof. exact intersections_refused. Qed.
Print Assumptions c128_intersections_refused.

Example c128_case : owns (after board) 0 0 /\ obj (after board) 0 = Some (Out true [0%nat] [6; 7]%nat [2%nat] [4%nat]) /\
  proper (Some [Some 1; Some 2; None])%nat 2 [Some 1; Some 2]%nat /\ proper None 0 [] /\ left_over (after orphan) 1 1.
Proof.
  split; [exact board_owns|]. split; [exact (proj1 board_lists)|]. split; [|split; [left; auto|exact (proj2 orphan_left)]].
  right. eexists. split; [reflexivity|]. split; [reflexivity|]. exists [None]. reflexivity.
Qed.
