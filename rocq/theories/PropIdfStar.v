(** C143, continued: the substitute for an outline which is missing. *)

From Coq Require Import Reals List.
From Verif Require Import SegModel OutModel PcbModel IdfGeo IdfBody IdfStar.
Import ListNotations.
Open Scope R_scope.

(** An outline which starts with a line from a point to itself has no body. *)
Theorem c143_nowhere res p l th : build_component res (line_seg p p :: l) th = Some NoPart.
Proof. exact (starts_nowhere res p l th). Qed.
Print Assumptions c143_nowhere.

(** The substitute is one. *)
Theorem c143_star_refuted res : build_component res (l_segs star) 5 = Some NoPart.
Proof. exact (star_nothing res). Qed.
Print Assumptions c143_star_refuted.

Example c143_star_case : exists l, l_segs star = line_seg (star_pt 0) (star_pt 0) :: l.
Proof. exact star_head. Qed.

(** Its shape: a line from the first point to itself, then lines round ten points, by turns
    on circles of radius 1.5 and 2.5 mm, each 36 degrees after the one before, from 18
    degrees on. *)
Theorem c143_star_shape : exists p : nat -> ipt,
  l_segs star = line_seg (p 0%nat) (p 0%nat) :: map (fun i => line_seg (p i) (p (S i))) (seq 0 9) ++ [line_seg (p 9%nat) (p 0%nat)] /\
  (forall i, ix (p i) ^ 2 + iy (p i) ^ 2 = (if Nat.odd i then 5 / 2 else 3 / 2) ^ 2) /\
  (forall i, ix (p i) * ix (p (S i)) + iy (p i) * iy (p (S i)) = 15 / 4 * cos (PI / 5)) /\
  (forall i, ix (p i) * iy (p (S i)) - iy (p i) * ix (p (S i)) = 15 / 4 * sin (PI / 5)) /\
  ix (p 0%nat) * sin (PI / 10) = iy (p 0%nat) * cos (PI / 10) /\ 0 < ix (p 0%nat).
Proof. exact star_shape. Qed.
Print Assumptions c143_star_shape.
