(** What a slot is. *)

From Coq Require Import Reals List.
From Verif Require Import IdfGeo IdfGeoSpec.
Import ListNotations.
Open Scope R_scope.

(** The point [l] along and [w] to the right of an axis through [x], [y] at [a] degrees. *)
Definition along (x y a l w : R) : ipt := mkI (x + l * cos (rad a) + w * sin (rad a)) (y + l * sin (rad a) - w * cos (rad a)).

(** A cap: half a turn clockwise about [c] from [p], which ends within [t] of [q]. *)
Definition cap (c p q : ipt) (r t : R) (s : iseg) : Prop :=
  g_cen s = c /\ g_start s = p /\ g_ang s = - 180 /\ g_rad s = r /\ away (g_end s) q <= t.

(** Two straight runs with a cap at either end; the middles of the caps are [length]
    apart, so the slot is as much longer than that as it is wide. *)
Definition is_slot (width length a x y t : R) (l : list iseg) : Prop :=
  let P := fun u v => along x y a (u * (length / 2)) (v * (width / 2)) in
  exists s1 s2, l = [line_seg (P 1 1) (P (-1) 1); s1; line_seg (P (-1) (-1)) (P 1 (-1)); s2] /\
    cap (P (-1) 0) (P (-1) 1) (P (-1) (-1)) (width / 2) t s1 /\ cap (P 1 0) (P 1 (-1)) (P 1 1) (width / 2) t s2.
