(** C153: the slots of IDF boards. *)

From Coq Require Import Reals List Lra.
From Verif Require Import SegModel OutModel IdfGeo IdfGeoSpec IdfSlot IdfSlotSpec IdfSlotFacts IdfSlotWide.
Import ListNotations.
Open Scope R_scope.

(** C153: a slot is refused exactly if it is narrower or shorter than a micrometre; *)
Theorem c153_refused width length a x y : add_slot width length a x y = None <-> width < 1 / 1000 \/ length < 1 / 1000.
Proof. exact (slot_refused width length a x y). Qed.
Print Assumptions c153_refused.

(** else, up to 900 mm, its outline is that of a slot, whose caps end where the straight
    runs start but for the ten thousandth part of a degree. *)
Theorem c153_slot width length a x y : 1 / 1000 <= width <= 900 -> 1 / 1000 <= length ->
  exists o, add_slot width length a x y = Some o /\ is_slot width length a x y (width / 2 * rad (1 / 10000)) (l_segs o).
Proof. exact (slot_made width length a x y). Qed.
Print Assumptions c153_slot.

Example c153_slot_case : 1 / 1000 <= 3 / 2 <= 900 /\ 1 / 1000 <= 4.
Proof. exact slot_case. Qed.

(** The farthest points of such a slot are its length and its width apart, not its length
    only. *)
Theorem c153_extent width length a x y : 0 <= width -> 0 <= length ->
  away (along x y a (length / 2 + width / 2) 0) (along x y a (- (length / 2) - width / 2) 0) = length + width /\
  away (along x y a (length / 2 + width / 2) 0) (along x y a (1 * (length / 2)) 0) = width / 2 /\
  away (along x y a (- (length / 2) - width / 2) 0) (along x y a (-1 * (length / 2)) 0) = width / 2.
Proof. exact (extent width length a x y). Qed.
Print Assumptions c153_extent.

(** A wider slot can lose a run and a cap, and is accepted nevertheless. *)
Theorem c153_wide_refuted : exists o, add_slot 8000 10 (90 + 1 / 20000) 0 0 = Some o /\ length (l_segs o) = 2%nat.
Proof. exact wide_slot. Qed.
Print Assumptions c153_wide_refuted.
