(** C154: the components which a board holds. *)

From Verif Require Import Base IoModel IdfText IdfPlace IdfParts IdfPartsSpec IdfPartsFacts IdfPartsCase.
Local Open Scope nat_scope.

(** C154: if no component is named while the board holds it, FindComponent finds exactly
    the components which the board holds, by their names; *)
Theorem c154_found c cs s : names_first cs (no_parts c) -> part_run cs (no_parts c) = Some s ->
  forall n i, find_key n (q_map s) = Some i <-> holds_part s i /\ exists p, q_live s i = Some p /\ k_name p = n.
Proof. exact (parts_found c cs s). Qed.
Print Assumptions c154_found.

(** AddComponent is refused exactly if the board holds a component of that name, and else
    the board holds the component beside those it held; *)
Theorem c154_added c cs s i p : names_first cs (no_parts c) -> part_run cs (no_parts c) = Some s -> q_live s i = Some p ->
  ((exists j q, holds_part s j /\ q_live s j = Some q /\ k_name q = k_name p) -> part_step (AddPart i) s = Some (false, s)) /\
  (~ (exists j q, holds_part s j /\ q_live s j = Some q /\ k_name q = k_name p) ->
   exists s', part_step (AddPart i) s = Some (true, s') /\ (forall j, q_live s' j = q_live s j) /\ q_cad s' = q_cad s /\
     forall k j, In (k, j) (q_map s') <-> In (k, j) (q_map s) \/ (k = k_name p /\ j = i)).
Proof. exact (parts_added c cs s i p). Qed.
Print Assumptions c154_added.

(** a component which the board holds is deleted, and nothing else, exactly if it has a
    placement which is not reserved for the other kind of program; *)
Theorem c154_deleted c cs s i p : names_first cs (no_parts c) -> part_run cs (no_parts c) = Some s ->
  holds_part s i -> q_live s i = Some p ->
  (deletable (q_cad s) (k_place p) -> exists s', part_step (DelPart i) s = Some (true, s') /\ without_part s i s') /\
  (~ deletable (q_cad s) (k_place p) -> part_step (DelPart i) s = Some (false, s)).
Proof. exact (parts_deleted c cs s i p). Qed.
Print Assumptions c154_deleted.

(** and clearing the board deletes the components it holds, each once, and no others. *)
Theorem c154_cleared c cs s : names_first cs (no_parts c) -> part_run cs (no_parts c) = Some s ->
  exists live, clear_parts s = Some live /\ forall i, live i = None <-> q_live s i = None \/ holds_part s i.
Proof. exact (parts_cleared c cs s). Qed.
Print Assumptions c154_cleared.

Example c154_case : names_first two_parts (no_parts Elec) /\ exists s, part_run two_parts (no_parts Elec) = Some s /\
  q_map s = [(u1, 0); (u2, 1)] /\ q_live s 0 = Some (mkPart u1 PMcad) /\ q_live s 1 = Some (mkPart u2 PPlaced) /\
  q_live s 2 = Some (mkPart u1 PPlaced).
Proof. exact (conj two_parts_first two_parts_run). Qed.

(** A component which was never placed is not deleted, whoever asks. *)
Theorem c154_unplaced c cs s i p : part_run cs (no_parts c) = Some s -> (forall q, ~ In (PlacePart i q) cs) ->
  q_live s i = Some p -> part_step (DelPart i) s = Some (false, s).
Proof. exact (never_placed c cs s i p). Qed.
Print Assumptions c154_unplaced.

Example c154_unplaced_case : exists s p, part_run [NewPart; NamePart 0 u1; AddPart 0] (no_parts Mech) = Some s /\
  (forall q, ~ In (PlacePart 0 q) [NewPart; NamePart 0 u1; AddPart 0]) /\ q_live s 0 = Some p /\ q_map s = [(u1, 0)].
Proof. exact never_placed_case. Qed.

(** SetRefDes is accepted exactly if the component is not reserved for the other kind of
    program and the name is neither empty nor PANEL; it changes the name only. *)
Theorem c154_named s i p n : q_live s i = Some p ->
  (~ reserved (q_cad s) (k_place p) /\ part_name n ->
     exists s', part_step (NamePart i n) s = Some (true, s') /\ only_part s i (mkPart n (k_place p)) s') /\
  (reserved (q_cad s) (k_place p) \/ ~ part_name n -> part_step (NamePart i n) s = Some (false, s)).
Proof. exact (part_named s i p n). Qed.
Print Assumptions c154_named.

(** SetPlacement is accepted exactly if the component is not reserved for the other kind of
    program and the placement is a valid one; it changes the placement only. *)
Theorem c154_placed s i p q : q_live s i = Some p ->
  (~ reserved (q_cad s) (k_place p) /\ q <> PInvalid ->
     exists s', part_step (PlacePart i q) s = Some (true, s') /\ only_part s i (mkPart (k_name p) q) s') /\
  (reserved (q_cad s) (k_place p) \/ q = PInvalid -> part_step (PlacePart i q) s = Some (false, s)).
Proof. exact (part_put s i p q). Qed.
Print Assumptions c154_placed.

(** Deleting a component deletes whichever one the board holds under its name, *)
Theorem c154_other c cs s i j p q : names_first cs (no_parts c) -> part_run cs (no_parts c) = Some s ->
  holds_part s i -> q_live s i = Some q -> q_live s j = Some p -> k_name p = k_name q ->
  deletable (q_cad s) (k_place p) ->
  exists s', part_step (DelPart j) s = Some (true, s') /\ without_part s i s'.
Proof. exact (parts_other c cs s i j p q). Qed.
Print Assumptions c154_other.

(** so one can be deleted which is reserved for the other kind of program. *)
Theorem c154_other_refuted : exists s s', part_run two_parts (no_parts Elec) = Some s /\
  part_step (DelPart 0) s = Some (false, s) /\ part_step (DelPart 2) s = Some (true, s') /\
  q_live s' 0 = None /\ q_live s' 2 <> None /\ q_map s' = [(u2, 1)].
Proof. exact other_deleted. Qed.
Print Assumptions c154_other_refuted.

(** A component which is renamed while the board holds it is lost to its new name, *)
Theorem c154_renamed_refuted : exists s,
  part_run [NewPart; NamePart 0 u1; PlacePart 0 PPlaced; AddPart 0; NamePart 0 u2] (no_parts Elec) = Some s /\
  find_key u2 (q_map s) = None /\ find_key u1 (q_map s) = Some 0 /\ part_step (DelPart 0) s = Some (false, s).
Proof. exact renamed_lost. Qed.
Print Assumptions c154_renamed_refuted.

(** and if it is added again, clearing the board deletes it twice. *)
Theorem c154_twice_refuted : exists s,
  part_run [NewPart; NamePart 0 u1; AddPart 0; NamePart 0 u2; AddPart 0] (no_parts Elec) = Some s /\
  q_map s = [(u1, 0); (u2, 0)] /\ clear_parts s = None.
Proof. exact twice_deleted. Qed.
Print Assumptions c154_twice_refuted.
