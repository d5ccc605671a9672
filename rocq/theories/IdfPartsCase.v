(** Programs which add and delete components. *)

From Verif Require Import Base IoModel IdfText IdfPlace IdfParts IdfPartsSpec IdfPartsFacts.
Local Open Scope nat_scope.

Definition u1 : str := S2 "U1".
Definition u2 : str := S2 "U2".

(** An electrical program adds U1, which it reserves for the mechanical one, and U2; then
    it makes another component named U1, which it does not add. *)
Definition two_parts : list part_call :=
  [NewPart; NamePart 0 u1; PlacePart 0 PMcad; AddPart 0; NewPart; NamePart 1 u2; PlacePart 1 PPlaced; AddPart 1;
   NewPart; NamePart 2 u1; PlacePart 2 PPlaced].

Lemma two_parts_first : names_first two_parts (no_parts Elec).
Proof.
  intros a i n b E s' R [k I]. unfold two_parts in E.
  repeat (destruct a as [|c a]; [cbn in E; (discriminate E || (injection E as <- <- _; cbn in R; injection R as <-; cbn in I;
    repeat (destruct I as [I|I]; [discriminate I|]); exact I)) |
    cbn [app] in E; injection E as <- E]).
  destruct a; discriminate E.
Qed.

Lemma two_parts_run : exists s, part_run two_parts (no_parts Elec) = Some s /\
  q_map s = [(u1, 0); (u2, 1)] /\ q_live s 0 = Some (mkPart u1 PMcad) /\ q_live s 1 = Some (mkPart u2 PPlaced) /\
  q_live s 2 = Some (mkPart u1 PPlaced).
Proof. eexists. repeat split; reflexivity. Qed.

(** The deletion of the third component deletes the first one, which the program could not
    delete itself. *)
Lemma other_deleted : exists s s', part_run two_parts (no_parts Elec) = Some s /\
  part_step (DelPart 0) s = Some (false, s) /\ part_step (DelPart 2) s = Some (true, s') /\
  q_live s' 0 = None /\ q_live s' 2 <> None /\ q_map s' = [(u2, 1)].
Proof. eexists. eexists. repeat split; try reflexivity. discriminate. Qed.

(** After a held component was given another name, it is added again and deleted twice. *)
Lemma twice_deleted : exists s,
  part_run [NewPart; NamePart 0 u1; AddPart 0; NamePart 0 u2; AddPart 0] (no_parts Elec) = Some s /\
  q_map s = [(u1, 0); (u2, 0)] /\ clear_parts s = None.
Proof. eexists. repeat split; reflexivity. Qed.

(** A component which was given another name is not found by it and cannot be deleted. *)
Lemma renamed_lost : exists s,
  part_run [NewPart; NamePart 0 u1; PlacePart 0 PPlaced; AddPart 0; NamePart 0 u2] (no_parts Elec) = Some s /\
  find_key u2 (q_map s) = None /\ find_key u1 (q_map s) = Some 0 /\ part_step (DelPart 0) s = Some (false, s).
Proof. eexists. repeat split; reflexivity. Qed.

Lemma never_placed_case : exists s p, part_run [NewPart; NamePart 0 u1; AddPart 0] (no_parts Mech) = Some s /\
  (forall q, ~ In (PlacePart 0 q) [NewPart; NamePart 0 u1; AddPart 0]) /\ q_live s 0 = Some p /\ q_map s = [(u1, 0)].
Proof.
  eexists. eexists. split; [reflexivity|]. split; [|split; reflexivity].
  intros q H. cbn in H. repeat (destruct H as [H|H]; [discriminate H|]). exact H.
Qed.
