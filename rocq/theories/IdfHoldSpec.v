(** Who may change a section of an IDF board, and what removing an outline means. *)

From Verif Require Import Base IdfText IdfPlace IdfHold.
Local Open Scope nat_scope.

(** The rules of ownership: no section without a board; mechanical data belongs to MCAD,
    electrical data to ECAD, and the outlines of components to nobody. *)
Definition may_change (s : held) : Prop :=
  exists c, h_parent s = Some c /\
    (h_owner s = Unowned \/ h_comp s = true \/ (h_owner s = Mcad /\ c = Mech) \/ (h_owner s = Ecad /\ c = Elec)).

(** A call asks for the removal of the [i]th outline. *)
Definition removes (c : hold_call) (l : list (option nat)) (i : nat) : Prop :=
  match c with
  | TakeOut (Some x) => nth_error l i = Some (Some x)
  | DropAt j => i = j /\ i < length l
  | _ => False
  end.

(** No outline is added after it was deleted. *)
Definition careful (cs : list hold_call) (s : held) : Prop :=
  forall a x b, cs = a ++ AddOut (Some x) :: b -> ~ In x (h_gone (hold_run a s)).
