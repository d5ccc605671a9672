(** What a program which adds and deletes the components of a board may rely on. *)

From Verif Require Import Base IoModel IdfText IdfSpec IdfPlace IdfParts.
Local Open Scope nat_scope.

(** The board holds the component [i]. *)
Definition holds_part (s : brd_parts) (i : nat) : Prop := exists k, In (k, i) (q_map s).

(** The program names no component which the board holds. *)
Definition names_first (cs : list part_call) (s : brd_parts) : Prop :=
  forall a i n b, cs = a ++ NamePart i n :: b -> forall s', part_run a s = Some s' -> ~ holds_part s' i.

(** [s'] is [s] without the component [i]: it exists no more, the board does not hold it,
    and nothing else has changed. *)
Definition without_part (s : brd_parts) (i : nat) (s' : brd_parts) : Prop :=
  q_live s' i = None /\ ~ holds_part s' i /\
  (forall j, j <> i -> q_live s' j = q_live s j) /\
  (forall k j, j <> i -> (In (k, j) (q_map s') <-> In (k, j) (q_map s))).

(** Who may delete a component: those with a placement which is not reserved for the other
    kind of program. *)
Definition deletable (c : cad) (p : placed) : Prop :=
  p = PUnplaced \/ p = PPlaced \/ (p = PMcad /\ c = Mech) \/ (p = PEcad /\ c = Elec).

(** The placement is reserved for the other kind of program. *)
Definition reserved (c : cad) (p : placed) : Prop := (p = PMcad /\ c = Elec) \/ (p = PEcad /\ c = Mech).

(** [s'] is [s] but for the component [i], which is now [p]. *)
Definition only_part (s : brd_parts) (i : nat) (p : part) (s' : brd_parts) : Prop :=
  q_live s' i = Some p /\ (forall j, j <> i -> q_live s' j = q_live s j) /\
  q_map s' = q_map s /\ q_cad s' = q_cad s.

(** A name for components: neither empty nor the word of the panel. *)
Definition part_name (n : str) : Prop := n <> [] /\ ~ same_word "PANEL" n.
