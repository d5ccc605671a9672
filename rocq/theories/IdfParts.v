(** The components which an IDF board holds, as programs add and delete them
    (/repo/src/idf/idf_parser.cpp).  Components are numbers; their holes, outlines and
    positions are left out, and so is the deletion by index (L3717-3742). *)

From Verif Require Export Base.
From Verif Require Import IoModel IdfText IdfPlace.
Local Open Scope nat_scope.

(** [IDF_PLACEMENT] (idf_common.h L203-210). *)
Inductive placed := PUnplaced | PPlaced | PMcad | PEcad | PInvalid.

(** [refdes] and [placement] of a component. *)
Record part := mkPart { k_name : str; k_place : placed }.

(** [cadType] of the board; the components which exist; [components] of the board without
    its order; the number of the next component. *)
Record brd_parts := mkParts { q_cad : cad; q_live : nat -> option part; q_map : list (str * nat); q_next : nat }.

Definition set_live (i : nat) (p : option part) (s : brd_parts) : brd_parts :=
  mkParts (q_cad s) (fun j => if j =? i then p else q_live s j) (q_map s) (q_next s).
Definition set_map (m : list (str * nat)) (s : brd_parts) : brd_parts := mkParts (q_cad s) (q_live s) m (q_next s).

(** [FindComponent] (L3757-3766), [components.find]. *)
Fixpoint find_key (n : str) (m : list (str * nat)) : option nat :=
  match m with [] => None | (k, i) :: m' => if str_eqb k n then Some i else find_key n m' end.
Definition erase_key (n : str) (m : list (str * nat)) : list (str * nat) := filter (fun x => negb (str_eqb (fst x) n)) m.

(** [IDF3_COMPONENT::checkOwnership] (L885-945), for a component with a board. *)
Definition part_open (c : cad) (p : placed) : bool :=
  match p, c with PMcad, Elec => false | PEcad, Mech => false | _, _ => true end.
(** [checkComponentOwnership] (L1396-1438). *)
Definition part_mine (c : cad) (p : placed) : bool :=
  match p, c with PUnplaced, _ | PPlaced, _ | PMcad, Mech | PEcad, Elec => true | _, _ => false end.

(** [NewPart]: the constructor (L844-857); [NamePart]: [SetRefDes] (L974-1001);
    [PlacePart]: [SetPlacement] (L1295-1316); [AddPart]: [AddComponent] (L3668-3692);
    [DelPart]: [DelComponent] of a pointer (L3695-3714). *)
Inductive part_call := NewPart | NamePart (i : nat) (n : str) | PlacePart (i : nat) (p : placed) | AddPart (i : nat) | DelPart (i : nat).

(** [None]: a component is used or deleted which does not exist any more. *)
Definition part_step (c : part_call) (s : brd_parts) : option (bool * brd_parts) :=
  match c with
  | NewPart => Some (true, mkParts (q_cad s) (fun j => if j =? q_next s then Some (mkPart [] PInvalid) else q_live s j) (q_map s) (S (q_next s)))
  | NamePart i n =>
    match q_live s i with
    | None => None
    | Some p =>
      if negb (part_open (q_cad s) (k_place p)) then Some (false, s)
      else match n with
           | [] => Some (false, s)
           | _ => if compare_token "PANEL" n then Some (false, s) else Some (true, set_live i (Some (mkPart n (k_place p))) s)
           end
    end
  | PlacePart i q =>
    match q_live s i with
    | None => None
    | Some p =>
      match q with
      | PInvalid => Some (false, s)
      | _ => if part_open (q_cad s) (k_place p) then Some (true, set_live i (Some (mkPart (k_name p) q)) s) else Some (false, s)
      end
    end
  | AddPart i =>
    match q_live s i with
    | None => None
    | Some p =>
      match find_key (k_name p) (q_map s) with
      | Some _ => Some (false, s)
      | None => Some (true, set_map (q_map s ++ [(k_name p, i)]) s)
      end
    end
  | DelPart i =>
    match q_live s i with
    | None => None
    | Some p =>
      if part_mine (q_cad s) (k_place p) then
        match find_key (k_name p) (q_map s) with
        | None => Some (false, s)
        | Some j =>
          match q_live s j with
          | None => None
          | Some _ => Some (true, set_live j None (set_map (erase_key (k_name p) (q_map s)) s))
          end
        end
      else Some (false, s)
    end
  end.

Fixpoint part_run (cs : list part_call) (s : brd_parts) : option brd_parts :=
  match cs with
  | [] => Some s
  | c :: cs' => match part_step c s with None => None | Some (_, s') => part_run cs' s' end
  end.

Definition no_parts (c : cad) : brd_parts := mkParts c (fun _ => None) [] 0.

(** The components of the board are deleted when it is cleared (L4059-4072). *)
Fixpoint delete_all (m : list (str * nat)) (live : nat -> option part) : option (nat -> option part) :=
  match m with
  | [] => Some live
  | (_, i) :: m' => match live i with None => None | Some _ => delete_all m' (fun j => if j =? i then None else live j) end
  end.
Definition clear_parts (s : brd_parts) : option (nat -> option part) := delete_all (q_map s) (q_live s).
