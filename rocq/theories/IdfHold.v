(** The list of outlines which a section of an IDF board holds, as programs edit it
    (/repo/src/idf/idf_outlines.cpp).  Outlines are numbers, [None] is the NULL pointer;
    what the outlines are made of is of no account here. *)

From Verif Require Export Base.
From Verif Require Import IdfText IdfPlace.
Local Open Scope nat_scope.

(** The members of [BOARD_OUTLINE] (idf_outlines.h L94-102): the CAD type of [parent]
    ([None]: no parent), whether it is the outline of a component, [owner] and
    [outlines]; and the outlines which were deleted so far. *)
Record held := mkHeld {
  h_parent : option cad; h_comp : bool; h_owner : owner;
  h_list : list (option nat); h_gone : list nat
}.

(** [CheckOwnership] (L79-125). *)
Definition may_edit (s : held) : bool :=
  match h_parent s with
  | None => false
  | Some c =>
    match h_owner s with
    | Unowned => true
    | Mcad => h_comp s || match c with Mech => true | Elec => false end
    | Ecad => h_comp s || match c with Elec => true | Mech => false end
    end
  end.

Definition same (a b : option nat) : bool :=
  match a, b with Some x, Some y => x =? y | None, None => true | _, _ => false end.
Definition real (l : list (option nat)) : list nat := flat_map (fun p => match p with Some x => [x] | None => [] end) l.

Definition with_list (l : list (option nat)) (s : held) : held := mkHeld (h_parent s) (h_comp s) (h_owner s) l (h_gone s).
(** [delete]; nothing happens with NULL. *)
Definition deleted (l : list (option nat)) (s : held) : held :=
  mkHeld (h_parent s) (h_comp s) (h_owner s) (h_list s) (h_gone s ++ real l).

(** [addOutline] and [AddOutline] (L1279-1314). *)
Definition add_held (p : option nat) (s : held) : bool * held :=
  if may_edit s then
    if existsb (same p) (h_list s) then (false, s) else (true, with_list (h_list s ++ [p]) s)
  else (false, s).

(** The loop of [DelOutline] (L1359-1368). *)
Fixpoint erase_first (p : option nat) (l : list (option nat)) : option (list (option nat)) :=
  match l with
  | [] => None
  | q :: l' => if same q p then Some l' else match erase_first p l' with Some l'' => Some (q :: l'') | None => None end
  end.

(** [DelOutline] of a pointer (L1317-1372). *)
Definition take_held (p : option nat) (s : held) : bool * held :=
  match p with
  | None => (false, s)
  | Some _ =>
    match h_list s with
    | [] => (false, s)
    | f :: l =>
      if same p f then match l with [] => (true, with_list [] s) | _ => (false, s) end
      else match erase_first p (h_list s) with Some l' => (true, with_list l' s) | None => (false, s) end
    end
  end.

(** [DelOutline] of an index (L1375-1425). *)
Definition drop_held (i : nat) (s : held) : bool * held :=
  match h_list s with
  | [] => (false, s)
  | f :: l =>
    if length (h_list s) <=? i then (false, s)
    else if i =? 0 then match l with [] => (true, with_list [] (deleted [f] s)) | _ => (false, s) end
    else (true, with_list (firstn i (h_list s) ++ skipn (S i) (h_list s)) (deleted [nth i (h_list s) None] s))
  end.

(** [clear], which the destructor calls (L143-147, L1247-1254, L1478-1491); [Clear]
    (L1256-1266). *)
Definition clear_held (s : held) : held := mkHeld (h_parent s) (h_comp s) Unowned [] (h_gone s ++ real (h_list s)).
Definition wipe_held (s : held) : bool * held := if may_edit s then (true, clear_held s) else (false, s).

(** [SetOwner] (L1462-1471). *)
Definition own_held (o : owner) (s : held) : bool * held :=
  if may_edit s then (true, mkHeld (h_parent s) (h_comp s) o (h_list s) (h_gone s)) else (false, s).

Inductive hold_call := AddOut (p : option nat) | TakeOut (p : option nat) | DropAt (i : nat) | WipeAll | OwnBy (o : owner).

Definition hold_step (c : hold_call) (s : held) : bool * held :=
  match c with
  | AddOut p => add_held p s
  | TakeOut p => take_held p s
  | DropAt i => drop_held i s
  | WipeAll => wipe_held s
  | OwnBy o => own_held o s
  end.

(** The states which a sequence of calls goes through, the last one at the end. *)
Fixpoint hold_run (cs : list hold_call) (s : held) : held :=
  match cs with [] => s | c :: cs' => hold_run cs' (snd (hold_step c s)) end.

(** A new section (L132-141). *)
Definition hold_new (par : option cad) (comp : bool) : held := mkHeld par comp Unowned [] [].
