(** The counters of references of the outlines of components
    (/repo/src/idf/idf_parser.cpp, /repo/src/idf/idf_outlines.cpp).

    Outlines and placements (IDF3_COMP_OUTLINE_DATA) are numbers; what else they hold
    is of no account here. *)

From Verif Require Export Base.
Local Open Scope nat_scope.

(** [refNum] of the outlines; the placements which exist, with [outline] ([None]: NULL);
    the number of the next one. *)
Record refs := mkRefs { r_num : nat -> nat; r_data : list (nat * option nat); r_next : nat }.

(** idf_outlines.cpp L2973. *)
Definition no_refs : refs := mkRefs (fun _ => 0) [] 0.

(** [incrementRef] and [decrementRef], idf_outlines.cpp L3515-3533; not below 0. *)
Definition set_num (o n : nat) (s : refs) : refs :=
  mkRefs (fun x => if x =? o then n else r_num s x) (r_data s) (r_next s).
Definition incr (o : option nat) (s : refs) : refs :=
  match o with None => s | Some o => set_num o (S (r_num s o)) s end.
Definition decr (o : option nat) (s : refs) : refs :=
  match o with None => s | Some o => set_num o (pred (r_num s o)) s end.

Definition with_data (l : list (nat * option nat)) (s : refs) : refs := mkRefs (r_num s) l (r_next s).
Definition push (o : option nat) (s : refs) : refs := mkRefs (r_num s) (r_data s ++ [(r_next s, o)]) (S (r_next s)).

Fixpoint outline_of (d : nat) (l : list (nat * option nat)) : option (option nat) :=
  match l with [] => None | (e, o) :: l' => if e =? d then Some o else outline_of d l' end.
Definition without (d : nat) (l : list (nat * option nat)) : list (nat * option nat) := filter (fun x => negb (fst x =? d)) l.
Definition changed (d : nat) (o : option nat) (l : list (nat * option nat)) : list (nat * option nat) :=
  map (fun x => if fst x =? d then (d, o) else x) l.

(** What a program can do.  [Make]: the constructor with two arguments, idf_parser.cpp
    L122-136, or a record which is read, L717-726; [MakeAt]: the one with offsets,
    L138-150, which does not count; [Copy]: the copy constructor, which the class leaves
    to the compiler; [SetOut]: [SetOutline], L236-252, with the answer of the check for
    ownership; [Drop]: the destructor, L152-158; [Wipe]: [IDF3_COMP_OUTLINE::Clear],
    idf_outlines.cpp L3426-3442, which [CreateDefaultOutline] calls too. *)
Inductive ref_call :=
| Make (o : option nat) | MakeAt (o : option nat) | Copy (d : nat)
| SetOut (owned : bool) (d : nat) (o : option nat) | Drop (d : nat) | Wipe (owned : bool) (o : nat).

(** [None]: a placement is used which does not exist. *)
Definition ref_step (c : ref_call) (s : refs) : option refs :=
  match c with
  | Make o => Some (incr o (push o s))
  | MakeAt o => Some (push o s)
  | Copy d => match outline_of d (r_data s) with None => None | Some o => Some (push o s) end
  | SetOut owned d o =>
    match outline_of d (r_data s) with
    | None => None
    | Some old => if owned then Some (incr o (decr old (with_data (changed d o (r_data s)) s))) else Some s
    end
  | Drop d =>
    match outline_of d (r_data s) with
    | None => None
    | Some o => Some (decr o (with_data (without d (r_data s)) s))
    end
  | Wipe owned o => if owned then Some (set_num o 0 s) else Some s
  end.

Fixpoint ref_run (cs : list ref_call) (s : refs) : option refs :=
  match cs with
  | [] => Some s
  | c :: cs' => match ref_step c s with None => None | Some s' => ref_run cs' s' end
  end.
