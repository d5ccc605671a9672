(** Model of the handles of the library interface: validity flags
    ([AttachValidFlag], [DetachValidFlag] and the destructors in
    /repo/src/entities/iges_entity.cpp L117-271 and /repo/src/iges/iges.cpp
    L273-337), [DLL_IGES_ENTITY] with its classes for single types
    (/repo/src/dllapi/dll_iges_entity.cpp, dll_entityNNN.cpp) and [DLL_IGES]
    (/repo/src/dllapi/dll_iges.cpp).  What else the destruction of an entity does is
    in [GraphModel]. *)

From Coq Require Import List Bool ZArith.
Import ListNotations.
Open Scope Z_scope.

(** Objects are entities and models ([o_type] = -1); [o_flags] is [m_validFlags],
    [o_ents] is [entities] of a model. *)
Record object := mkObj { o_type : Z; o_flags : list nat; o_ents : list nat }.

(** A handle: [m_type], [m_entity] (or [m_iges]) and [m_parent].  Its members
    [m_valid] and [m_hasParent] are the cells [2 h] and [2 h + 1].  A handle of type
    -1 is a [DLL_IGES]; its second cell is not used. *)
Record hand := mkHand { h_type : Z; h_obj : option nat; h_par : option nat }.

(** Everything has a number of its own and is [None] once destroyed. *)
Record st := mkSt { cells : list (option bool); objs : list (option object); hands : list (option hand) }.
Definition empty : st := mkSt [] [] [].

Definition get {A} (l : list (option A)) (i : nat) : option A :=
  match nth_error l i with Some x => x | None => None end.
Fixpoint upd {A} (l : list A) (i : nat) (x : A) : list A :=
  match l, i with
  | [], _ => []
  | _ :: r, O => x :: r
  | y :: r, S i' => y :: upd r i' x
  end.
Fixpoint has (x : nat) (l : list nat) : bool := match l with [] => false | y :: r => Nat.eqb x y || has x r end.
Fixpoint rem1 (x : nat) (l : list nat) : list nat :=
  match l with [] => [] | y :: r => if Nat.eqb x y then r else y :: rem1 x r end.

Definition valid_of (h : nat) : nat := 2 * h.
Definition parent_of (h : nat) : nat := 2 * h + 1.

Definition cell (s : st) (c : nat) : option bool := get (cells s) c.
Definition obj (s : st) (o : nat) : option object := get (objs s) o.
Definition hnd (s : st) (h : nat) : option hand := get (hands s) h.
Definition set_obj (o : nat) (x : option object) (s : st) : st := mkSt (cells s) (upd (objs s) o x) (hands s).
Definition set_hnd (h : nat) (x : option hand) (s : st) : st := mkSt (cells s) (objs s) (upd (hands s) h x).

(** [*aFlag = b]; [None], here and below, is the use of something destroyed. *)
Definition put (c : nat) (b : bool) (s : st) : option st :=
  match cell s c with
  | Some _ => Some (mkSt (upd (cells s) c (Some b)) (objs s) (hands s))
  | None => None
  end.

Definition bind {A B} (x : option A) (f : A -> option B) : option B := match x with Some a => f a | None => None end.
Notation "'let!' x := a 'in' b" := (bind a (fun x => b)) (at level 200, x name, b at level 200).

(** [AttachValidFlag], iges_entity.cpp L224-246, iges.cpp L290-313. *)
Definition AttachValidFlag (o c : nat) (s : st) : option st :=
  let! x := obj s o in
  let! s1 := put c true s in
  Some (if has c (o_flags x) then s1 else set_obj o (Some (mkObj (o_type x) (o_flags x ++ [c]) (o_ents x))) s1).

(** [DetachValidFlag], iges_entity.cpp L249-271, iges.cpp L316-337. *)
Definition DetachValidFlag (o c : nat) (s : st) : option st :=
  let! x := obj s o in
  if has c (o_flags x) then
    let! s1 := put c false s in
    Some (set_obj o (Some (mkObj (o_type x) (rem1 c (o_flags x)) (o_ents x))) s1)
  else Some s.

(** The loops at iges_entity.cpp L119-126 and iges.cpp L275-282. *)
Fixpoint put_all (l : list nat) (s : st) : option st :=
  match l with
  | [] => Some s
  | c :: r => let! s1 := put c false s in put_all r s1
  end.

(** [delete] of an entity, [~IGES_ENTITY] L117-128. *)
Definition kill (o : nat) (s : st) : option st :=
  let! x := obj s o in
  let! s1 := put_all (o_flags x) s in
  Some (set_obj o None s1).

Fixpoint kill_all (l : list nat) (s : st) : option st :=
  match l with
  | [] => Some s
  | o :: r => let! s1 := kill o s in kill_all r s1
  end.

(** [IGES::Clear], iges.cpp L404-419. *)
Definition Clear (m : nat) (s : st) : option st :=
  let! x := obj s m in
  let! s1 := kill_all (o_ents x) s in
  Some (set_obj m (Some (mkObj (o_type x) (o_flags x) [])) s1).

(** [delete] of a model, [~IGES] L273-287. *)
Definition kill_model (m : nat) (s : st) : option st :=
  let! x := obj s m in
  let! s1 := put_all (o_flags x) s in
  let! s2 := Clear m s1 in
  Some (set_obj m None s2).

(** [new] of an entity or model; it gets the next number. *)
Definition make (t : Z) (s : st) : st := mkSt (cells s) (objs s ++ [Some (mkObj t [] [])]) (hands s).
Definition fresh (s : st) : nat := length (objs s).

(** [IGES::NewEntity], iges.cpp L823-944. *)
Definition NewEntity (m : nat) (t : Z) (s : st) : option st :=
  let! x := obj s m in
  Some (set_obj m (Some (mkObj (o_type x) (o_flags x) (o_ents x ++ [fresh s]))) (make t s)).

(** [AddEntity] L948-972, [DelEntity] L976-1001, [UnlinkEntity] L1004-1027, for
    arguments which are not NULL. *)
Definition AddEntity (m e : nat) (s : st) : option st :=
  let! x := obj s m in
  Some (if has e (o_ents x) then s else set_obj m (Some (mkObj (o_type x) (o_flags x) (o_ents x ++ [e]))) s).
Definition UnlinkEntity (m e : nat) (s : st) : option st :=
  let! x := obj s m in
  Some (set_obj m (Some (mkObj (o_type x) (o_flags x) (rem1 e (o_ents x)))) s).
Definition DelEntity (m e : nat) (s : st) : option st :=
  let! x := obj s m in
  if has e (o_ents x) then let! s1 := kill e s in UnlinkEntity m e s1 else Some s.

(** ** Handles *)

(** The types with a class of handles (dll_entityNNN.cpp). *)
Definition handle_types : list Z := [100; 102; 104; 110; 120; 122; 124; 126; 128; 142; 144; 308; 314; 406; 408].
Definition zhas (t : Z) (l : list Z) : bool := existsb (Z.eqb t) l.

(** A handle is valid: [m_valid && NULL != m_entity]. *)
Definition attached (s : st) (h : nat) : option nat :=
  match hnd s h, cell s (valid_of h) with
  | Some x, Some true => h_obj x
  | _, _ => None
  end.
Definition parent (s : st) (h : nat) : option nat :=
  match hnd s h, cell s (parent_of h) with
  | Some x, Some true => h_par x
  | _, _ => None
  end.

Definition set_target (h : nat) (t : option nat) (s : st) : option st :=
  let! x := hnd s h in Some (set_hnd h (Some (mkHand (h_type x) t (h_par x))) s).
Definition set_parent (h : nat) (t : option nat) (s : st) : option st :=
  let! x := hnd s h in Some (set_hnd h (Some (mkHand (h_type x) (h_obj x) t)) s).

(** The storage of a new handle.  The constructors leave [m_hasParent] unset when there is
    no parent (dll_iges_entity.cpp L42-68); it is then never looked at, here it is
    false. *)
Definition blank (t : Z) (s : st) : st :=
  mkSt (cells s ++ [Some false; Some false]) (objs s) (hands s ++ [Some (mkHand t None None)]).

(** A handle stops being attached: [if( m_valid && NULL != m_entity )
    m_entity->DetachValidFlag( &m_valid )]. *)
Definition loose (h : nat) (s : st) : option st :=
  match attached s h with
  | Some o => DetachValidFlag o (valid_of h) s
  | None => Some s
  end.
Definition loose_parent (h : nat) (s : st) : option st :=
  match parent s h with
  | Some o => DetachValidFlag o (parent_of h) s
  | None => Some s
  end.

(** The base class's constructor, dll_iges_entity.cpp L42-54 and L57-68; [p] is the
    model, if any. *)
Definition base_new (t : Z) (p : option nat) (s : st) : option st :=
  let h := length (hands s) in
  let s1 := blank t s in
  match p with
  | None => Some s1
  | Some m => let! s2 := set_parent h (Some m) s1 in AttachValidFlag m (parent_of h) s2
  end.

(** A new entity in the model [p], or without one, gets the handle's flag
    (dll_entity110.cpp L38-45, L83-94; the other classes alike). *)
Definition hold_new (h : nat) (t : Z) (p : option nat) (s : st) : option st :=
  let e := fresh s in
  let! s1 := match p with Some m => NewEntity m t s | None => Some (make t s) end in
  let! s2 := set_target h (Some e) s1 in
  AttachValidFlag e (valid_of h) s2.

(** The constructor with an [IGES*], dll_entity110.cpp L32-49. *)
Definition HandNew (t : Z) (p : option nat) (create : bool) (s : st) : option st :=
  let h := length (hands s) in
  let! s1 := base_new t p s in
  if create then hold_new h t p s1 else Some s1.

(** [GetRawPtr], dll_iges.cpp L61-69: an invalid pointer is forgotten.  [fst] is the
    result. *)
Definition raw (h : nat) (s : st) : option (option nat * st) :=
  let! x := hnd s h in
  match attached s h with
  | Some o => Some (Some o, s)
  | None =>
    let! s1 := set_target h None s in
    let! s2 := put (valid_of h) false s1 in
    Some (None, s2)
  end.

(** The constructor with a [DLL_IGES&], dll_entity110.cpp L52-66. *)
Definition HandNewVia (t : Z) (d : nat) (create : bool) (s : st) : option st :=
  let! r := raw d s in
  let h := length (hands (snd r)) in
  let! s1 := base_new t (fst r) (snd r) in
  match fst r with
  | Some m => if create then hold_new h t (Some m) s1 else Some s1
  | None => Some s1
  end.

(** The destructor, dll_iges_entity.cpp L71-80. *)
Definition HandDestroy (h : nat) (s : st) : option st :=
  let! x := hnd s h in
  let! s1 := loose_parent h s in
  let! s2 := loose h s1 in
  Some (mkSt (upd (upd (cells s2) (valid_of h) None) (parent_of h) None) (objs s2) (upd (hands s2) h None)).

(** [Attach], L177-195; the argument is not NULL. *)
Definition Attach (h e : nat) (s : st) : option (bool * st) :=
  let! x := hnd s h in
  let! y := obj s e in
  if negb (h_type x =? o_type y) then Some (false, s) else
  let! s1 := loose h s in
  let! s2 := set_target h (Some e) s1 in
  let! s3 := AttachValidFlag e (valid_of h) s2 in
  Some (true, s3).

(** [Detach], L146-161. *)
Definition Detach (h : nat) (s : st) : option st :=
  let! x := hnd s h in
  let! s1 := loose h s in
  let! s2 := set_target h None s1 in
  put (valid_of h) false s2.

(** [DelEntity], L164-174. *)
Definition HandDel (h : nat) (s : st) : option st :=
  let! x := hnd s h in
  let! s1 := loose h s in
  let! s2 := match attached s h with Some o => kill o s1 | None => Some s1 end in
  let! s3 := set_target h None s2 in
  put (valid_of h) false s3.

(** [NewEntity] of the classes, dll_entity110.cpp L74-95. *)
Definition HandNewEntity (h : nat) (s : st) : option st :=
  let! x := hnd s h in
  let! s1 := loose h s in
  hold_new h (h_type x) (parent s h) s1.

(** [SetAPIParentIGES], dll_iges_entity.cpp L83-100 and L103-122. *)
Definition SetParent (h : nat) (p : option nat) (s : st) : option st :=
  let! x := hnd s h in
  let! s1 := loose_parent h s in
  match p with
  | Some m => let! s2 := set_parent h (Some m) s1 in AttachValidFlag m (parent_of h) s2
  | None => let! s2 := set_parent h None s1 in put (parent_of h) false s2
  end.
(** The overload detaches first and asks for the raw pointer then. *)
Definition SetParentVia (h d : nat) (s : st) : option st :=
  let! x := hnd s h in
  let! s1 := loose_parent h s in
  let! r := raw d s1 in
  match fst r with
  | Some m => let! s2 := set_parent h (Some m) (snd r) in AttachValidFlag m (parent_of h) s2
  | None => let! s2 := set_parent h None (snd r) in put (parent_of h) false s2
  end.

(** [DLL_IGES], dll_iges.cpp L38-47 and L50-59. *)
Definition ModelHandNew (s : st) : option st :=
  let h := length (hands s) in
  let m := fresh s in
  let! s1 := set_target h (Some m) (make (-1) (blank (-1) s)) in
  AttachValidFlag m (valid_of h) s1.
Definition ModelHandDestroy (h : nat) (s : st) : option st :=
  let! x := hnd s h in
  let! s1 := loose h s in
  let! s2 := match attached s h with Some m => kill_model m s1 | None => Some s1 end in
  Some (mkSt (upd (upd (cells s2) (valid_of h) None) (parent_of h) None) (objs s2) (upd (hands s2) h None)).

(** The types which [NewAPIEntity] makes handles for, dll_iges.cpp L242-323. *)
Definition api_types : list Z := [100; 102; 104; 110; 120; 122; 124; 126; 128; 142; 144; 308; 314; 408].

(** [NewAPIEntity], dll_iges.cpp L223-350, with [aEntityPointer] NULL on entry: an entity, and
    then a handle which makes another one.  For the other types the entity is deleted but
    stays in the model's list.  The last tests (L330-347) never fail. *)
Definition NewAPIEntity (d : nat) (t : Z) (s : st) : option (bool * st) :=
  let! x := hnd s d in
  match attached s d with
  | None => Some (false, s)
  | Some m =>
    let e := fresh s in
    let! s1 := NewEntity m t s in
    if zhas t api_types then
      let h := length (hands s1) in
      let! s2 := HandNew t (Some m) true s1 in
      Attach h e s2
    else let! s2 := kill e s1 in Some (false, s2)
  end.

(** ** Histories *)

Inductive op :=
| MakeEntity (t : Z)             (* new IGES_ENTITY_t( NULL ) *)
| MakeModel                      (* new IGES *)
| Delete (e : nat)               (* delete of an entity *)
| DeleteModel (m : nat)
| MNew (m : nat) (t : Z) | MAdd (m e : nat) | MDel (m e : nat) | MUnlink (m e : nat) | MClear (m : nat)
| HNew (t : Z) (p : option nat) (create : bool) | HNewVia (t : Z) (d : nat) (create : bool)
| HDestroy (h : nat) | HAttach (h e : nat) | HDetach (h : nat) | HDel (h : nat) | HNewEntity (h : nat)
| HSetParent (h : nat) (p : option nat) | HSetParentVia (h d : nat) | HRaw (h : nat)
| DNew | DDestroy (d : nat) | DNewEntity (d : nat) (t : Z).

Definition run (o : op) (s : st) : option st :=
  match o with
  | MakeEntity t => Some (make t s)
  | MakeModel => Some (make (-1) s)
  | Delete e => kill e s
  | DeleteModel m => kill_model m s
  | MNew m t => NewEntity m t s
  | MAdd m e => AddEntity m e s
  | MDel m e => DelEntity m e s
  | MUnlink m e => UnlinkEntity m e s
  | MClear m => Clear m s
  | HNew t p c => HandNew t p c s
  | HNewVia t d c => HandNewVia t d c s
  | HDestroy h => HandDestroy h s
  | HAttach h e => let! r := Attach h e s in Some (snd r)
  | HDetach h => Detach h s
  | HDel h => HandDel h s
  | HNewEntity h => HandNewEntity h s
  | HSetParent h p => SetParent h p s
  | HSetParentVia h d => SetParentVia h d s
  | HRaw h => let! r := raw h s in Some (snd r)
  | DNew => ModelHandNew s
  | DDestroy d => ModelHandDestroy d s
  | DNewEntity d t => let! r := NewAPIEntity d t s in Some (snd r)
  end.
Fixpoint runs (l : list op) (s : st) : option st :=
  match l with [] => Some s | o :: r => let! s1 := run o s in runs r s1 end.
