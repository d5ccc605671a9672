(* The object graph of a model: entities, the pointers they hold, the lists of
   referrers, and every public operation that changes them.

   Source: src/entities/iges_entity.cpp (base class), src/entities/entityNNN.cpp
   (unlink, addReference, delReference, destructors, setters of each entity) and
   src/iges/iges.cpp (NewEntity, AddEntity, DelEntity, UnlinkEntity, Cull, Clear).

   Simplifications, for the whole file:
   - one IGES object; an entity's `parent` is either that object or NULL;
   - addresses are natural numbers that are never used twice, so a use of a
     freed address is always seen;
   - geometry, names and numbers are left out; where a method asks the geometry
     (IsClosed) the answer is an argument of the operation;
   - undefined behaviour is `None`: following a pointer to a freed entity, a
     virtual call on an entity whose base destructor is running (addReference,
     delReference and unlink are pure virtual in iges_entity.h L215-237), the
     endless or out-of-range loop of delReference;
   - a C++ parameter type narrower than IGES_ENTITY* (IGES_CURVE*,
     IGES_ENTITY_142*, ...) is a check that refuses other entities. *)
From Coq Require Import List Bool ZArith Lia.
Import ListNotations.
Open Scope Z_scope.

(* EDGE_DATA, entity504.h: the curve and the two vertex lists *)
Record edge := mkEdge { ed_curve : nat; ed_start : nat; ed_stop : nat }.

(* One entity. n_type: what GetEntityType reports, 0 for the class IGES_ENTITY_NULL
   (entityNULL.cpp L37). n_null: its class is IGES_ENTITY_NULL. n_own: parent is the model.
   n_points: number of points of a vertex list (502).
   n_des: pStructure, pLineFontPattern, pLevel, pView, pTransform, pLabelAssoc,
   pColor (iges_entity.h). n_slots: the single pointers of the class, in order
   (120 L C; 122 DE; 142 SPTR BPTR CPTR; 144 PTS PTO; 164 PTR; 186 mshell; 408
   DE; 510 msurface). n_items: the list of pointers of the class (102 curves; 144
   PTI; 180 the operands among nodes; 186 mvoids; 308 DE; 510 mloops; 514
   mfaces). n_edges, n_verts: 504 edges and vertices with their use counts.
   n_loops: 508 edges, each with its parameter curves; its redges are n_verts. *)
Record node := mkNode {
  n_type : Z; n_null : bool; n_form : Z; n_own : bool; n_dep : Z; n_points : nat;
  n_refs : list nat; n_des : list (option nat); n_extras : list nat;
  n_slots : list (option nat); n_items : list nat;
  n_edges : list edge; n_verts : list (nat * nat); n_loops : list (nat * list nat) }.

Record graph := mkGraph { g_heap : nat -> option node; g_next : nat; g_ents : list nat }.

Definition empty_graph : graph := mkGraph (fun _ => None) 0 [].

Definition w_own v n := mkNode (n_type n) (n_null n) (n_form n) v (n_dep n) (n_points n)
  (n_refs n) (n_des n) (n_extras n) (n_slots n) (n_items n) (n_edges n) (n_verts n) (n_loops n).
Definition w_dep v n := mkNode (n_type n) (n_null n) (n_form n) (n_own n) v (n_points n)
  (n_refs n) (n_des n) (n_extras n) (n_slots n) (n_items n) (n_edges n) (n_verts n) (n_loops n).
Definition w_points v n := mkNode (n_type n) (n_null n) (n_form n) (n_own n) (n_dep n) v
  (n_refs n) (n_des n) (n_extras n) (n_slots n) (n_items n) (n_edges n) (n_verts n) (n_loops n).
Definition w_refs v n := mkNode (n_type n) (n_null n) (n_form n) (n_own n) (n_dep n) (n_points n)
  v (n_des n) (n_extras n) (n_slots n) (n_items n) (n_edges n) (n_verts n) (n_loops n).
Definition w_des v n := mkNode (n_type n) (n_null n) (n_form n) (n_own n) (n_dep n) (n_points n)
  (n_refs n) v (n_extras n) (n_slots n) (n_items n) (n_edges n) (n_verts n) (n_loops n).
Definition w_extras v n := mkNode (n_type n) (n_null n) (n_form n) (n_own n) (n_dep n) (n_points n)
  (n_refs n) (n_des n) v (n_slots n) (n_items n) (n_edges n) (n_verts n) (n_loops n).
Definition w_slots v n := mkNode (n_type n) (n_null n) (n_form n) (n_own n) (n_dep n) (n_points n)
  (n_refs n) (n_des n) (n_extras n) v (n_items n) (n_edges n) (n_verts n) (n_loops n).
Definition w_items v n := mkNode (n_type n) (n_null n) (n_form n) (n_own n) (n_dep n) (n_points n)
  (n_refs n) (n_des n) (n_extras n) (n_slots n) v (n_edges n) (n_verts n) (n_loops n).
Definition w_edges v n := mkNode (n_type n) (n_null n) (n_form n) (n_own n) (n_dep n) (n_points n)
  (n_refs n) (n_des n) (n_extras n) (n_slots n) (n_items n) v (n_verts n) (n_loops n).
Definition w_verts v n := mkNode (n_type n) (n_null n) (n_form n) (n_own n) (n_dep n) (n_points n)
  (n_refs n) (n_des n) (n_extras n) (n_slots n) (n_items n) (n_edges n) v (n_loops n).
Definition w_loops v n := mkNode (n_type n) (n_null n) (n_form n) (n_own n) (n_dep n) (n_points n)
  (n_refs n) (n_des n) (n_extras n) (n_slots n) (n_items n) (n_edges n) (n_verts n) v.

Definition look (g : graph) (i : nat) : option node := g_heap g i.
Definition put (g : graph) (i : nat) (n : node) : graph :=
  mkGraph (fun j => if Nat.eqb j i then Some n else g_heap g j) (g_next g) (g_ents g).
Definition free (g : graph) (i : nat) : graph :=
  mkGraph (fun j => if Nat.eqb j i then None else g_heap g j) (g_next g) (g_ents g).
Definition with_ents (g : graph) (l : list nat) : graph := mkGraph (g_heap g) (g_next g) l.

Definition mem (x : nat) (l : list nat) : bool := existsb (Nat.eqb x) l.
Definition zmem (x : Z) (l : list Z) : bool := existsb (Z.eqb x) l.

(* list::erase of the first element equal to x *)
Fixpoint rem1 (x : nat) (l : list nat) : list nat :=
  match l with
  | [] => []
  | y :: r => if Nat.eqb x y then r else y :: rem1 x r
  end.

(* the non-NULL pointers of a row of pointers *)
Fixpoint ptrs (l : list (option nat)) : list nat :=
  match l with
  | [] => []
  | Some x :: r => x :: ptrs r
  | None :: r => ptrs r
  end.

(* `if( aChild == p ) p = NULL;` tried on the pointers in order, first match only *)
Fixpoint clear1 (x : nat) (l : list (option nat)) : list (option nat) :=
  match l with
  | [] => []
  | Some y :: r => if Nat.eqb x y then None :: r else Some y :: clear1 x r
  | None :: r => None :: clear1 x r
  end.

Fixpoint set_nth {A} (k : nat) (v : A) (l : list A) : list A :=
  match l, k with
  | [], _ => []
  | _ :: r, O => v :: r
  | a :: r, S k' => a :: set_nth k' v r
  end.

(* the classes NewEntity can create, iges.cpp L823-944 *)
Definition known : list Z :=
  [100; 102; 104; 110; 120; 122; 124; 126; 128; 142; 144; 154; 164; 180; 186; 308;
   314; 406; 408; 502; 504; 508; 510; 514].

Definition blank_slots (t : Z) : list (option nat) :=
  if zmem t [122; 164; 186; 408; 510] then [None]
  else if zmem t [120; 144] then [None; None]
  else if t =? 142 then [None; None; None]
  else [].

(* the constructors; iges_entity.cpp L44-113, `depends` of 502 L43, 504 L44, 508
   L84, 510 L47; form 15 of 406 L44 *)
Definition new_node (t : Z) (own : bool) : node :=
  mkNode (if zmem t known then t else 0) (negb (zmem t known)) (if t =? 406 then 15 else -1) own
    (if zmem t [502; 504; 508; 510] then 1 else 0) 0
    [] [None; None; None; None; None; None; None] []
    (if zmem t known then blank_slots t else []) [] [] [] [].

(* ---- references ---- *)

Definition edge_curves (l : list edge) : list nat := map ed_curve l.
Definition loop_parts (l : list (nat * list nat)) : list nat :=
  flat_map (fun p => fst p :: snd p) l.

(* When addReference of entity c refuses parent p of type pt: class NULL (L198);
   102 L454; the circular checks of 122 L241, 142 L334, 144 L445, 164 L251, 308
   L274, 408 L249; 502 L199, 504 L355, 508 L392; base L362-382 *)
Definition forbids (n : node) (c p : nat) (pt : Z) : bool :=
  n_null n
  || ((n_type n =? 102) && (pt =? 102))
  || (zmem (n_type n) [122; 142; 144; 164; 308; 408] && mem p (ptrs (n_slots n) ++ n_items n))
  || (zmem (n_type n) [502; 504; 508] && Nat.eqb p c)
  || ((n_type n =? 504) && mem p (edge_curves (n_edges n)))
  || ((n_type n =? 508) && mem p (loop_parts (n_loops n)))
  || mem p (ptrs (n_des n)).

Inductive added := Refused | Already | Added.

(* c->addReference(p, dup), iges_entity.cpp L362-413: Refused is false, Already is
   true with dup set *)
Definition addReference (g : graph) (c p : nat) : option (added * graph) :=
  match look g c, look g p with
  | Some n, Some m =>
    if forbids n c p (n_type m) then Some (Refused, g)
    else if mem p (n_refs n) || mem p (n_extras n) then Some (Already, g)
    else Some (Added, put g c (w_refs (n_refs n ++ [p]) n))
  | _, _ => None
  end.

(* c->delReference(p), iges_entity.cpp L416-458. The loop over extras advances the
   wrong iterator, so it only ends if extras is empty or its first entry is p; in
   the latter case p->delReference(c) is called first unless p is a 402: if p does
   not list c that call recurses for ever or meets the same loop unless p has no
   extras. *)
Definition delReference (g : graph) (c p : nat) : option (bool * graph) :=
  match look g c with
  | None => None
  | Some n =>
    if n_null n then Some (false, g)
    else if mem p (n_refs n) then Some (true, put g c (w_refs (rem1 p (n_refs n)) n))
    else match n_extras n with
         | [] => Some (false, g)
         | x :: rest =>
           if Nat.eqb x p then
             match look g p with
             | None => None
             | Some m =>
               let g' :=
                 if (n_type m =? 402) || n_null m then Some g
                 else if mem c (n_refs m) then Some (put g p (w_refs (rem1 c (n_refs m)) m))
                 else match n_extras m with [] => Some g | _ => None end in
               match g' with
               | None => None
               | Some g1 =>
                 match look g1 c with
                 | None => None
                 | Some n1 => Some (true, put g1 c (w_extras (tl (n_extras n1)) n1))
                 end
               end
             end
           else None
         end
  end.

(* SetDependency: base L3038; 124 L391 and 314 L414 keep the value and return
   true; 502 L346, 504 L537, 508 L680, 510 L476 keep it and accept only
   STAT_DEP_PHY = 1; class NULL L395 refuses *)
Definition SetDependency (g : graph) (e : nat) (d : Z) : option (bool * graph) :=
  match look g e with
  | None => None
  | Some n =>
    if n_null n then Some (false, g)
    else if zmem (n_type n) [124; 314] then Some (true, g)
    else if zmem (n_type n) [502; 504; 508; 510] then Some (d =? 1, g)
    else Some (true, put g e (w_dep d n))
  end.

(* IGES::AddEntity, iges.cpp L948-972 *)
Definition AddEntity (g : graph) (x : nat) : option (bool * graph) :=
  match look g x with
  | None => None
  | Some n =>
    if mem x (g_ents g) then Some (true, g)
    else Some (true, with_ents (put g x (w_own true n)) (g_ents g ++ [x]))
  end.

(* `if( NULL != parent && parent != x->parent ) parent->AddEntity( x );` *)
Definition adopt (g : graph) (e x : nat) : option graph :=
  match look g e, look g x with
  | Some n, Some m =>
    if n_own n && negb (n_own m) then option_map snd (AddEntity g x) else Some g
  | _, _ => None
  end.

(* ---- Directory Entry pointers ---- *)

Inductive treat := Ignore | Refuse | Basic.

(* How class `t` treats the setter of DE pointer k (1 font, 2 level, 3 view, 4
   transform, 5 label, 6 colour): 124 L411-L467, 314 L444-L506, 406 L438-L486,
   502 L339-L424, 504 L530-L832, 508 L673/L699, 510 L469-L516, 514 L435-L470,
   NULL L325-L381 *)
Definition setter (n : node) (k : nat) : treat :=
  let t := n_type n in
  if n_null n then Refuse
  else if t =? 124 then (if Nat.eqb k 4 then Basic else Ignore)
  else if t =? 314 then Ignore
  else if t =? 406 then (if Nat.eqb k 2 then Basic else Ignore)
  else if zmem t [502; 504; 510; 514] then
    (if mem k [1; 3; 4; 6]%nat then Refuse else Basic)
  else if t =? 508 then (if mem k [3; 4]%nat then Refuse else Basic)
  else Basic.

(* the type tests of the base setters: font L1990, level L2093, view L2157, label
   L2294, colour L2399 *)
Definition de_type_ok (k : nat) (m : node) : bool :=
  let t := n_type m in
  let f := n_form m in
  match k with
  | 1%nat => t =? 304
  | 2%nat => (t =? 406) && (f =? 1)
  | 3%nat => negb (negb (t =? 410) || negb (t =? 402)
                   || ((t =? 402) && negb (f =? 3) && negb (f =? 4) && negb (f =? 19)))
  | 4%nat => (t =? 124) && negb (n_null m)
  | 5%nat => (t =? 402) && (f =? 5)
  | 6%nat => t =? 314
  | _ => false
  end.

(* `if( p ) { p->delReference(this); p = NULL; }` *)
Definition drop_de (g : graph) (e k : nat) : option graph :=
  match look g e with
  | None => None
  | Some n =>
    match nth k (n_des n) None with
    | None => Some g
    | Some x =>
      match delReference g x e with
      | None => None
      | Some (_, g1) =>
        match look g1 e with
        | None => None
        | Some n1 => Some (put g1 e (w_des (set_nth k None (n_des n1)) n1))
        end
      end
    end
  end.

(* SetLineFontPattern L1979, SetLevel L2081, SetView L2143, SetLabelAssoc L2279,
   SetColor L2386 with an entity: the pointer is set after addReference *)
Definition base_set_de (g : graph) (e k : nat) (x : option nat) : option (bool * graph) :=
  match drop_de g e k, x with
  | None, _ => None
  | Some g1, None => Some (true, g1)
  | Some g1, Some c =>
    match look g1 c with
    | None => None
    | Some m =>
      if de_type_ok k m then
        match addReference g1 c e with
        | None => None
        | Some (Added, g2) =>
          match look g2 e with
          | None => None
          | Some n2 =>
            option_map (fun g => (true, g))
              (adopt (put g2 e (w_des (set_nth k (Some c) (n_des n2)) n2)) e c)
          end
        | Some (_, g2) => Some (false, g2)
        end
      else Some (false, g1)
    end
  end.

(* SetTransform L2205: the pointer is set before addReference and taken back *)
Definition base_set_transform (g : graph) (e : nat) (x : option nat) : option (bool * graph) :=
  match drop_de g e 4, x with
  | None, _ => None
  | Some g1, None => Some (true, g1)
  | Some g1, Some c =>
    match look g1 c, look g1 e with
    | Some m, Some n1 =>
      if de_type_ok 4 m then
        match addReference (put g1 e (w_des (set_nth 4 (Some c) (n_des n1)) n1)) c e with
        | None => None
        | Some (Added, g2) => option_map (fun g => (true, g)) (adopt g2 e c)
        | Some (_, g2) =>
          match look g2 e with
          | None => None
          | Some n2 => Some (false, put g2 e (w_des (set_nth 4 None (n_des n2)) n2))
          end
        end
      else Some (false, g1)
    | _, _ => None
    end
  end.

Definition SetDe (g : graph) (e k : nat) (x : option nat) : option (bool * graph) :=
  match look g e with
  | None => None
  | Some n =>
    match k with
    | O => Some (false, g)            (* SetStructure L1907 *)
    | 4%nat =>
      match setter n k with
      | Ignore => Some (true, g)
      | Refuse => Some (false, g)
      | Basic => base_set_transform g e x
      end
    | _ =>
      match setter n k with
      | Ignore => Some (true, g)
      | Refuse => Some (false, g)
      | Basic => base_set_de g e k x
      end
    end
  end.

(* SetLineFontPattern L1959, SetLevel L2061, SetColor L2365 with a number: the old
   pointer goes, then the value is tested (`valid` is the answer) *)
Definition SetDeNum (g : graph) (e k : nat) (valid : bool) : option (bool * graph) :=
  match look g e with
  | None => None
  | Some n =>
    if mem k [1; 2; 6]%nat then
      match setter n k with
      | Ignore => Some (true, g)
      | Refuse => Some (false, g)
      | Basic => option_map (fun g => (valid, g)) (drop_de g e k)
      end
    else Some (false, g)
  end.

(* ---- optional entities ---- *)

(* AddOptionalEntity, iges_entity.cpp L2858-2899 *)
Definition AddOptional (g : graph) (e x : nat) : option (bool * graph) :=
  match look g e, look g x with
  | Some _, Some m =>
    if zmem (n_type m) [402; 406; 212; 312] then
      match (if n_type m =? 402 then Some (Added, g) else addReference g x e) with
      | None => None
      | Some (Added, g1) =>
        match look g1 e with
        | None => None
        | Some n1 =>
          option_map (fun g => (true, g))
            (adopt (put g1 e (w_extras (n_extras n1 ++ [x]) n1)) e x)
        end
      | Some (_, g1) => Some (false, g1)
      end
    else Some (false, g)
  | _, _ => None
  end.

(* DelOptionalEntity, iges_entity.cpp L2902-2940: asks itself, not the entity, to
   drop the reference, then looks for the entry delReference has just erased *)
Definition DelOptional (g : graph) (e x : nat) : option (bool * graph) :=
  match look g e, look g x with
  | Some _, Some m =>
    if zmem (n_type m) [402; 212; 312] then
      match delReference g e x with
      | None => None
      | Some (false, g1) => Some (false, g1)
      | Some (true, g1) =>
        match look g1 e with
        | None => None
        | Some n1 =>
          Some (mem x (n_extras n1), put g1 e (w_extras (rem1 x (n_extras n1)) n1))
        end
      end
    else Some (false, g)
  | _, _ => None
  end.

(* ---- class-specific setters ---- *)

Definition is_curve (n : node) : bool :=
  negb (n_null n) && zmem (n_type n) [100; 102; 104; 110; 126].
Definition is_a (t : Z) (n : node) : bool := negb (n_null n) && (n_type n =? t).

Definition drop_slot (g : graph) (e k : nat) : option graph :=
  match look g e with
  | None => None
  | Some n =>
    match nth k (n_slots n) None with
    | None => Some g
    | Some x =>
      match delReference g x e with
      | None => None
      | Some (_, g1) =>
        match look g1 e with
        | None => None
        | Some n1 => Some (put g1 e (w_slots (set_nth k None (n_slots n1)) n1))
        end
      end
    end
  end.

(* the common end: `x->SetDependency( STAT_DEP_PHY )` (if dep) and adoption *)
Definition settle (g : graph) (e x : nat) (dep : bool) : option (bool * graph) :=
  match (if dep then option_map snd (SetDependency g x 1) else Some g) with
  | None => None
  | Some g1 => option_map (fun g => (true, g)) (adopt g1 e x)
  end.

(* drop the old pointer, addReference, set: 120 SetL L437 and SetC L503, 122 SetDE
   L398 *)
Definition slot_after (g : graph) (e k x : nat) (dep : bool) : option (bool * graph) :=
  match drop_slot g e k with
  | None => None
  | Some g1 =>
    match addReference g1 x e with
    | None => None
    | Some (Added, g2) =>
      match look g2 e with
      | None => None
      | Some n2 => settle (put g2 e (w_slots (set_nth k (Some x) (n_slots n2)) n2)) e x dep
      end
    | Some (_, g2) => Some (false, g2)
    end
  end.

(* drop the old pointer, set, addReference, take back if refused: 142 SetSPTR
   L559, SetBPTR L605, SetCPTR L651; 144 SetPTS L673, SetPTO L730; 164
   SetClosedCurve L465; 408 SetDE L420. ok is the type test of 144 SetPTS. *)
Definition slot_before (g : graph) (e k : nat) (x : option nat) (ok dep : bool)
  : option (bool * graph) :=
  match drop_slot g e k, x with
  | None, _ => None
  | Some g1, None => Some (true, g1)
  | Some g1, Some c =>
    if ok then
      match look g1 e with
      | None => None
      | Some n1 =>
        match addReference (put g1 e (w_slots (set_nth k (Some c) (n_slots n1)) n1)) c e with
        | None => None
        | Some (Added, g2) => settle g2 e c dep
        | Some (_, g2) =>
          match look g2 e with
          | None => None
          | Some n2 => Some (false, put g2 e (w_slots (set_nth k None (n_slots n2)) n2))
          end
        end
      end
    else Some (false, g1)
  end.

(* checkInclusion144, entity144.cpp L37-80 *)
Definition inclusion144 : list Z :=
  [106; 108; 114; 118; 120; 122; 128; 140; 143; 190; 192; 194; 196; 198].

(* The setters of single pointers, by class of e and slot k; closed answers
   IsClosed() for 164. 122 SetDE reads through a NULL argument. *)
Definition SetSlot (g : graph) (e k : nat) (x : option nat) (closed : bool)
  : option (bool * graph) :=
  match look g e with
  | None => None
  | Some n =>
    match x with
    | None =>
      if n_null n then Some (false, g)
      else if (n_type n =? 120) && Nat.ltb k 2 then Some (false, g)
      else if (n_type n =? 122) && Nat.eqb k 0 then None
      else if (n_type n =? 164) && Nat.eqb k 0 then Some (false, g)
      else if ((n_type n =? 142) && Nat.ltb k 3) || ((n_type n =? 144) && Nat.ltb k 2)
              || ((n_type n =? 408) && Nat.eqb k 0)
      then slot_before g e k None true true
      else Some (false, g)
    | Some c =>
      match look g c with
      | None => None
      | Some m =>
        if n_null n then Some (false, g)
        else if n_type n =? 120 then
          (if is_curve m then
             match k with
             | 0%nat => if n_type m =? 110 then slot_after g e 0 c true else Some (false, g)
             | 1%nat => slot_after g e 1 c true
             | _ => Some (false, g)
             end
           else Some (false, g))
        else if n_type n =? 122 then
          (if is_curve m && Nat.eqb k 0 then slot_after g e 0 c true else Some (false, g))
        else if n_type n =? 142 then
          (if Nat.ltb k 3 then slot_before g e k (Some c) true true else Some (false, g))
        else if n_type n =? 144 then
          match k with
          | 0%nat => slot_before g e 0 (Some c) (zmem (n_type m) inclusion144) true
          | 1%nat => if is_a 142 m then slot_before g e 1 (Some c) true true else Some (false, g)
          | _ => Some (false, g)
          end
        else if n_type n =? 164 then
          (if is_curve m && closed && Nat.eqb k 0 then slot_before g e 0 (Some c) true true
           else Some (false, g))
        else if n_type n =? 408 then
          (if is_a 308 m && Nat.eqb k 0 then slot_before g e 0 (Some c) true false
           else Some (false, g))
        else Some (false, g)
      end
    end
  end.

(* 102 AddSegment L723-777: closed answers IsClosed() of the curve so far *)
Definition AddSegment (g : graph) (e x : nat) (closed : bool) : option (bool * graph) :=
  match look g e, look g x with
  | Some n, Some m =>
    if negb (is_a 102 n) || negb (is_curve m) then Some (false, g)
    else if n_type m =? 102 then Some (false, g)
    else if negb (match n_items n with [] => true | _ => false end) && closed
    then Some (false, g)
    else
      match addReference g x e with
      | None => None
      | Some (Refused, g1) => Some (false, g1)
      | Some (Already, g1) => option_map (fun g => (true, g)) (adopt g1 e x)
      | Some (Added, g1) =>
        match SetDependency g1 x 1 with
        | None => None
        | Some (_, g2) =>
          match look g2 e with
          | None => None
          | Some n2 =>
            option_map (fun g => (true, g)) (adopt (put g2 e (w_items (n_items n2 ++ [x]) n2)) e x)
          end
        end
      end
  | _, _ => None
  end.

(* addReference, then push_back: 144 AddPTI L816, 180 AddArg L583, 308 AddDE L503 *)
Definition item_add (g : graph) (e x : nat) (dep : bool) : option (bool * graph) :=
  match addReference g x e with
  | None => None
  | Some (Added, g1) =>
    match look g1 e with
    | None => None
    | Some n1 => settle (put g1 e (w_items (n_items n1 ++ [x]) n1)) e x dep
    end
  | Some (_, g1) => Some (false, g1)
  end.

(* 180 typeOK, entity180.cpp L52-86 *)
Definition operand_types : list Z := [150; 152; 154; 156; 158; 160; 162; 164; 168; 180; 430; 186].

(* 144 AddPTI, 180 AddArg (operators of the tree are left out), 308 AddDE *)
Definition AddItem (g : graph) (e x : nat) : option (bool * graph) :=
  match look g e, look g x with
  | Some n, Some m =>
    if n_null n then Some (false, g)
    else if n_type n =? 144 then
      (if negb (is_a 142 m) then Some (false, g)
       else if mem x (n_items n) then Some (true, g)
       else item_add g e x true)
    else if n_type n =? 180 then
      (if zmem (n_type m) operand_types then item_add g e x false else Some (false, g))
    else if n_type n =? 308 then
      (if mem x (ptrs (n_des n)) || mem x (n_refs n) || mem x (n_extras n) then Some (false, g)
       else if mem x (n_items n) then Some (true, g)
       else item_add g e x true)
    else Some (false, g)
  | _, _ => None
  end.

(* 144 DelPTI L868, 308 DelDE L592: the entry goes, the reference stays *)
Definition DelItem (g : graph) (e x : nat) : option (bool * graph) :=
  match look g e with
  | None => None
  | Some n =>
    if (is_a 144 n || is_a 308 n) && mem x (n_items n)
    then Some (true, put g e (w_items (rem1 x (n_items n)) n))
    else Some (false, g)
  end.

(* 510 SetSurface L562 and AddBound L544: no reference is made *)
Definition SetSurface (g : graph) (e x : nat) : option (bool * graph) :=
  match look g e, look g x with
  | Some n, Some _ =>
    if is_a 510 n
    then option_map (fun g => (true, g)) (adopt (put g e (w_slots [Some x] n)) e x)
    else Some (false, g)
  | _, _ => None
  end.
Definition AddBound (g : graph) (e x : nat) : option (bool * graph) :=
  match look g e, look g x with
  | Some n, Some m =>
    if is_a 510 n && is_a 508 m
    then option_map (fun g => (true, g)) (adopt (put g e (w_items (n_items n ++ [x]) n)) e x)
    else Some (false, g)
  | _, _ => None
  end.

(* 502 AddVertex L389 *)
Definition AddVertex (g : graph) (e : nat) : option (bool * graph) :=
  match look g e with
  | None => None
  | Some n =>
    if is_a 502 n then Some (true, put g e (w_points (S (n_points n)) n)) else Some (false, g)
  end.

(* ---- 504: edge lists ---- *)

Fixpoint count_up (v : nat) (l : list (nat * nat)) : list (nat * nat) :=
  match l with
  | [] => []
  | (w, c) :: r => if Nat.eqb v w then (w, S c) :: r else (w, c) :: count_up v r
  end.

(* --second, and erase when it has reached zero *)
Fixpoint count_down (v : nat) (l : list (nat * nat)) : list (nat * nat) :=
  match l with
  | [] => []
  | (w, c) :: r =>
    if Nat.eqb v w then (match c with S (S c') => (w, S c') :: r | _ => r end)
    else (w, c) :: count_down v r
  end.

(* addVertexList, entity504.cpp L725-767; addEdge of 508, L707-746 *)
Definition addVertexList (g : graph) (e v : nat) : option (bool * graph) :=
  match look g e with
  | None => None
  | Some n =>
    if mem v (map fst (n_verts n)) then Some (true, put g e (w_verts (count_up v (n_verts n)) n))
    else
      match addReference g v e with
      | None => None
      | Some (Added, g1) =>
        match look g1 e with
        | None => None
        | Some n1 =>
          option_map (fun g => (true, g))
            (adopt (put g1 e (w_verts (n_verts n1 ++ [(v, 1%nat)]) n1)) e v)
        end
      | Some (_, g1) => Some (false, g1)
      end
  end.

(* delVertexList( v, false ), entity504.cpp L771-801 *)
Definition delVertexList (g : graph) (e v : nat) : option (bool * graph) :=
  match look g e with
  | None => None
  | Some n =>
    match find (fun p => Nat.eqb (fst p) v) (n_verts n) with
    | None => Some (false, g)
    | Some (_, c) =>
      match (if Nat.eqb c 1 then option_map snd (delReference g v e) else Some g) with
      | None => None
      | Some g1 =>
        match look g1 e with
        | None => None
        | Some n1 => Some (true, put g1 e (w_verts (count_down v (n_verts n1)) n1))
        end
      end
    end
  end.

(* addCurve, entity504.cpp L660-721 *)
Definition addCurve (g : graph) (e x : nat) : option (bool * graph) :=
  match look g x with
  | None => None
  | Some m =>
    if zmem (n_type m) [100; 102; 104; 110; 112; 126; 130]
       || ((n_type m =? 106) && zmem (n_form m) [11; 12; 63])
    then
      match addReference g x e with
      | None => None
      | Some (Added, g1) => option_map (fun g => (true, g)) (adopt g1 e x)
      | Some (_, g1) => Some (false, g1)
      end
    else Some (false, g)
  end.

Definition then_false (r : option (bool * graph)) : option (bool * graph) :=
  option_map (fun p => (false, snd p)) r.
Definition and_then (r : option (bool * graph)) (k : graph -> option (bool * graph))
  : option (bool * graph) :=
  match r with None => None | Some (_, g) => k g end.

(* 504 AddEdge L589-656: s and t are the vertex indices *)
Definition AddEdge (g : graph) (e x sv : nat) (s : Z) (tv : nat) (t : Z) : option (bool * graph) :=
  match look g e, look g sv, look g tv with
  | Some n, Some ms, Some mt =>
    if negb (is_a 504 n) || negb (is_a 502 ms) || negb (is_a 502 mt) then Some (false, g)
    else
      match addCurve g e x with
      | None => None
      | Some (false, g1) => Some (false, g1)
      | Some (true, g1) =>
        match addVertexList g1 e sv with
        | None => None
        | Some (false, g2) => then_false (delReference g2 x e)
        | Some (true, g2) =>
          match addVertexList g2 e tv with
          | None => None
          | Some (false, g3) =>
            and_then (delReference g3 x e) (fun g => then_false (delVertexList g e sv))
          | Some (true, g3) =>
            if (s <? 1) || (s >? Z.of_nat (n_points ms)) || (t <? 1) || (t >? Z.of_nat (n_points mt))
            then and_then (delReference g3 x e) (fun g =>
                 and_then (delVertexList g e sv) (fun g => then_false (delVertexList g e tv)))
            else
              match look g3 e with
              | None => None
              | Some n3 => Some (true, put g3 e (w_edges (n_edges n3 ++ [mkEdge x sv tv]) n3))
              end
          end
        end
      end
  | _, _, _ => None
  end.

(* ---- 508: loops ---- *)

(* the rollback of AddEdge, entity508.cpp L926-941: delReference on the curve that
   failed and on every curve before it *)
Fixpoint drop_curves (g : graph) (e : nat) (l : list nat) : option graph :=
  match l with
  | [] => Some g
  | x :: r =>
    match delReference g x e with
    | None => None
    | Some (_, g1) => drop_curves g1 e r
    end
  end.

(* addPCurve L808-850 on each curve in turn; `done` holds those before, last first *)
Fixpoint add_pcurves (g : graph) (e : nat) (done l : list nat) : option (bool * graph) :=
  match l with
  | [] => Some (true, g)
  | x :: r =>
    match look g e with
    | None => None
    | Some n =>
      if mem x (flat_map snd (n_loops n)) then
        option_map (fun g => (false, g)) (drop_curves g e (x :: done))
      else
        match addReference g x e with
        | None => None
        | Some (Added, g1) =>
          match adopt g1 e x with
          | None => None
          | Some g2 => add_pcurves g2 e (x :: done) r
          end
        | Some (_, g1) => option_map (fun g => (false, g)) (drop_curves g1 e (x :: done))
        end
    end
  end.

(* 508 AddEdge L915-947 *)
Definition AddLoopEdge (g : graph) (e d : nat) (curves : list nat) : option (bool * graph) :=
  match look g e with
  | None => None
  | Some n =>
    if negb (is_a 508 n) then Some (false, g)
    else
      match addVertexList g e d with
      | None => None
      | Some (false, g1) => Some (false, g1)
      | Some (true, g1) =>
        match add_pcurves g1 e [] curves with
        | None => None
        | Some (false, g2) => Some (false, g2)
        | Some (true, g2) =>
          match look g2 e with
          | None => None
          | Some n2 => Some (true, put g2 e (w_loops (n_loops n2 ++ [(d, curves)]) n2))
          end
        end
      end
  end.

(* ---- unlink and destruction ---- *)

(* 102 unlink L410-436, the part after the base: an interior segment takes the
   whole curve with it *)
Fixpoint drop_refs (g : graph) (r : nat) (l : list nat) : option graph :=
  match l with
  | [] => Some g
  | x :: rest =>
    match delReference g x r with
    | None => None
    | Some (_, g1) => drop_refs g1 r rest
    end
  end.

Fixpoint after (x : nat) (l : list nat) : list nat :=
  match l with
  | [] => []
  | y :: r => if Nat.eqb x y then r else after x r
  end.

(* `sp == curves.begin() || sp == --curves.end()` for the first entry equal to x *)
Definition ends (x : nat) (l : list nat) : bool :=
  match l with
  | [] => true
  | y :: _ => Nat.eqb x y || match after x l with [] => true | _ => false end
  end.

Definition unlink102 (g : graph) (r : nat) (n : node) (e : nat) : option (bool * graph) :=
  if mem e (n_items n) then
    let rest := rem1 e (n_items n) in
    if ends e (n_items n) then Some (true, put g r (w_items rest n))
    else option_map (fun g1 => (true, g1))
           (drop_refs (put g r (w_items [] n)) r rest)
  else Some (true, g).

Fixpoint cut (e : nat) (l : list edge) : list edge :=
  match l with
  | [] => []
  | d :: rest => if Nat.eqb (ed_curve d) e then rest else d :: cut e rest
  end.

(* 504 unlink L280-343 after the base. For a vertex list (type 502) in use,
   delVertexList( child, true ) calls child->delReference on an entity whose base
   destructor is running: a call of a pure virtual function. *)
Definition unlink504 (g : graph) (r : nat) (n : node) (e : nat) (te : Z) : option (bool * graph) :=
  if te =? 502 then
    (if mem e (map fst (n_verts n)) then None else Some (false, g))
  else
    match find (fun d => Nat.eqb (ed_curve d) e) (n_edges n) with
    | None => Some (false, g)
    | Some d =>
      and_then (delVertexList g r (ed_start d)) (fun g1 =>
      and_then (delVertexList g1 r (ed_stop d)) (fun g2 =>
        match look g2 r with
        | None => None
        | Some n2 =>
          Some (true, put g2 r (w_edges (cut e (n_edges n2)) n2))
        end))
    end.

(* 508 unlink L358-380 after the base. If the entity is in use: delEdge L749
   decrements a reverse iterator at its start and deletes the curve records twice;
   delPCurve L854 calls delReference on the dying entity. Both are undefined. *)
Definition unlink508 (g : graph) (n : node) (e : nat) (te : Z) : option (bool * graph) :=
  if zmem te [502; 504] then
    (if mem e (map fst (n_verts n)) then None else Some (false, g))
  else if mem e (flat_map snd (n_loops n)) then None else Some (false, g).

(* r->unlink(e), where e of type te is being destroyed. Base L280-359; 124 L229;
   NULL L183; 120 L246, 122 L211, 142 L297, 144 L396, 164 L227, 186 L288, 308 L237,
   408 L219, 510 L250, 514 L233: base, then the single pointers, then the list;
   102 L397; 180 L297 (the tree forgets all operands, their references stay); 504;
   508; the others are the base *)
Definition unlink (g : graph) (r e : nat) (te : Z) : option (bool * graph) :=
  match look g r with
  | None => None
  | Some n =>
    if n_null n then Some (true, g)
    else if n_type n =? 124 then
      match nth 4 (n_des n) None with
      | Some x =>
        if (te =? 124) && Nat.eqb e x
        then Some (true, put g r (w_des (set_nth 4 None (n_des n)) n))
        else Some (false, g)
      | None => Some (false, g)
      end
    else if mem e (ptrs (n_des n)) then Some (true, put g r (w_des (clear1 e (n_des n)) n))
    else if mem e (n_extras n) then Some (true, put g r (w_extras (rem1 e (n_extras n)) n))
    else if n_type n =? 102 then unlink102 g r n e
    else if n_type n =? 180 then
      Some (true, if mem e (n_items n) then put g r (w_items [] n) else g)
    else if n_type n =? 504 then unlink504 g r n e te
    else if n_type n =? 508 then unlink508 g n e te
    else if mem e (ptrs (n_slots n)) then Some (true, put g r (w_slots (clear1 e (n_slots n)) n))
    else if mem e (n_items n) then Some (true, put g r (w_items (rem1 e (n_items n)) n))
    else Some (false, g)
  end.

Fixpoint unlink_all (g : graph) (l : list nat) (e : nat) (te : Z) : option graph :=
  match l with
  | [] => Some g
  | r :: rest =>
    match unlink g r e te with
    | None => None
    | Some (_, g1) => unlink_all g1 rest e te
    end
  end.

(* the entities whose delReference the class destructor calls, in order: 102 L53,
   120 L51, 122 L54, 142 L56, 144 L98, 164 L54, 180 L45, 186 L57, 308 L50, 408 L56,
   510 L56, 514 L50: pointers, then list; 504 L52: curves, then vertex lists *)
Definition own_parts (n : node) : list nat :=
  ptrs (n_slots n) ++ n_items n ++ edge_curves (n_edges n)
  ++ (if n_type n =? 508 then [] else map fst (n_verts n)).

(* the base destructor's loop over extras, L155-183 *)
Fixpoint drop_extras (g : graph) (l : list nat) (e : nat) (te : Z) : option graph :=
  match l with
  | [] => Some g
  | x :: rest =>
    match look g x with
    | None => None
    | Some m =>
      match (if n_type m =? 402 then unlink g x e te else delReference g x e) with
      | None => None
      | Some (_, g1) => drop_extras g1 rest e te
      end
    end
  end.

(* delete e: the class destructor (508 L90 calls unlink where delReference is
   meant), then ~IGES_ENTITY L117-221, during which virtual calls on e are
   undefined: e is taken from the heap before it *)
Definition destroy (g : graph) (e : nat) : option graph :=
  match look g e with
  | None => None
  | Some n =>
    match (if (n_type n =? 508) && negb (n_null n)
           then unlink_all g (flat_map snd (n_loops n) ++ map fst (n_verts n)) e (n_type n)
           else drop_refs g e (own_parts n)) with
    | None => None
    | Some g1 =>
      match look g1 e with
      | None => None
      | Some n1 =>
        match unlink_all (free g1 e) (n_refs n1) e (n_type n1) with
        | None => None
        | Some g2 =>
          match drop_extras g2 (n_extras n1) e (n_type n1) with
          | None => None
          | Some g3 => drop_refs g3 e (ptrs (n_des n1))
          end
        end
      end
    end
  end.

(* ---- the model ---- *)

(* IGES::NewEntity, iges.cpp L823-944 (own = true, stored); with own = false an
   entity constructed by the caller with a NULL parent *)
Definition NewEntity (g : graph) (t : Z) (own : bool) : graph :=
  let i := g_next g in
  mkGraph (fun j => if Nat.eqb j i then Some (new_node t own) else g_heap g j)
    (S i) (if own then g_ents g ++ [i] else g_ents g).

(* IGES::DelEntity, iges.cpp L976-1000 *)
Definition DelEntity (g : graph) (e : nat) : option (bool * graph) :=
  if mem e (g_ents g) then
    option_map (fun g1 => (true, with_ents g1 (rem1 e (g_ents g1)))) (destroy g e)
  else Some (false, g).

(* IGES::UnlinkEntity, iges.cpp L1004-1027 *)
Definition UnlinkEntity (g : graph) (e : nat) : graph :=
  with_ents g (rem1 e (g_ents g)).

(* isOrphaned of every class *)
Definition none {A} (o : option A) : bool := match o with None => true | _ => false end.
Definition nil {A} (l : list A) : bool := match l with [] => true | _ => false end.

Definition isOrphaned (n : node) : bool :=
  let t := n_type n in
  let loose := nil (n_refs n) && negb (n_dep n =? 0) in
  let slot k := nth k (n_slots n) None in
  if n_null n then true                                              (* NULL L191 *)
  else if zmem t [124; 314] then nil (n_refs n)                       (* 124 L255, 314 L260 *)
  else if zmem t [102; 308] then loose || nil (n_items n)             (* 102 L442, 308 L264 *)
  else if t =? 120 then loose || none (slot 0%nat) || none (slot 1%nat)   (* L267 *)
  else if zmem t [122; 144; 164; 408] then loose || none (slot 0%nat)
                                              (* 122 L232, 144 L435, 164 L242, 408 L240 *)
  else if t =? 142 then
    loose || none (slot 0%nat) || (none (slot 1%nat) && none (slot 2%nat))   (* L324 *)
  else if t =? 186 then none (slot 0%nat)                             (* L318 *)
  else if t =? 406 then (n_form n =? 0) || loose                      (* L276 *)
  else if t =? 502 then nil (n_refs n) || Nat.eqb (n_points n) 0      (* L190 *)
  else if t =? 504 then nil (n_refs n) || nil (n_edges n)             (* L346 *)
  else if t =? 508 then nil (n_refs n) || nil (n_loops n)             (* L383 *)
  else if t =? 510 then nil (n_refs n) || none (slot 0%nat) || nil (n_items n)   (* L279 *)
  else if t =? 514 then loose || nil (n_items n)                      (* L256 *)
  else loose.          (* 100, 104, 110, 126 L392, 128 L398, 154 L178, 180 L330 *)

(* the test of IGES::Cull, iges.cpp L1754-1757 *)
Definition doomed (vicious : bool) (n : node) : bool :=
  isOrphaned n || (vicious && nil (n_refs n) && negb (n_type n =? 408)).

(* IGES::Cull, iges.cpp L1746-1781: the loop, kept collects tmpEnts *)
Fixpoint cull_loop (g : graph) (vicious : bool) (l kept : list nat) : option (graph * list nat) :=
  match l with
  | [] => Some (g, kept)
  | e :: rest =>
    match look g e with
    | None => None
    | Some n =>
      if doomed vicious n then
        match destroy g e with
        | None => None
        | Some g1 => cull_loop g1 vicious rest kept
        end
      else cull_loop g vicious rest (kept ++ [e])
    end
  end.

Definition Cull (g : graph) (vicious : bool) : option graph :=
  match cull_loop g vicious (g_ents g) [] with
  | None => None
  | Some (g1, kept) => Some (with_ents g1 kept)
  end.

Fixpoint destroy_all (g : graph) (l : list nat) : option graph :=
  match l with
  | [] => Some g
  | e :: rest => match destroy g e with None => None | Some g1 => destroy_all g1 rest end
  end.

(* IGES::Clear, iges.cpp L404-419 *)
Definition Clear (g : graph) : option graph :=
  option_map (fun g1 => with_ents g1 []) (destroy_all g (g_ents g)).

(* ---- histories ---- *)

Inductive op :=
| ONew (t : Z)                          (* IGES::NewEntity *)
| OMake (t : Z)                         (* new IGES_ENTITY_t( NULL ) *)
| OAdd (e : nat)                        (* IGES::AddEntity *)
| OUnlink (e : nat)                     (* IGES::UnlinkEntity *)
| ODel (e : nat)                        (* IGES::DelEntity *)
| OFree (e : nat)                       (* delete e; by the caller *)
| OCull (vicious : bool)
| OClear
| OSetDe (e k : nat) (x : option nat)
| OSetDeNum (e k : nat) (valid : bool)
| ODepend (e : nat) (d : Z)
| OAddOptional (e x : nat)
| ODelOptional (e x : nat)
| OSetSlot (e k : nat) (x : option nat) (closed : bool)
| OAddSegment (e x : nat) (closed : bool)
| OAddItem (e x : nat)
| ODelItem (e x : nat)
| OSetSurface (e x : nat)
| OAddBound (e x : nat)
| OAddVertex (e : nat)
| OAddEdge (e x sv : nat) (s : Z) (tv : nat) (t : Z)
| OAddLoopEdge (e d : nat) (curves : list nat).

Definition yes (g : option graph) : option (bool * graph) := option_map (fun g => (true, g)) g.

Definition run (o : op) (g : graph) : option (bool * graph) :=
  match o with
  | ONew t => Some (true, NewEntity g t true)
  | OMake t => Some (true, NewEntity g t false)
  | OAdd e => AddEntity g e
  | OUnlink e => Some (mem e (g_ents g), UnlinkEntity g e)
  | ODel e => DelEntity g e
  | OFree e => yes (destroy g e)
  | OCull v => yes (Cull g v)
  | OClear => yes (Clear g)
  | OSetDe e k x => SetDe g e k x
  | OSetDeNum e k v => SetDeNum g e k v
  | ODepend e d => SetDependency g e d
  | OAddOptional e x => AddOptional g e x
  | ODelOptional e x => DelOptional g e x
  | OSetSlot e k x c => SetSlot g e k x c
  | OAddSegment e x c => AddSegment g e x c
  | OAddItem e x => AddItem g e x
  | ODelItem e x => DelItem g e x
  | OSetSurface e x => SetSurface g e x
  | OAddBound e x => AddBound g e x
  | OAddVertex e => AddVertex g e
  | OAddEdge e x sv s tv t => AddEdge g e x sv s tv t
  | OAddLoopEdge e d l => AddLoopEdge g e d l
  end.

Fixpoint runs (l : list op) (g : graph) : option graph :=
  match l with
  | [] => Some g
  | o :: rest => match run o g with None => None | Some (_, g1) => runs rest g1 end
  end.
