(* The last phase of reading: the numbers read from a file become pointers.

   Source: src/entities/iges_entity.cpp L461-1053 (base class associate),
   src/entities/entityNNN.cpp (associate of each class), src/iges/iges.cpp L602-624
   (the end of IGES::Read).

   Simplifications, for the whole file (beside those of GraphModel.v):
   - entities have the addresses 0, 1, 2, ... in the order of their Directory
     Entries, as Read creates them;
   - what the methods ask of the geometry (IsClosed of a curve; whether the end
     points of two successive segments can be computed) is answered by two
     functions of the graph which are otherwise left open;
   - the messages, and the status `use` of composite curves, are left out;
   - undefined behaviour is `None`; besides following a NULL pointer it is here an
     index below the first entity and a cast to a class the entity is not of. *)
From Coq Require Import List Bool ZArith Lia.
From Verif Require Import GraphModel.
Import ListNotations.
Open Scope Z_scope.

(* What the file says of one entity: type, form, dependency status; number of points
   of a vertex list; the Directory Entry numbers structure, lineFontPattern, level,
   view, transform, labelAssoc, colorNum; the numbers of the optional entities
   (iExtras); those of the class (120 iL iC; 122 iDE; 142 iSPTR iBPTR iCPTR; 144 iPTS
   iPTO; 164 iPtr; 186 mDEshell; 408 iDE; 510 mDEsurf); the lists of the class (102
   iCurves; 144 iPTI; 180 the operands among nodes; 186 ivoids; 308 iDE; 510 iloops;
   514 ifaces); 504 deItems: curve, start list, start index, end list, end index; 508
   deItems: data and parameter curves. *)
Record wants := mkWants {
  q_type : Z; q_form : Z; q_dep : Z; q_points : nat;
  q_des : list Z; q_extras : list Z; q_slots : list Z; q_items : list Z;
  q_edges : list (Z * (Z * Z) * (Z * Z)); q_loops : list (Z * list Z) }.

(* NewEntity for the type number, then readDE and readPD *)
Definition loaded (q : wants) : node :=
  let n := new_node (q_type q) true in
  mkNode (n_type n) (n_null n) (q_form q) true (q_dep q) (q_points q)
    [] (n_des n) [] (n_slots n) [] [] [] [].
Definition loaded_graph (l : list wants) : graph :=
  mkGraph (fun i => option_map loaded (nth_error l i)) (length l) (seq 0 (length l)).

(* the number shifted to the right, if it is the index of one of n entities *)
Definition index_of (n : nat) (v : Z) : option nat :=
  let i := Z.shiftr v 1 in
  if (0 <=? i) && (i <? Z.of_nat n) then Some (Z.to_nat i) else None.

(* `(v & 1) == 0 || v <= 0 || v > 9999997` refuses: 122 L82, 144 L236, 308 L97, 408 L86 *)
Definition odd_number (v : Z) : bool := Z.odd v && (0 <? v) && (v <=? 9999997).

(* ---- the base class ---- *)

(* `ok` stays, becomes false, or the method returns false *)
Inductive flow := Fine | Bad | Stop.

(* the Directory Entry numbers that are pointers: L488, L548, L620, L692, L767, L843,
   L915 *)
Definition de_names (k : nat) (v : Z) : option Z :=
  if mem k [1; 2; 6]%nat then (if v <? 0 then Some (- v) else None)
  else (if 0 <? v then Some v else None).

(* the type tests: font L592, level L664, view L736, label L887, colour L959; the
   transform is cast before and a structure is not tested *)
Definition de_target (k : nat) (m : node) : bool :=
  let t := n_type m in
  let f := n_form m in
  match k with
  | 1%nat => (t =? 304) || (t =? 0)
  | 2%nat => (t =? 0) || ((t =? 406) && (f =? 1))
  | 3%nat => (t =? 0) || (t =? 410) || ((t =? 402) && zmem f [3; 4; 19])
  | 5%nat => (t =? 0) || ((t =? 402) && (f =? 5))
  | 6%nat => (t =? 0) || (t =? 314)
  | _ => true
  end.

Definition set_de (g : graph) (e k : nat) (x : option nat) : option graph :=
  match look g e with
  | None => None
  | Some n => Some (put g e (w_des (set_nth k x (n_des n)) n))
  end.

Definition with_flow (f : flow) (g : option graph) : option (flow * graph) :=
  option_map (fun g => (f, g)) g.

(* One Directory Entry pointer, L488-986. An entity that names itself: the pointer is
   made NULL and addReference is called through it. *)
Definition link_de (n : nat) (g : graph) (e k : nat) (v : Z) : option (flow * graph) :=
  match de_names k v with
  | None => Some (Fine, g)
  | Some a =>
    match index_of n a with
    | None => Some (Bad, g)
    | Some c =>
      match look g c, set_de g e k (Some c) with
      | Some m, Some g0 =>
        if Nat.eqb k 4 && negb (is_a 124 m) then with_flow Stop (set_de g e k None)
        else if Nat.eqb c e then None
        else
          match addReference g0 c e with
          | None => None
          | Some (Refused, g1) =>
            with_flow (if n_type m =? 0 then Fine else Bad) (set_de g1 e k None)
          | Some (Already, g1) => with_flow Stop (set_de g1 e k None)
          | Some (Added, g1) =>
            if de_target k m then Some (Fine, g1) else with_flow Bad (set_de g1 e k None)
          end
      | _, _ => None
      end
    end
  end.

Definition worse (a b : flow) : flow := match a with Fine => b | _ => match b with Fine => a | _ => b end end.

(* the pointers in turn, from number k on *)
Fixpoint link_des (n : nat) (g : graph) (e k : nat) (l : list Z) (acc : flow) : option (flow * graph) :=
  match l with
  | [] => Some (acc, g)
  | v :: rest =>
    match link_de n g e k v with
    | None => None
    | Some (Stop, g1) => Some (Stop, g1)
    | Some (f, g1) => link_des n g1 e (S k) rest (worse acc f)
    end
  end.

Definition push_extra (g : graph) (e x : nat) : option (bool * graph) :=
  match look g e with
  | None => None
  | Some n => Some (true, put g e (w_extras (n_extras n ++ [x]) n))
  end.

(* the loop over iExtras, L988-1046 *)
Definition link_extra (n : nat) (g : graph) (e : nat) (v : Z) : option (bool * graph) :=
  match index_of n v with
  | None => Some (false, g)
  | Some x =>
    match look g x with
    | None => None
    | Some m =>
      if zmem (n_type m) [406; 212; 312] then
        match addReference g x e with
        | None => None
        | Some (Added, g1) => push_extra g1 e x
        | Some (_, g1) => Some (false, g1)
        end
      else if n_type m =? 402 then push_extra g e x
      else Some (false, g)
    end
  end.
Fixpoint link_extras (n : nat) (g : graph) (e : nat) (l : list Z) (ok : bool) : option (bool * graph) :=
  match l with
  | [] => Some (ok, g)
  | v :: rest =>
    match link_extra n g e v with
    | None => None
    | Some (b, g1) => link_extras n g1 e rest (ok && b)
    end
  end.

(* IGES_ENTITY::associate; `done` holds the entities whose massoc is set *)
Definition base_associate (n : nat) (q : wants) (g : graph) (done : list nat) (e : nat)
  : option (bool * graph * list nat) :=
  if mem e done then Some (true, g, done)
  else
    match link_des n g e 0 (q_des q) Fine with
    | None => None
    | Some (Stop, g1) => Some (false, g1, done)
    | Some (f, g1) =>
      match link_extras n g1 e (q_extras q) (match f with Fine => true | _ => false end) with
      | None => None
      | Some (true, g2) => Some (true, g2, e :: done)
      | Some (false, g2) => Some (false, g2, done)
      end
    end.

(* ---- the classes ---- *)

(* `if( p ) { p->delReference(this); p = NULL; }` on the Directory Entry pointers that
   the class does not use: 100 L74, 102 L86, 104 L132, 110 L59, 122 L73, 154 L73, 164
   L75, 180 L127, 408 L75; 124 L82-122; 314 L70-117; 406 L126-166 *)
Definition unused_des (t : Z) : list nat :=
  if zmem t [100; 102; 104; 110; 122; 154; 164; 180; 408] then [0]%nat
  else if t =? 124 then [0; 1; 2; 3; 5; 6]%nat
  else if t =? 314 then [0; 1; 2; 3; 4; 5; 6]%nat
  else if t =? 406 then [0; 1; 3; 4; 5; 6]%nat
  else [].
Fixpoint drop_des (g : graph) (e : nat) (ks : list nat) : option graph :=
  match ks with
  | [] => Some g
  | k :: rest => match drop_de g e k with None => None | Some g1 => drop_des g1 e rest end
  end.

Definition set_slot (g : graph) (e k : nat) (x : option nat) : option graph :=
  match look g e with
  | None => None
  | Some n => Some (put g e (w_slots (set_nth k x (n_slots n)) n))
  end.
Definition push_item (g : graph) (e x : nat) : option graph :=
  match look g e with
  | None => None
  | Some n => Some (put g e (w_items (n_items n ++ [x]) n))
  end.
Definition with_ok (b : bool) (g : option graph) : option (bool * graph) := option_map (fun g => (b, g)) g.

(* Pointer k becomes c, then c->addReference( this ). What follows a refusal, and a
   reference that exists already: *)
Inductive after_fail := Keep | KeepFail | Forget | ForgetFail.
Definition settle_slot (g : graph) (e k : nat) (a : after_fail) : option (bool * graph) :=
  match a with
  | Keep => Some (true, g)
  | KeepFail => Some (false, g)
  | Forget => with_ok true (set_slot g e k None)
  | ForgetFail => with_ok false (set_slot g e k None)
  end.
Definition link_slot (g : graph) (e k c : nat) (refused already : after_fail) : option (bool * graph) :=
  match set_slot g e k (Some c) with
  | None => None
  | Some g0 =>
    match addReference g0 c e with
    | None => None
    | Some (Added, g1) => Some (true, g1)
    | Some (Already, g1) => settle_slot g1 e k already
    | Some (Refused, g1) => settle_slot g1 e k refused
    end
  end.

Definition next_ok (r : option (bool * graph)) (k : graph -> option (bool * graph)) : option (bool * graph) :=
  match r with
  | None => None
  | Some (true, g) => k g
  | Some (false, g) => Some (false, g)
  end.

(* a cast to a class that fails makes the pointer NULL *)
Definition cast_fails (g : graph) (e k : nat) : option (bool * graph) := with_ok false (set_slot g e k None).

(* 120 L74-113 and L115-145 *)
Definition part120 (n : nat) (g : graph) (e k : nat) (v : Z) : option (bool * graph) :=
  if v =? 0 then Some (true, g)
  else
    match index_of n v with
    | None => Some (false, g)
    | Some c =>
      match look g c with
      | None => None
      | Some m =>
        if negb (is_curve m) || (Nat.eqb k 0 && negb (n_type m =? 110)) then cast_fails g e k
        else link_slot g e k c Forget ForgetFail
      end
    end.

(* 122 L80-112: an existing reference is not noticed *)
Definition part122 (n : nat) (g : graph) (e : nat) (v : Z) : option (bool * graph) :=
  if v =? 0 then Some (true, g)
  else if negb (odd_number v) then Some (false, g)
  else
    match index_of n v with
    | None => Some (false, g)
    | Some c =>
      match look g c with
      | None => None
      | Some m =>
        if is_curve m then link_slot g e 0 c ForgetFail Keep else cast_fails g e 0
      end
    end.

(* 142 L82-113, L115-145, L147-177 *)
Definition part142 (n : nat) (g : graph) (e k : nat) (v : Z) : option (bool * graph) :=
  if v =? 0 then Some (negb (Nat.eqb k 0), g)
  else
    match index_of n v with
    | None => Some (false, g)
    | Some c => link_slot g e k c ForgetFail ForgetFail
    end.

(* 144 L139-181, L183-225 *)
Definition part144 (n : nat) (g : graph) (e k : nat) (v : Z) : option (bool * graph) :=
  if v =? 0 then Some (false, g)
  else
    match index_of n v with
    | None => Some (false, g)
    | Some c =>
      match look g c with
      | None => None
      | Some m =>
        if (if Nat.eqb k 0 then zmem (n_type m) inclusion144 else is_a 142 m)
        then link_slot g e k c ForgetFail ForgetFail
        else cast_fails g e k
      end
    end.

(* addReference, then push_back. `again` says what an existing reference leads to *)
Inductive again := Refuses | Skips | Pushes.
Definition link_item (g : graph) (e c : nat) (a : again) : option (bool * graph) :=
  match addReference g c e with
  | None => None
  | Some (Refused, g1) => Some (false, g1)
  | Some (Added, g1) => with_ok true (push_item g1 e c)
  | Some (Already, g1) =>
    match a with
    | Refuses => Some (false, g1)
    | Skips => Some (true, g1)
    | Pushes => with_ok true (push_item g1 e c)
    end
  end.

(* 144 L232-278: a boundary that is referenced already takes the surface away *)
Definition item144 (n : nat) (g : graph) (e : nat) (v : Z) : option (bool * graph) :=
  if negb (odd_number v) then Some (false, g)
  else
    match index_of n v with
    | None => Some (false, g)
    | Some c =>
      match look g c with
      | None => None
      | Some m =>
        if is_a 142 m then
          match addReference g c e with
          | None => None
          | Some (Refused, g1) => Some (false, g1)
          | Some (Added, g1) => with_ok true (push_item g1 e c)
          | Some (Already, g1) => cast_fails g1 e 0
          end
        else Some (false, g)
      end
    end.

(* 164 L82-129 *)
Definition part164 (closed : graph -> nat -> bool) (n : nat) (g : graph) (e : nat) (v : Z) : option (bool * graph) :=
  if v <? 1 then Some (false, g)
  else
    match index_of n v with
    | None => Some (false, g)
    | Some c =>
      match addReference g c e with
      | None => None
      | Some (Added, g1) =>
        match look g1 c with
        | None => None
        | Some m =>
          if is_curve m then
            match set_slot g1 e 0 (Some c) with
            | None => None
            | Some g2 => Some (closed g2 c, g2)
            end
          else cast_fails g1 e 0
        end
      | Some (_, g1) => Some (false, g1)
      end
    end.

(* 180 L141-182: pEnt is set before the reference is made and stays if it is not *)
Definition item180 (n : nat) (g : graph) (e : nat) (v : Z) : option (bool * graph) :=
  match index_of n v with
  | None => Some (false, g)
  | Some c =>
    match look g c with
    | None => None
    | Some m =>
      if zmem (n_type m) operand_types then
        match push_item g e c with
        | None => None
        | Some g0 =>
          match addReference g0 c e with
          | None => None
          | Some (Added, g1) => Some (true, g1)
          | Some (_, g1) => Some (false, g1)
          end
        end
      else Some (false, g)
    end
  end.

Definition is_shell (m : node) : bool := (n_type m =? 514) && (n_form m =? 1).

(* 186 L85-127 *)
Definition part186 (n : nat) (g : graph) (e : nat) (v : Z) : option (bool * graph) :=
  if v <=? 0 then Some (false, g)
  else
    match index_of n v with
    | None => Some (false, g)
    | Some c =>
      match look g c with
      | None => None
      | Some m =>
        if is_shell m then link_slot g e 0 c ForgetFail Keep else Some (false, g)
      end
    end.

(* 186 L133-172, 510 L122-150, 514 L88-120: the index is not tested from below *)
Definition item_of (ok : node -> bool) (n : nat) (g : graph) (e : nat) (v : Z) : option (bool * graph) :=
  if v <? 0 then None
  else
    match index_of n v with
    | None => Some (false, g)
    | Some c =>
      match look g c with
      | None => None
      | Some m => if ok m then link_item g e c Pushes else Some (false, g)
      end
    end.

(* 308 L93-131 *)
Definition item308 (n : nat) (g : graph) (e : nat) (v : Z) : option (bool * graph) :=
  if negb (odd_number v) then Some (false, g)
  else
    match index_of n v with
    | None => Some (false, g)
    | Some c => link_item g e c Refuses
    end.

(* 408 L84-121 *)
Definition part408 (n : nat) (g : graph) (e : nat) (v : Z) : option (bool * graph) :=
  if v =? 0 then Some (true, g)
  else if negb (odd_number v) then Some (false, g)
  else
    match index_of n v with
    | None => Some (false, g)
    | Some c =>
      match look g c with
      | None => None
      | Some m => if is_a 308 m then link_slot g e 0 c ForgetFail KeepFail else cast_fails g e 0
      end
    end.

(* 504 L116-162; the vertex lists are cast unseen *)
Definition item504 (n : nat) (g : graph) (e : nat) (d : Z * (Z * Z) * (Z * Z)) : option (bool * graph) :=
  let '(c, (sv, s), (tv, t)) := d in
  match index_of n c, index_of n sv, index_of n tv with
  | Some ci, Some si, Some ti =>
    match look g si, look g ti with
    | Some ms, Some mt =>
      if is_a 502 ms && is_a 502 mt then AddEdge g e ci si s ti t else None
    | _, _ => None
    end
  | _, _, _ => Some (false, g)
  end.

(* 508 L148-201 *)
Fixpoint indices (n : nat) (l : list Z) : option (list nat) :=
  match l with
  | [] => Some []
  | v :: rest =>
    match index_of n v, indices n rest with
    | Some i, Some r => Some (i :: r)
    | _, _ => None
    end
  end.
Definition item508 (n : nat) (g : graph) (e : nat) (d : Z * list Z) : option (bool * graph) :=
  match index_of n (fst d), indices n (snd d) with
  | Some i, Some l => AddLoopEdge g e i l
  | _, _ => Some (false, g)
  end.

(* checkSurfType, entity510.cpp L595-647 *)
Definition surface_ok (m : node) : bool :=
  zmem (n_type m) [114; 120; 122; 128; 140; 190; 192; 194; 196; 198]
  || ((n_type m =? 118) && (n_form m =? 1)).
(* 510 L84-117 *)
Definition part510 (n : nat) (g : graph) (e : nat) (v : Z) : option (bool * graph) :=
  if v <=? 0 then Some (false, g)
  else
    match index_of n v with
    | None => Some (false, g)
    | Some c =>
      match look g c with
      | None => None
      | Some m => if surface_ok m then link_slot g e 0 c ForgetFail Keep else Some (false, g)
      end
    end.

(* a loop which returns at the first failure *)
Fixpoint all_ok {A} (f : graph -> A -> option (bool * graph)) (g : graph) (l : list A) : option (bool * graph) :=
  match l with
  | [] => Some (true, g)
  | v :: rest => next_ok (f g v) (fun g1 => all_ok f g1 rest)
  end.
(* the parts of a class, the first with number k *)
Fixpoint parts_ok (f : graph -> nat -> Z -> option (bool * graph)) (g : graph) (k : nat) (l : list Z)
  : option (bool * graph) :=
  match l with
  | [] => Some (true, g)
  | v :: rest => next_ok (f g k v) (fun g1 => parts_ok f g1 (S k) rest)
  end.

(* associate of the classes IGES_CURVE other than 102, called by 102 L159 (100 L66, 104
   L124, 110 L51, 126) *)
Definition curve_associate (n : nat) (qs : list wants) (g : graph) (done : list nat) (c : nat)
  : option (bool * graph * list nat) :=
  match nth_error qs c, look g c with
  | Some q, Some m =>
    match base_associate n q g done c with
    | None => None
    | Some (false, g1, d1) => Some (false, g1, d1)
    | Some (true, g1, d1) => option_map (fun g2 => (true, g2, d1)) (drop_des g1 c (unused_des (n_type m)))
    end
  | _, _ => None
  end.

(* 102 L103-167: failures are collected, and the answer of the segment's own associate
   is not looked at *)
Fixpoint segments (n : nat) (qs : list wants) (g : graph) (done : list nat) (e : nat) (l : list Z) (ok : bool)
  : option (bool * graph * list nat) :=
  match l with
  | [] => Some (ok, g, done)
  | v :: rest =>
    match index_of n v with
    | None => segments n qs g done e rest false
    | Some c =>
      match look g c with
      | None => None
      | Some m =>
        if negb (is_curve m) || (n_type m =? 102) then segments n qs g done e rest false
        else
          match addReference g c e with
          | None => None
          | Some (Refused, g1) => segments n qs g1 done e rest false
          | Some (Already, g1) => segments n qs g1 done e rest ok
          | Some (Added, g1) =>
            match push_item g1 e c with
            | None => None
            | Some g2 =>
              match curve_associate n qs g2 done c with
              | None => None
              | Some (_, g3, d3) => segments n qs g3 d3 e rest ok
              end
            end
          end
      end
    end
  end.

(* 102 L207-292: each segment but the first is asked for its start point and the one
   before it for its end point *)
Fixpoint joined_up (joins : graph -> nat -> nat -> bool) (g : graph) (l : list nat) : bool :=
  match l with
  | a :: ((b :: _) as rest) => joins g a b && joined_up joins g rest
  | _ => true
  end.

Definition associate (closed : graph -> nat -> bool) (joins : graph -> nat -> nat -> bool)
  (n : nat) (qs : list wants) (g : graph) (done : list nat) (e : nat) : option (bool * graph * list nat) :=
  match nth_error qs e with
  | None => None
  | Some q =>
    match base_associate n q g done e with
    | None => None
    | Some (false, g1, d1) => Some (false, g1, d1)
    | Some (true, g1, d1) =>
      match look g1 e with
      | None => None
      | Some m =>
        if n_null m then Some (true, g1, d1)
        else
          match drop_des g1 e (unused_des (n_type m)) with
          | None => None
          | Some g2 =>
            let t := n_type m in
            if t =? 102 then
              match segments n qs g2 d1 e (q_items q) true with
              | None => None
              | Some (ok, g3, d3) =>
                match look g3 e with
                | None => None
                | Some m3 => Some (ok && joined_up joins g3 (n_items m3), g3, d3)
                end
              end
            else
              option_map (fun p => (fst p, snd p, d1))
                (if t =? 120 then parts_ok (fun g k v => part120 n g e k v) g2 0 (q_slots q)
                 else if t =? 122 then all_ok (fun g v => part122 n g e v) g2 (q_slots q)
                 else if t =? 142 then parts_ok (fun g k v => part142 n g e k v) g2 0 (q_slots q)
                 else if t =? 144 then
                   next_ok (parts_ok (fun g k v => part144 n g e k v) g2 0 (q_slots q))
                     (fun g3 => all_ok (fun g v => item144 n g e v) g3 (q_items q))
                 else if t =? 164 then all_ok (fun g v => part164 closed n g e v) g2 (q_slots q)
                 else if t =? 180 then all_ok (fun g v => item180 n g e v) g2 (q_items q)
                 else if t =? 186 then
                   next_ok (all_ok (fun g v => part186 n g e v) g2 (q_slots q))
                     (fun g3 => all_ok (fun g v => item_of is_shell n g e v) g3 (q_items q))
                 else if t =? 308 then all_ok (fun g v => item308 n g e v) g2 (q_items q)
                 else if t =? 408 then all_ok (fun g v => part408 n g e v) g2 (q_slots q)
                 else if t =? 504 then all_ok (fun g d => item504 n g e d) g2 (q_edges q)
                 else if t =? 508 then all_ok (fun g d => item508 n g e d) g2 (q_loops q)
                 else if t =? 510 then
                   next_ok (all_ok (fun g v => part510 n g e v) g2 (q_slots q))
                     (fun g3 => all_ok (fun g v => item_of (fun m => n_type m =? 508) n g e v) g3 (q_items q))
                 else if t =? 514 then
                   (if nil (q_items q) then Some (false, g2)
                    else all_ok (fun g v => item_of (fun m => n_type m =? 510) n g e v) g2 (q_items q))
                 else Some (true, g2))
          end
      end
    end
  end.

(* iges.cpp L602-611: every entity in turn, up to the first failure *)
Fixpoint associate_all (closed : graph -> nat -> bool) (joins : graph -> nat -> nat -> bool)
  (n : nat) (qs : list wants) (g : graph) (done : list nat) (l : list nat) : option (bool * graph) :=
  match l with
  | [] => Some (true, g)
  | e :: rest =>
    match associate closed joins n qs g done e with
    | None => None
    | Some (false, g1, _) => Some (false, g1)
    | Some (true, g1, d1) => associate_all closed joins n qs g1 d1 rest
    end
  end.

(* iges.cpp L602-624 on the entities read; a failure leaves them in the model. The
   rescaling at L613-618 touches no pointer. *)
Definition connect (closed : graph -> nat -> bool) (joins : graph -> nat -> nat -> bool) (qs : list wants)
  : option (bool * graph) :=
  let g := loaded_graph qs in
  match associate_all closed joins (length qs) qs g [] (g_ents g) with
  | None => None
  | Some (false, g1) => Some (false, g1)
  | Some (true, g1) => option_map (fun g => (true, g)) (Cull g1 false)
  end.
