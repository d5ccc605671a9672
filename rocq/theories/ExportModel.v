(** Model of [IGES::Export], /repo/src/iges/iges.cpp L2381-2620: all entities of one
    model are handed over to another one, packaged in a Subfigure Definition; and of
    [getDepthLevel], entity308.cpp L613-655, entity408.cpp L463-476. *)

From Coq Require Import QArith.
From Verif Require Import Base Num IoModel GeomModel PayloadModel UnitModel.
From Verif Require Import GraphModel.
Import ListNotations.
Open Scope Z_scope.

(** The model which is exported ([this]): the addresses of its entities, their data
    with unit, resolution and scale, their line weights, [maxLinewidthGrad] and
    [fileName]. *)
Record source (D : Type) := mkSource {
  so_ids : list nat; so_mdl : mdl D; so_weights : list Z; so_grad : Z; so_file : str }.
Arguments mkSource {D}. Arguments so_ids {D}. Arguments so_mdl {D}. Arguments so_weights {D}.
Arguments so_grad {D}. Arguments so_file {D}.

(** The model which receives ([newParent]).  The heap of [ta_graph] holds the entities
    of both models; [g_ents] and [n_own] are those of the receiver: the entities of
    the other model do not have it as parent. *)
Record target := mkTarget { ta_graph : graph; ta_unit : Z; ta_scale : Q; ta_grad : Z }.

(** L2407-2411: the answers of the conversions are not looked at. *)
Definition convert {D} (m : mdl D) (t : target) : option (mdl D) :=
  match (if Qeq_bool (m_scale m) (ta_scale t) then POk (true, m) else ChangeModelScale m (ta_scale t)) with
  | POk (_, m1) =>
    match (if m_unit m1 =? ta_unit t then POk (true, m1) else ConvertUnits m1 (ta_unit t)) with
    | POk (_, m2) => Some m2
    | _ => None
    end
  | _ => None
  end.

(** L2424-2434 with [lws] = [q]; a result which is no [int] is undefined. *)
Definition weight (q w : Z) : option Z :=
  if w >? 0 then
    let v := w * q in
    if (v <? -2147483648) || (v >? 2147483647) then None
    else Some (if v =? 0 then 1 else v)
  else Some w.
Fixpoint weights (q : Z) (l : list Z) : option (list Z) :=
  match l with
  | [] => Some []
  | w :: r =>
    match weight q w, weights q r with
    | Some v, Some r' => Some (v :: r')
    | _, _ => None
    end
  end.
(** L2419: the division is one of [int]s. *)
Definition rate (mine theirs : Z) : option Z := if mine =? 0 then None else Some (Z.quot theirs mine).

(** One turn of the loop L2458-2484. *)
Inductive sort := Surface | Instance | Solid | Other.
Definition sort_of (g : graph) (x : nat) : option sort :=
  match look g x with
  | None => None
  | Some n =>
    if (n_type n =? 144) && nil (n_refs n) then Some Surface
    else if (n_type n =? 408) && (Nat.leb (length (n_refs n)) 1) then
      match n_refs n with
      | r :: _ =>
        match look g r with
        | None => None
        | Some m => Some (if negb (nil (n_refs m)) || negb (n_type m =? 308) then Other else Instance)
        end
      | [] => Some Instance
      end
    else if n_type n =? 186 then Some Solid
    else Some Other
  end.

(** The lists [tplist], [sslist], [brlist]. *)
Record lists3 := mkLists { tp : list nat; ss : list nat; br : list nat }.
Fixpoint sort_all (g : graph) (l : list nat) : option lists3 :=
  match l with
  | [] => Some (mkLists [] [] [])
  | x :: r =>
    match sort_of g x, sort_all g r with
    | Some k, Some a =>
      Some match k with
           | Surface => mkLists (x :: tp a) (ss a) (br a)
           | Instance => mkLists (tp a) (x :: ss a) (br a)
           | Solid => mkLists (tp a) (ss a) (x :: br a)
           | Other => a
           end
    | _, _ => None
    end
  end.

(** [while( p308->DelDE( *sEnt ) && sEnt != eEnt );], L2521: the iterator does not
    move. *)
Fixpoint del_while (fuel : nat) (g : graph) (p x : nat) : option graph :=
  match fuel with
  | O => None
  | S f =>
    match DelItem g p x with
    | Some (true, g1) => del_while f g1 p x
    | Some (false, g1) => Some g1
    | None => None
    end
  end.

(** The loops over [AddDE], L2513-2531, L2539-2554, L2562-2577; [first] is the first
    of the list. *)
Fixpoint add_each (g : graph) (p first : nat) (l : list nat) : option (bool * graph) :=
  match l with
  | [] => Some (true, g)
  | x :: r =>
    match AddItem g p x with
    | None => None
    | Some (true, g1) => add_each g1 p first r
    | Some (false, g1) =>
      match look g1 p with
      | None => None
      | Some n =>
        match del_while (S (length (n_items n))) g1 p first with
        | None => None
        | Some g2 => option_map (fun g3 => (false, snd g3)) (DelEntity g2 p)
        end
      end
    end
  end.

(** L2580-2599.  [AddEntity] refuses only NULL, of which there are none: what would
    be done then is left out. *)
Fixpoint move_each (g : graph) (l : list nat) : option graph :=
  match l with
  | [] => Some g
  | x :: r =>
    match AddEntity g x with
    | None => None
    | Some (_, g1) => move_each g1 r
    end
  end.

(** [find_last_of( '.' )]. *)
Fixpoint last_dot (s : str) : option nat :=
  match s with
  | [] => None
  | c :: r =>
    match last_dot r with
    | Some k => Some (S k)
    | None => if Ascii.eqb c "."%char then Some O else None
    end
  end.
(** L2603-2618. *)
Definition package_name (now : tm) (assembly : bool) (file : str) : str :=
  match file with
  | [] => if assembly then GetNewAssemblyName now else GetNewPartName now
  | _ => match last_dot file with
         | Some (S k) => firstn (S k) file
         | _ => file
         end
  end.

(** How it ends: false was returned; true and the handle is NULL; true and the handle
    is the entity [p] of the receiver, with this name; the data and line weights of
    the entities handed over, in the order of the exported model. *)
Inductive ended (D : Type) :=
| Broke (g : graph)
| Left (s : source D)
| Packed (g : graph) (p : nat) (name : str) (s : source D) (items : list (item D)) (ws : list Z).
Arguments Broke {D}. Arguments Left {D}. Arguments Packed {D}.

(** [s.Export( &t, &handle )] at the time [now]; [self]: [newParent == this].
    [None] is undefined behaviour: a division by zero, numbers without [int], entities
    which are gone (or a conversion without end, C39). *)
Definition Export {D} (now : tm) (self : bool) (s : source D) (t : target) : option (ended D) :=
  match so_ids s with
  | [] => Some (Left s)
  | _ =>
    match convert (so_mdl s) t, rate (so_grad s) (ta_grad t) with
    | Some m, Some q =>
      match weights q (so_weights s) with
      | None => None
      | Some ws =>
        let g := ta_graph t in
        let s1 := mkSource (so_ids s) m ws (so_grad s) (so_file s) in
        match sort_all g (so_ids s) with
        | None => None
        | Some a =>
          let members := match ss a, tp a with [], [] => br a | [], l => l | l, _ => l end in
          match members with
          | [] => Some (Left s1)
          | first :: _ =>
            let p := g_next g in
            match add_each (NewEntity g 308 true) p first members with
            | None => None
            | Some (false, g1) => Some (Broke g1)
            | Some (true, g1) =>
              match move_each g1 (so_ids s) with
              | None => None
              | Some g2 =>
                Some (Packed (if self then with_ents g2 [] else g2) p
                        (package_name now (Nat.ltb 1 (length (ss a))) (so_file s))
                        (mkSource [] (mkMdl (m_unit m) (m_res m) (m_scale m) []) [] (so_grad s) (so_file s))
                        (m_ents m) ws)
              end
            end
          end
        end
      end
    | _, _ => None
    end
  end.

(** With the handle's address NULL (L2383 writes through it before it is tested) and
    with the receiver NULL. *)
Definition ExportTo {D} (now : tm) (handle : bool) (to : option (bool * target)) (s : source D) : option (ended D + unit) :=
  if handle then
    match to with
    | None => Some (inr tt)
    | Some (self, t) => option_map inl (Export now self s t)
    end
  else None.

(** [getDepthLevel] of a Subfigure Definition, entity308.cpp L613-655, and of an
    instance, entity408.cpp L463-476.  [None]: no end of the recursion (missing fuel)
    or an entity which is gone. *)
Fixpoint depth_level (fuel : nat) (g : graph) (p : nat) : option Z :=
  match fuel with
  | O => None
  | S f =>
    match look g p with
    | None => None
    | Some n =>
      (fix go (nd : Z) (l : list nat) : option Z :=
         match l with
         | [] => Some nd
         | x :: r =>
           match look g x with
           | None => None
           | Some m =>
             if n_type m =? 308 then
               match depth_level f g x with
               | None => None
               | Some tm => go (if tm >=? nd then tm + 1 else nd) r
               end
             else if n_type m =? 408 then
               match (match nth 0 (n_slots m) None with None => Some 0 | Some d => depth_level f g d end) with
               | None => None
               | Some tm => go (if tm >=? nd then tm + 1 else nd) r
               end
             else if n_type m =? 320 then Some (-100)
             else go nd r
           end
         end) 0 (n_items n)
    end
  end.
