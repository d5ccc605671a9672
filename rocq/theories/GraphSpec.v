(* What a user expects of the object graph, said on its own terms: who points to
   whom, who is listed as a referrer by whom, and what stays true. *)
From Coq Require Import List Bool ZArith Lia.
From Verif Require Import GraphModel.
From Verif Require Export PlanSpec.
Import ListNotations.
Open Scope Z_scope.

Definition live (g : graph) (e : nat) : Prop := exists n, look g e = Some n.

(* entity e holds a pointer to t, in whatever role *)
Definition holds (n : node) (t : nat) : Prop :=
  In (Some t) (n_des n) \/ In t (n_extras n) \/ In (Some t) (n_slots n) \/ In t (n_items n)
  \/ (exists d, In d (n_edges n) /\ (t = ed_curve d \/ t = ed_start d \/ t = ed_stop d))
  \/ (exists p, In p (n_loops n) /\ (t = fst p \/ In t (snd p))).
Definition points (g : graph) (e t : nat) : Prop := exists n, look g e = Some n /\ holds n t.

(* entity e has r in its list of referrers *)
Definition lists (g : graph) (e r : nat) : Prop := exists n, look g e = Some n /\ In r (n_refs n).

(* a live entity of class t *)
Definition kind (g : graph) (e : nat) (t : Z) : Prop :=
  exists n, look g e = Some n /\ n_null n = false /\ n_type n = t.

(* Every pointer is answered by a referrer entry and the other way round, so that
   neither ever names a deleted entity; the model stores live entities, once each. *)
Definition consistent (g : graph) : Prop :=
  (forall e t, points g e t -> live g t /\ lists g t e) /\
  (forall e r, lists g e r -> live g r /\ points g r e) /\
  NoDup (g_ents g) /\ (forall e, In e (g_ents g) -> live g e).

(* Entity e may be deleted: no boolean tree holds it together with other operands
   and it is not a vertex list some edge list uses. *)
Definition may_die (g : graph) (e : nat) : Prop :=
  (forall r m, r <> e -> look g r = Some m -> n_type m = 180 -> In e (n_items m) -> n_items m = [e]) /\
  (forall r m d, look g r = Some m -> In d (n_edges m) -> e <> ed_start d /\ e <> ed_stop d).

(* No boolean tree has two operands. *)
Definition few (g : graph) : Prop :=
  forall r m, look g r = Some m -> n_type m = 180 -> (length (n_items m) <= 1)%nat.

(* d is an edge of the edge list r and v one of its vertex lists *)
Definition edge_uses (g : graph) (r v : nat) : Prop :=
  exists m d, look g r = Some m /\ In d (n_edges m) /\ (v = ed_start d \/ v = ed_stop d).

(* Vertex lists used by edges have a vertex. *)
Definition pinned (g : graph) : Prop :=
  forall r v k, edge_uses g r v -> look g v = Some k -> n_points k <> 0%nat.

(* The model stores every edge list before the vertex lists its edges use. *)
Definition edges_first (g : graph) : Prop :=
  forall r v, edge_uses g r v -> In v (g_ents g) ->
    exists l1 l2, g_ents g = l1 ++ v :: l2 /\ In r l1.

(* The operations, and the states in which they are used, for which the library
   keeps its books. Left out: optional entities of a transform, of an unsupported
   entity, of itself, or of type 402; DelOptionalEntity of types 402, 212, 312;
   308 DelDE and 144 DelPTI; the setters of faces (510) and loops (508); 122 SetDE
   of NULL; deleting one of several operands of a tree or a vertex list in use,
   which Cull and Clear may do by themselves.
   Arguments are live entities, and what the model stores is deleted through it. *)
Definition tidy (g : graph) (o : op) : Prop :=
  match o with
  | ONew _ | OMake _ | OUnlink _ => True
  | OAdd e => live g e
  | ODel e => may_die g e
  | OFree e => live g e /\ ~ In e (g_ents g) /\ may_die g e
  | OCull _ => few g /\ pinned g
  | OClear => few g /\ edges_first g
  | OSetDe e _ x => live g e /\ (forall c, x = Some c -> live g c)
  | OSetDeNum e _ _ | ODepend e _ | OAddVertex e => live g e
  | OAddOptional e x =>
      (exists n, look g e = Some n /\ n_null n = false /\ n_type n <> 124) /\ e <> x /\
      (exists m, look g x = Some m /\ n_type m <> 402)
  | ODelOptional e x =>
      live g e /\ (exists m, look g x = Some m /\ ~ In (n_type m) [402; 212; 312])
  | OSetSlot e _ x _ =>
      live g e /\ (forall c, x = Some c -> live g c) /\ (x = None -> ~ kind g e 122)
  | OAddSegment e x _ | OAddItem e x => live g e /\ live g x
  | OAddEdge e x sv _ tv _ => live g e /\ live g x /\ live g sv /\ live g tv
  | ODelItem _ _ | OSetSurface _ _ | OAddBound _ _ | OAddLoopEdge _ _ _ => False
  end.

(* every operation of the history is tidy in the state it is applied to *)
Fixpoint tidy_run (l : list op) (g : graph) : Prop :=
  match l with
  | [] => True
  | o :: rest => tidy g o /\ (forall b g1, run o g = Some (b, g1) -> tidy_run rest g1)
  end.

(* connected through pointers, in whatever direction *)
Inductive joined (g : graph) (a : nat) : nat -> Prop :=
| joined_here : joined g a a
| joined_step b c : joined g a b -> points g b c \/ points g c b -> joined g a c.

(* What an orphan is. A class lacks something when the parts its kind is made of are
   missing: *)
Definition lacks (n : node) : Prop :=
  let part k := nth k (n_slots n) None in
  n_null n = true \/
  (In (n_type n) [102; 308; 510; 514] /\ n_items n = []) \/          (* curve, subfigure, face, shell *)
  (In (n_type n) [120; 122; 144; 164; 186; 408; 510] /\ part 0%nat = None) \/
  (n_type n = 120 /\ part 1%nat = None) \/
  (n_type n = 142 /\ (part 0%nat = None \/ (part 1%nat = None /\ part 2%nat = None))) \/
  (n_type n = 406 /\ n_form n = 0) \/
  (n_type n = 502 /\ n_points n = 0%nat) \/ (n_type n = 504 /\ n_edges n = []) \/ (n_type n = 508 /\ n_loops n = []).
(* nobody refers to it though its kind, or its dependency status, asks for it; only
   solids (186) are never unwanted *)
Definition unwanted (n : node) : Prop :=
  n_refs n = [] /\
  (In (n_type n) [124; 314; 502; 504; 508; 510] \/ (n_dep n <> 0 /\ n_type n <> 186)).
Definition orphaned (vicious : bool) (n : node) : Prop :=
  lacks n \/ unwanted n \/ (vicious = true /\ n_refs n = [] /\ n_type n <> 408).
Definition orphan (g : graph) (vicious : bool) (e : nat) : Prop :=
  exists n, look g e = Some n /\ orphaned vicious n.

(* m is n with referrers and pointers lost *)
Definition fewer (n m : node) : Prop :=
  n_type m = n_type n /\ n_null m = n_null n /\ n_form m = n_form n /\ n_dep m = n_dep n /\ n_points m = n_points n /\
  incl (n_refs m) (n_refs n) /\ (forall t, holds m t -> holds n t).

Definition alive (g : graph) (e : nat) : bool := match look g e with Some _ => true | None => false end.

(* Cull, n times *)
Fixpoint culls (n : nat) (v : bool) (g : graph) : option graph :=
  match n with
  | O => Some g
  | S k => match Cull g v with None => None | Some g1 => culls k v g1 end
  end.

Definition unchanged (g h : graph) (i : nat) : Prop :=
  match look g i, look h i with
  | None, None => True
  | Some n, Some m => alike n m
  | _, _ => False
  end.

(* from g to h the pointers of e change by f, and nobody else's *)
Definition only (e : nat) (f : node -> node) (g h : graph) : Prop :=
  (forall i, i <> e -> unchanged g h i) /\
  exists n m, look g e = Some n /\ look h e = Some m /\ alike (f n) m.

(* nobody's pointers change *)
Definition keep (g h : graph) : Prop := forall i, unchanged g h i.

(* DE pointer k, and the class's own pointer k, set to x *)
Definition des_to (k : nat) (x : option nat) (n : node) : node := w_des (set_nth k x (n_des n)) n.
Definition slot_to (k : nat) (x : option nat) (n : node) : node := w_slots (set_nth k x (n_slots n)) n.

(* n uses e in a way whose loss costs it other pointers too *)
Definition costly (n : node) (e : nat) : Prop :=
  (n_type n = 102 /\ In e (n_items n)) \/ (exists d, In d (n_edges n) /\ e = ed_curve d).

(* the states such histories lead to from an empty model or one just read *)
Definition reached (g : graph) : Prop :=
  exists g0 l, (g0 = empty_graph \/ read_in g0) /\ tidy_run l g0 /\ runs l g0 = Some g.

(* Class n keeps DE pointer k (1 font, 2 level, 3 view, 4 transform, 5 label, 6 colour).
   A transform keeps only its own transform, a colour nothing, a property only its
   level; the solids' parts neither font, view, transform nor colour. *)
Definition takes (n : node) (k : nat) : Prop :=
  n_null n = false /\ (0 < k)%nat /\ n_type n <> 314 /\
  (n_type n = 124 -> k = 4%nat) /\ (n_type n = 406 -> k = 2%nat) /\
  (In (n_type n) [502; 504; 510; 514] -> ~ In k [1; 3; 4; 6]%nat) /\
  (n_type n = 508 -> ~ In k [3; 4]%nat).
