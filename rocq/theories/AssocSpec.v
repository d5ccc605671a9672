(* A file that says what a plan says (see PlanSpec.v): the entities in the same order. *)
From Coq Require Import List Bool ZArith Lia.
From Verif Require Import GraphModel GraphSpec AssocModel.
Import ListNotations.
Open Scope Z_scope.

(* the Directory Entry number of the entity at place i *)
Definition number (i : nat) : Z := 2 * Z.of_nat i + 1.

(* font, level and colour are pointers when negative *)
Definition signed (k : nat) : bool := match k with 1%nat | 2%nat | 6%nat => true | _ => false end.

(* The file says of one entity what the plan says. The index of a vertex is within its
   list. *)
Record says (l : list node) (n : node) (q : wants) : Prop := {
  s_class : if zmem (q_type q) known then n_null n = false /\ n_type n = q_type q
            else n_null n = true /\ n_type n = 0;
  s_rest : n_form n = q_form q /\ n_dep n = q_dep q /\ n_points n = q_points q;
  s_des : length (q_des q) = 7%nat /\ length (n_des n) = 7%nat /\
          forall k v, nth_error (q_des q) k = Some v ->
            match nth k (n_des n) None with
            | Some x => v = if signed k then - number x else number x
            | None => if signed k then 0 <= v else v <= 0
            end;
  s_extras : q_extras q = map number (n_extras n);
  s_slots : q_slots q = map (fun o => match o with Some x => number x | None => 0 end) (n_slots n);
  s_items : q_items q = map number (n_items n);
  s_edges : Forall2 (fun d p => exists s t, p = (number (ed_curve d), (number (ed_start d), s), (number (ed_stop d), t)) /\
              (forall m, nth_error l (ed_start d) = Some m -> 1 <= s <= Z.of_nat (n_points m)) /\
              (forall m, nth_error l (ed_stop d) = Some m -> 1 <= t <= Z.of_nat (n_points m)))
            (n_edges n) (q_edges q);
  s_loops : q_loops q = map (fun p => (number (fst p), map number (snd p))) (n_loops n) }.

(* entity x has all its pointers in g *)
Definition settled (l : list node) (g : graph) (x : nat) : Prop :=
  exists n m, nth_error l x = Some n /\ look g x = Some m /\ alike n m.

(* The geometry agrees: successive segments have end points, and the curve of an
   extrusion is closed - once it and its segments have their pointers, in which case it
   must come before the extrusion, or in any state. *)
Record drawn (closed : graph -> nat -> bool) (joins : graph -> nat -> nat -> bool) (l : list node) : Prop := {
  d_joins : forall i n l1 a b l2, nth_error l i = Some n -> n_type n = 102 -> n_items n = l1 ++ a :: b :: l2 ->
            forall g, settled l g a -> settled l g b -> joins g a b = true;
  d_closed : forall i n c m, nth_error l i = Some n -> n_type n = 164 -> nth 0 (n_slots n) None = Some c ->
             nth_error l c = Some m ->
             (forall g, closed g c = true) \/
             ((c < i)%nat /\ forall g, settled l g c -> Forall (settled l g) (n_items m) -> closed g c = true) }.

(* no boolean tree has two operands *)
Definition few_trees (l : list node) : Prop :=
  forall i n, nth_error l i = Some n -> n_type n = 180 -> (length (n_items n) <= 1)%nat.

(* somebody refers to entity i *)
Definition named (l : list node) (i : nat) : Prop := exists r k, nth_error l r = Some k /\ In i (parts k).

(* what a class is made of is there, and so is somebody who refers to an entity whose
   kind or dependency status asks for that *)
Definition whole_at (l : list node) (i : nat) (n : node) : Prop :=
  ~ lacks n /\
  (In (n_type n) [124; 314; 502; 504; 508; 510] \/ (n_dep n <> 0 /\ n_type n <> 186) -> named l i).
Definition whole (l : list node) : Prop := forall i n, nth_error l i = Some n -> whole_at l i n.

(* connected through references, in whatever direction *)
Inductive linked (l : list node) (a : nat) : nat -> Prop :=
| linked_here : linked l a a
| linked_to b n c : linked l a b -> nth_error l b = Some n -> In c (parts n) -> linked l a c
| linked_by b n c : linked l a b -> nth_error l c = Some n -> In b (parts n) -> linked l a c.
