(** What a user expects of handing a model over to another one: who belongs into the
    package, what stays as it is, and how deep subfigures are nested. *)

From Coq Require Import QArith.
From Verif Require Import Base IoModel PayloadModel UnitModel UnitSpec.
From Verif Require Import GraphModel GraphSpec ExportModel.
Import ListNotations.
Open Scope Z_scope.

(** Two models side by side: [src] are the entities of the other model, which exist,
    once each, and do not belong to the receiver; all books are in order; addresses
    from [g_next] on are free; entities of unsupported types have no type. *)
Record side_by_side (g : graph) (src : list nat) : Prop := {
  sb_books : consistent g;
  sb_free : forall i, (g_next g <= i)%nat -> look g i = None;
  sb_null : forall i n, look g i = Some n -> n_null n = true -> n_type n = 0;
  sb_once : NoDup src;
  sb_theirs : forall i, In i src -> exists n, look g i = Some n /\ n_own n = false /\ ~ In i (g_ents g) }.

(** The kinds of entities which a package is made of.  A subfigure instance is on top
    if nobody refers to it but a definition to which nobody refers. *)
Definition on_top (g : graph) (x : nat) : Prop :=
  kind g x 408 /\ exists n, look g x = Some n /\
    (n_refs n = [] \/ exists r m, n_refs n = [r] /\ look g r = Some m /\ n_type m = 308 /\ n_refs m = []).
Definition loose_surface (g : graph) (x : nat) : Prop :=
  kind g x 144 /\ exists n, look g x = Some n /\ n_refs n = [].
Definition solid (g : graph) (x : nat) : Prop := kind g x 186.

(** [l] are the elements of [src] with property [P], in order. *)
Inductive picked (P : nat -> Prop) : list nat -> list nat -> Prop :=
| picked_nil : picked P [] []
| picked_in x s l : P x -> picked P s l -> picked P (x :: s) (x :: l)
| picked_out x s l : ~ P x -> picked P s l -> picked P (x :: s) l.

(** The contents of the package: the instances on top; without such the loose
    surfaces; without such the solids. *)
Definition contents (g : graph) (src l : list nat) : Prop :=
  (l <> [] /\ picked (on_top g) src l) \/
  (picked (on_top g) src [] /\ l <> [] /\ picked (loose_surface g) src l) \/
  (picked (on_top g) src [] /\ picked (loose_surface g) src [] /\ picked (solid g) src l).

(** What becomes of the entity [i] when [p] with contents [l] is made and [src] is
    moved: the contents are referred to by [p] and are dependent; everything moved
    belongs to the receiver; nothing else changes. *)
Definition after_move (src l : list nat) (p i : nat) (n : node) : node :=
  if mem i l then w_own true (w_dep 1 (w_refs (n_refs n ++ [p]) n))
  else if mem i src then w_own true n else n.

(** The line weights of a model are in the range of its gradations. *)
Definition in_range (grad : Z) (w : Z) : Prop := 0 <= w <= grad.

(** [base] is the file name without what follows the last dot. *)
Definition without_extension (file base : str) : Prop :=
  (exists ext, file = base ++ "."%char :: ext /\ ~ In "."%char ext /\ base <> []) \/
  (file = base /\ (~ In "."%char file \/ exists ext, file = "."%char :: ext /\ ~ In "."%char ext)).

(** ** A second model *)

(** The same entity at an address [k] higher, seen from a model which is not its own. *)
Definition moved (k : nat) (n : node) : node :=
  mkNode (n_type n) (n_null n) (n_form n) false (n_dep n) (n_points n)
    (map (fun i => i + k)%nat (n_refs n)) (map (option_map (fun i => i + k)%nat) (n_des n))
    (map (fun i => i + k)%nat (n_extras n)) (map (option_map (fun i => i + k)%nat) (n_slots n))
    (map (fun i => i + k)%nat (n_items n))
    (map (fun d => mkEdge (ed_curve d + k) (ed_start d + k) (ed_stop d + k)) (n_edges n))
    (map (fun p => (fst p + k, snd p)%nat) (n_verts n))
    (map (fun p => (fst p + k, map (fun i => i + k) (snd p))%nat) (n_loops n)).
(** The heap of two models which do not share anything, seen from the first. *)
Definition beside (g h : graph) : graph :=
  mkGraph (fun i => if Nat.ltb i (g_next g) then look g i
                    else option_map (moved (g_next g)) (look h (i - g_next g)))
    (g_next g + g_next h) (g_ents g).

(** ** Nesting *)

(** The definition [p] uses the definition [q]: as it is or through an instance. *)
Definition uses_def (g : graph) (p q : nat) : Prop :=
  exists n x m, look g p = Some n /\ In x (n_items n) /\ look g x = Some m /\
    ((n_type m = 308 /\ q = x) \/ (n_type m = 408 /\ nth 0 (n_slots m) None = Some q)).
(** [p] has an instance of nothing. *)
Definition hollow (g : graph) (p : nat) : Prop :=
  exists n x m, look g p = Some n /\ In x (n_items n) /\ look g x = Some m /\ n_type m = 408 /\ nth 0 (n_slots m) None = None.
(** There are [k] definitions (or instances of nothing) one within the other in [p]. *)
Inductive nested (g : graph) : nat -> nat -> Prop :=
| nested_0 p : nested g p 0
| nested_hollow p : hollow g p -> nested g p 1
| nested_in p q k : uses_def g p q -> nested g q k -> nested g p (S k).
Definition deepest (g : graph) (p k : nat) : Prop := nested g p k /\ forall j, nested g p j -> (j <= k)%nat.

(** ** The whole *)

(** A unit which has a length, or one defined by the user. *)
Definition a_unit (u : Z) : Prop := unit_length u <> None \/ u = 3.

(** Two models fit to be merged: they stand side by side; the exported one has a
    positive scale, its entities have parents within it, and no entity is above
    itself; units are units; the line weights are within the gradations, which are
    [int]s. *)
Record mergeable {D} (g : graph) (src : list nat) (m : mdl D) (u : Z) (ws : list Z) (mine theirs : Z) : Prop := {
  mg_sides : side_by_side g src;
  mg_sound : sound (m_ents m);
  mg_scale : (0 < m_scale m)%Q;
  mg_unit : a_unit (m_unit m);
  mg_unit' : a_unit u;
  mg_grad : 1 <= mine;
  mg_grad' : 1 <= theirs <= 2147483647;
  mg_weights : Forall (in_range mine) ws }.

Definition fits_in {D} (s : source D) (t : target) : Prop :=
  mergeable (ta_graph t) (so_ids s) (so_mdl s) (ta_unit t) (so_weights s) (so_grad s) (ta_grad t).

(** What a line weight becomes: 0 stays; others are multiplied by how many times the
    gradations of the exported model go into those of the receiver, a whole number,
    and become 1 if that is 0. *)
Definition weighs (mine theirs w v : Z) : Prop :=
  (w = 0 /\ v = 0) \/ (0 < w /\ v = Z.max 1 (w * (theirs / mine))).

(** With this outcome the exported model is left with this unit and scale, and the
    entities, wherever they are now, have these data and line weights. *)
Definition handed {D} (r : ended D) (u : Z) (sc : Q) (items : list (item D)) (ws : list Z) : Prop :=
  match r with
  | Broke _ => False
  | Left s => m_unit (so_mdl s) = u /\ m_scale (so_mdl s) = sc /\ m_ents (so_mdl s) = items /\ so_weights s = ws
  | Packed _ _ _ s its vs => m_unit (so_mdl s) = u /\ m_scale (so_mdl s) = sc /\ its = items /\ vs = ws
  end.

(** Unsupported entities have no type. *)
Definition typeless_nulls (g : graph) : Prop := forall i n, look g i = Some n -> n_null n = true -> n_type n = 0.
(** There is no network definition (type 320, which the library does not support). *)
Definition no_network (g : graph) : Prop := forall i n, look g i = Some n -> n_type n <> 320.
(** [q] is used within [p], in one or more steps. *)
Inductive within (g : graph) : nat -> nat -> Prop :=
| within_1 p q : uses_def g p q -> within g p q
| within_s p q r : uses_def g p q -> within g q r -> within g p r.
