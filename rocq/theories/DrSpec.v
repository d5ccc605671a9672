(** What is to be expected of drills which overlap: those which hang together become one
    cutout, the others stay holes, and none is lost. *)
From Coq Require Import List Bool Arith Sorting.Permutation.
From Verif Require Import DrModel.
Import ListNotations.

Section Spec.
Context {D : Type}.
Variable meet : D -> D -> answer.

Definition overlap (a b : D) : Prop := meet a b = Hit.
Definition symmetric (l : list D) : Prop := forall a b, In a l -> In b l -> overlap a b -> overlap b a.
Definition told_apart (l : list D) : Prop := forall a b, In a l -> In b l -> a = b \/ a <> b.

(** [b] is reached from [a] by drills of [l], each overlapping the one before. *)
Inductive linked (l : list D) (a : D) : D -> Prop :=
| linked_self : In a l -> linked l a a
| linked_next b c : linked l a b -> In c l -> overlap b c -> linked l a c.

(** [k] is [l] without some of its elements. *)
Inductive picked : list D -> list D -> Prop :=
| picked_nil : picked [] []
| picked_keep x k l : picked k l -> picked (x :: k) (x :: l)
| picked_drop x k l : picked k l -> picked k (x :: l).

(** [a] and [b] are two different places of the list. *)
Definition pair_of (l : list D) (a b : D) : Prop := exists others, Permutation l (a :: b :: others).
Definition flag_free (l : list D) : Prop := forall a b, pair_of l a b -> meet a b <> Flagged.

(** The drills in groups: the holes which stay, and the bundles. *)
Definition sorted_out (drills holes : list D) (bundles : list (list D)) : Prop :=
  Permutation drills (holes ++ concat bundles) /\ picked holes drills /\
  (forall b, In b bundles -> 2 <= length b) /\
  (forall x, In x drills -> (In x holes <-> forall y, In y drills -> y <> x -> ~ overlap x y)) /\
  (forall x y, In x drills -> In y drills -> x <> y -> ((exists b, In b bundles /\ In x b /\ In y b) <-> linked drills x y)).

End Spec.
