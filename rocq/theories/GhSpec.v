(** What the user of geometry handles relies on: who owns what. *)

From Coq Require Import List Bool Arith.
From Verif Require Import GhModel.
Import ListNotations.

(** What an object lists. *)
Definition listed (g : geo) : list nat :=
  match g with Seg _ => [] | Out _ _ ss cs hh => ss ++ cs ++ hh end.
Definition lists (s : st) (p q : nat) : Prop := exists g, obj s p = Some g /\ In q (listed g).
Definition live (s : st) (p : nat) : Prop := obj s p <> None.
Definition held (s : st) (q : nat) : Prop := exists p, lists s p q.

(** [q] is [p], or something it lists, or something listed by that, and so on. *)
Inductive inside (s : st) : nat -> nat -> Prop :=
| in_self p : inside s p p
| in_listed p q r : lists s p q -> inside s q r -> inside s p r.

(** A valid handle and its object. *)
Definition owns (s : st) (h p : nat) : Prop := exists x, hs s h = Some x /\ hv x = true /\ hp x = Some p.
Definition valid (s : st) (h : nat) : Prop := exists x, hs s h = Some x /\ hv x = true.

(** An object nobody owns: what [Detach] leaves to the user. *)
Definition nobodys (s : st) (p : nat) : Prop := live s p /\ ~ held s p /\ forall h, ~ owns s h p.

Definition kind_of (s : st) (h : nat) (P : kind -> Prop) : Prop := exists x, hs s h = Some x /\ P (hk x).
Definition outline_handle (s : st) (h : nat) : Prop := kind_of s h (fun k => k <> KSeg).
Definition segment_handle (s : st) (h : nat) : Prop := kind_of s h (fun k => k = KSeg).

(** An argument which can be given: another handle of the right class, or a pointer of
    the right type to an object nobody owns. *)
Definition good_arg (s : st) (h : nat) (out : bool) (a : arg) : Prop :=
  match a with
  | ByHandle g => g <> h /\ if out then outline_handle s g else segment_handle s g
  | ByPtr p => nobodys s p /\ exists g, obj s p = Some g /\ is_out g = out
  end.

(** What may be done without thinking about ownership: handles which exist, no copy of a
    handle, no outline added to itself, and raw pointers only to objects nobody owns. *)
Definition careful (s : st) (o : op) : Prop :=
  match o with
  | Make _ _ => True
  | Destroy h | New h | Del h | Detach h => hs s h <> None
  | Attach h p => hs s h <> None /\ nobodys s p
  | Copy _ => False
  | AddSegment h a _ => outline_handle s h /\ good_arg s h false a
  | Merge h a _ => outline_handle s h /\ good_arg s h true a
  | MergeCircle h a _ => outline_handle s h /\ good_arg s h false a
  | AddCutout h a _ => outline_handle s h /\ good_arg s h true a
  | AddHole h a _ => outline_handle s h /\ good_arg s h false a
  end.

(** A program in which every call is such a one. *)
Fixpoint careful_run (l : list op) (s : st) : Prop :=
  match l with
  | [] => True
  | o :: r => careful s o /\ forall s' b, exec o s = Some (s', b) -> careful_run r s'
  end.

(** States such programs reach. *)
Definition reached (s : st) : Prop := exists l, careful_run l empty /\ run l empty = Some s.

(** Everything is owned once, and nothing is used after it was destroyed. *)
Record sound (s : st) : Prop := mkSound {
  handle_has : forall h, valid s h -> exists p, owns s h p;
  handle_live : forall h p x, hs s h = Some x -> owns s h p -> exists g, obj s p = Some g /\ fits (hk x) g = true;
  handle_alone : forall h h' p, owns s h p -> owns s h' p -> h = h';
  handle_or_outline : forall h p, owns s h p -> ~ held s p;
  lists_segments : forall p b fl ss cs hh q,
    obj s p = Some (Out b fl ss cs hh) -> In q (ss ++ hh) -> exists fl', obj s q = Some (Seg fl');
  lists_cutouts : forall p b fl ss cs hh q,
    obj s p = Some (Out b fl ss cs hh) -> In q cs -> exists b' fl' ss' cs' hh', obj s q = Some (Out b' fl' ss' cs' hh');
  listed_once : forall p g, obj s p = Some g -> NoDup (listed g);
  one_owner : forall p p' q, lists s p q -> lists s p' q -> p = p';
  not_in_itself : forall p q, lists s p q -> ~ inside s q p }.

(** Programs which never let go of an object. *)
Definition keeps_all (o : op) : Prop := match o with Detach _ => False | _ => True end.

(** How an operation which adds something is called. *)
Definition adds (o : op) (h : nat) (a : arg) : Prop :=
  match o with
  | AddSegment h' a' _ => h' = h /\ a' = a
  | Merge h' a' _ => h' = h /\ a' = a
  | MergeCircle h' a' _ => h' = h /\ a' = a
  | AddCutout h' a' _ => h' = h /\ a' = a
  | AddHole h' a' _ => h' = h /\ a' = a
  | _ => False
  end.

(** What becomes of the argument of such a call, with answer [b]. *)
Definition handed (s s' : st) (h : nat) (a : arg) (b : bool) : Prop :=
  (forall o, owns s h o -> owns s' h o) /\
  match a with
  | ByPtr p => if b then valid s h /\ (~ live s' p \/ held s' p) else nobodys s' p
  | ByHandle g =>
      (b = true -> valid s h /\ valid s g) /\
      forall q, owns s g q ->
        if b then (exists k, hs s' g = Some (mkHnd k false None)) /\ (~ live s' q \/ held s' q) else owns s' g q
  end.
