(** What a user of the library interface expects of handles. *)

From Coq Require Import List Bool ZArith.
From Verif Require Import HandleModel.
Import ListNotations.
Open Scope Z_scope.

Definition alive (s : st) (o : nat) : Prop := exists x, obj s o = Some x.
Definition of_type (s : st) (o : nat) (t : Z) : Prop := exists x, obj s o = Some x /\ o_type x = t.
Definition model (s : st) (m : nat) : Prop := of_type s m (-1).
Definition entity (s : st) (e : nat) : Prop := exists t, of_type s e t /\ t <> -1.
Definition stores (s : st) (m e : nat) : Prop := exists x, obj s m = Some x /\ In e (o_ents x).

(* a handle of an entity of type t, of a model *)
Definition handle (s : st) (h : nat) (t : Z) : Prop := exists x, hnd s h = Some x /\ h_type x = t.
Definition ehandle (s : st) (h : nat) : Prop := exists t, handle s h t /\ t <> -1.
Definition mhandle (s : st) (h : nat) : Prop := handle s h (-1).

(* what [IsValid] of a handle gives *)
Definition IsValid (s : st) (h : nat) : Prop := cell s (valid_of h) = Some true.

(* Pointers and handles passed are alive and of the right kind; what a model stores is
   deleted through the model, and stored by one model only; [NewAPIEntity] is asked
   for types it knows. *)
Definition sane (s : st) (o : op) : Prop :=
  match o with
  | MakeEntity t => t <> -1
  | MakeModel | DNew => True
  | Delete e => entity s e /\ (forall m, ~ stores s m e)
  | DeleteModel m | MClear m | MDel m _ | MUnlink m _ => model s m
  | MNew m t => model s m /\ t <> -1
  | MAdd m e => model s m /\ entity s e /\ (forall k, stores s k e -> k = m)
  | HNew t p _ => In t handle_types /\ (forall m, p = Some m -> model s m)
  | HNewVia t d _ => In t handle_types /\ mhandle s d
  | HDestroy h | HDetach h | HNewEntity h => ehandle s h
  | HAttach h e => ehandle s h /\ entity s e
  | HDel h => ehandle s h /\ (forall e m, attached s h = Some e -> ~ stores s m e)
  | HSetParent h p => ehandle s h /\ (forall m, p = Some m -> model s m)
  | HSetParentVia h d => ehandle s h /\ mhandle s d
  | HRaw h => ehandle s h \/ mhandle s h
  | DDestroy d => mhandle s d
  | DNewEntity d t => mhandle s d /\ (attached s d <> None -> In t api_types)
  end.
Fixpoint sane_run (l : list op) (s : st) : Prop :=
  match l with
  | [] => True
  | o :: r => sane s o /\ (forall s1, run o s = Some s1 -> sane_run r s1)
  end.
Definition reached (s : st) : Prop := exists l, sane_run l empty /\ runs l empty = Some s.

(* the objects an operation destroys *)
Definition dies (s : st) (o : op) (e : nat) : Prop :=
  match o with
  | Delete x => e = x
  | DeleteModel m => e = m \/ stores s m e
  | MDel m x => e = x /\ stores s m e
  | MClear m => stores s m e
  | HDel h => attached s h = Some e
  | DDestroy d => exists m, attached s d = Some m /\ (e = m \/ stores s m e)
  | _ => False
  end.

(* the operations which attach or detach handle h on purpose *)
Definition concerns (o : op) (h : nat) : Prop :=
  match o with
  | HDestroy k | HAttach k _ | HDetach k | HDel k | HNewEntity k | DDestroy k => h = k
  | _ => False
  end.
Definition concerns_parent (o : op) (h : nat) : Prop :=
  match o with
  | HDestroy k | HSetParent k _ | HSetParentVia k _ | DDestroy k => h = k
  | _ => False
  end.

(* from s to s' a link stays exactly as long as what it links to *)
Definition follows (s : st) (o : op) (a b : option nat) : Prop :=
  match a with
  | None => b = None
  | Some e => (dies s o e -> b = None) /\ (~ dies s o e -> b = Some e)
  end.
