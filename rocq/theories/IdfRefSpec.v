(** When the outline of a component is in use. *)

From Verif Require Import Base IdfRef.
Local Open Scope nat_scope.

(** Some placement which exists has this outline. *)
Definition in_use (s : refs) (o : nat) : Prop := exists d, In (d, Some o) (r_data s).

(** How many do: [ds] are their numbers. *)
Definition users (s : refs) (o n : nat) : Prop :=
  exists ds, NoDup ds /\ (forall d, In d ds <-> In (d, Some o) (r_data s)) /\ length ds = n.

(** Calls which count references. *)
Definition counts (c : ref_call) : Prop :=
  match c with Make _ | SetOut _ _ _ | Drop _ => True | MakeAt _ | Copy _ | Wipe _ _ => False end.

(** A library whose outlines are numbered, with the counters of the outlines. *)
Definition numbered {A B} (s : refs) (lib : list (A * (nat * B))) : list (A * (Z * B)) :=
  map (fun x => (fst x, (Z.of_nat (r_num s (fst (snd x))), snd (snd x)))) lib.
