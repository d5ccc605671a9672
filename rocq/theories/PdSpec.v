(** Vocabulary for the claims about Parameter Data lines. *)

From Coq Require Import QArith.
From Verif Require Import Base Spec IoModel.
Open Scope Z_scope.

(** The data columns [d] of a record carry the Directory Entry number [seq] in
    columns 66 to 72: column 65 is blank and the field formed by columns 65 to 72
    holds white space, the number, and nothing behind it (or a NUL character,
    where [strtol] stops looking). *)
Definition tagged (seq : Z) (d : str) : Prop :=
  length d = 72%nat /\
  exists pre c, d = pre ++ sp :: c /\ length pre = 64%nat /\
    exists w t r, sp :: c = w ++ t ++ r /\ Forall isspc w /\ signed_numeral t seq /\
      match r with [] => True | x :: _ => x = nul end.

(** From the stream [f] to [f'] there are P records numbered from [k], with data
    columns [ds], each of which carries the number [seq]. *)
Inductive own_lines (seq : Z) : Z -> list str -> stream -> stream -> Prop :=
| own_nil : forall k f, own_lines seq k [] f f
| own_cons : forall k d ds f f1 f2, ReadIGESRecord f = POk (mkRec d "P" k, f1) -> tagged seq d ->
    own_lines seq (k + 1) ds f1 f2 -> own_lines seq k (d :: ds) f f2.

(** The first comment which is not empty. *)
Fixpoint first_comment (cs : list str) : option str :=
  match cs with
  | [] => None
  | [] :: r => first_comment r
  | c :: _ => Some c
  end.
