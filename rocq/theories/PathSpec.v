(** What the parts of a path are, independent of the code. *)

From Verif Require Import Base PathModel.

Definition sl : ascii := "/"%char.
Definition dot : ascii := "."%char.

(** The path with slashes in place of backslashes. *)
Inductive slashed : str -> str -> Prop :=
| sla_nil : slashed [] []
| sla_back : forall p q, slashed p q -> slashed ("\"%char :: p) (sl :: q)
| sla_same : forall c p q, c <> "\"%char -> slashed p q -> slashed (c :: p) (c :: q).

(** Directory, with its separator, and name. *)
Definition located (path dir name : str) : Prop :=
  path = dir ++ name /\ ~ In sl name /\ (dir = [] \/ exists d, dir = d ++ [sl]).

(** Base name and extension.  A period in front of the whole name does not start an
    extension. *)
Definition extended (name base : str) (ext : option str) : Prop :=
  match ext with
  | Some e => name = base ++ dot :: e /\ base <> [] /\ ~ In dot e
  | None => base = name /\ ~ In dot (tl name)
  end.

(** The right answer to a question about a path with these parts. *)
Definition right_answer (full name base : str) (ext : option str) (q : query) : answer :=
  match q with
  | QFull => AText full
  | QName => AText name
  | QBase => AText base
  | QExt => match ext with None => ANull | Some e => AText e end
  end.
