(** Clients of the line builders: lists of parameters written one after the other
    with the builders of iges_io.cpp, every result checked.  This is the pattern
    followed by [IGES::writeGlobals] (iges.cpp L2005-2378) and, for Parameter
    Data, by a caller who checks every result; the entities themselves ignore
    some results, see PdModel.v. *)

From Coq Require Import QArith.
From Verif Require Import Base Num Spec IoModel.
Open Scope Z_scope.

(** One parameter added to a Parameter Data record. *)
Definition pd_put (uir : Q) (p : param) (st : lst) (de : Z) (pd rd delim : ascii) : outcome lst :=
  match p with
  | PInt n => AddPDItem (showZ n ++ [delim]) st de rd
  | PStr s => AddPDHStr s st de pd rd delim
  | PReal q =>
    match FormatPDREal q delim uir with
    | None => Ret false st
    | Some t => AddPDItem t st de rd
    end
  end.

(** A whole record: all parameters, the last one with the record delimiter. *)
Fixpoint pd_write (uir : Q) (ps : list param) (st : lst) (de : Z) (pd rd : ascii) : outcome lst :=
  match ps with
  | [] => Ret true st
  | [p] => pd_put uir p st de pd rd rd
  | p :: r =>
    match pd_put uir p st de pd rd pd with
    | Ret true st' => pd_write uir r st' de pd rd
    | o => o
    end
  end.

Definition g_put (uir : Q) (p : param) (st : lst) (pd rd delim : ascii) : outcome lst :=
  match p with
  | PInt n => AddSecItem (showZ n ++ [delim]) st pd rd
  | PStr s => AddSecHStr s st pd rd delim
  | PReal q =>
    match FormatPDREal q delim uir with
    | None => Ret false st
    | Some t => AddSecItem t st pd rd
    end
  end.

Fixpoint g_write (uir : Q) (ps : list param) (st : lst) (pd rd : ascii) : outcome lst :=
  match ps with
  | [] => Ret true st
  | [p] => g_put uir p st pd rd rd
  | p :: r =>
    match g_put uir p st pd rd pd with
    | Ret true st' => g_write uir r st' pd rd
    | o => o
    end
  end.
