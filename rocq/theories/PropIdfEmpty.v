(** C146, continued: outlines without loops. *)

From Verif Require Import Base IoModel IdfText IdfOutl IdfFile IdfEmpty.
From Verif Require IdfPlace.

(** An outline without loops leaves no trace in the file, unless it is the board. *)
Theorem c146_no_loops ccw u source date name n os x more holes notes b : ol_loops x = [] -> ol_kind x <> KBoard ->
  write_file ccw u source date name n (os ++ x :: more) holes notes b = write_file ccw u source date name n (os ++ more) holes notes b.
Proof. exact (file_without ccw u source date name n os x more holes notes b). Qed.
Print Assumptions c146_no_loops.

Example c146_no_loops_case : ol_loops empty_other = [] /\ ol_kind empty_other <> KBoard.
Proof. exact empty_case. Qed.
