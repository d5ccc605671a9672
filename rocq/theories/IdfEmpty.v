(** Outlines without loops in IDF boards (IdfFile.v). *)

From Verif Require Import Base IoModel IdfText IdfOutl IdfFile IdfFileSpec IdfFileAgain.
From Verif Require IdfPlace.

Lemma no_loops ccw u x : ol_loops x = [] -> ol_kind x <> KBoard -> write_section ccw u x = Some [].
Proof. intros E K. unfold write_section. rewrite E. destruct (ol_kind x); try reflexivity. congruence. Qed.

Lemma all_without ccw u x more : ol_loops x = [] -> ol_kind x <> KBoard -> forall os, write_all ccw u (os ++ x :: more) = write_all ccw u (os ++ more).
Proof.
  intros E K. induction os as [|o os IH]; cbn [app write_all].
  - rewrite (no_loops ccw u x E K). destruct (write_all ccw u more); reflexivity.
  - rewrite IH. reflexivity.
Qed.

Lemma file_without ccw u source date name n os x more holes notes b : ol_loops x = [] -> ol_kind x <> KBoard ->
  write_file ccw u source date name n (os ++ x :: more) holes notes b = write_file ccw u source date name n (os ++ more) holes notes b.
Proof.
  intros E K. unfold write_file.
  change ((fix go (l : list outl) : option str := match l with [] => Some [] | o :: l' => match write_section ccw u o, go l' with Some a, Some t => Some (a ++ t) | _, _ => None end end) (os ++ x :: more)) with (write_all ccw u (os ++ x :: more)).
  change ((fix go (l : list outl) : option str := match l with [] => Some [] | o :: l' => match write_section ccw u o, go l' with Some a, Some t => Some (a ++ t) | _, _ => None end end) (os ++ more)) with (write_all ccw u (os ++ more)).
  rewrite (all_without ccw u x more E K). reflexivity.
Qed.

Definition empty_other : outl := mkOutl KOther Mcad (S2 "shield") 2 (Some LTop) [].
Lemma empty_case : ol_loops empty_other = [] /\ ol_kind empty_other <> KBoard.
Proof. split; [reflexivity|discriminate]. Qed.
