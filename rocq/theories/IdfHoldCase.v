(** Cases for the outlines which a section holds (IdfHoldFacts.v). *)

From Verif Require Import Base IdfText IdfPlace IdfHold IdfHoldSpec.
From Coq Require Import Lia.
Local Open Scope nat_scope.

(** An electrical program which gives a section to MCAD. *)
Definition given : list hold_call := [AddOut (Some 0); AddOut (Some 1); AddOut None; AddOut (Some 1); TakeOut (Some 0); AddOut (Some 2); OwnBy Mcad].
Definition given_held : held := hold_run given (hold_new (Some Elec) false).

Lemma given_is : given_held = mkHeld (Some Elec) false Mcad [Some 0; Some 1; None; Some 2] [].
Proof. reflexivity. Qed.

Lemma given_case : NoDup (h_list given_held) /\ ~ may_change given_held /\ h_list given_held = [Some 0] ++ Some 1 :: [None; Some 2] /\
  removes (TakeOut (Some 1)) (h_list given_held) 1 /\ removes (DropAt 2) (h_list given_held) 2 /\
  h_list (hold_run [TakeOut (Some 0); TakeOut None; DropAt 2; DropAt 9] given_held) = [Some 0; Some 1; Some 2].
Proof.
  rewrite given_is. cbn. split; [repeat constructor; cbn; intuition discriminate|]. split.
  - intros (c & E & H). cbn in *. injection E as <-. destruct H as [H|[H|[(_ & H)|(H & _)]]]; discriminate.
  - repeat split; lia.
Qed.

Lemma given_careful : careful given (hold_new (Some Elec) false) /\
  h_gone (clear_held (hold_run (given ++ [DropAt 3; TakeOut (Some 1)]) (hold_new (Some Elec) false))) = [2; 0].
Proof.
  split; [|reflexivity]. intros a x b E. unfold given in E.
  repeat (destruct a as [|? a]; [cbn in E; try discriminate; cbn; tauto|cbn in E; injection E as <- E]). destruct a; discriminate.
Qed.
