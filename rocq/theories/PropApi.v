(** The claims about the Start Section and the lists of comments and header lines
    (C11, C44, C55), each with a concrete case. *)

From Coq Require Import Lia.
From Verif Require Import Base Num Spec IoModel HeaderModel HeaderFacts CacheModel CacheFacts.
Open Scope Z_scope.

(** *** C11: Header text is kept, in order, except text of exactly 72 characters *)

(** Whatever texts are added: every one contributes the lines which hold it, one of
    exactly 72 characters contributes none. *)
Theorem c11_texts_kept : forall texts, exists lss, Forall2 added texts lss /\ fold_left AddToHeader texts [] = concat lss.
Proof. exact history. Qed.
Print Assumptions c11_texts_kept.

(** What [added] says determines the lines. *)
Theorem c11_lines_determined : forall text ls ls', added text ls -> added text ls' -> ls = ls'.
Proof. exact added_unique. Qed.
Print Assumptions c11_lines_determined.

(** Written and read back. *)
Theorem c11_round_trip : forall texts rest rec f' ls,
  Forall (fun t => ~ In nl t) texts -> ls = fold_left AddToHeader texts [] -> ls <> [] -> Z.of_nat (length ls) <= 9999999 ->
  ReadIGESRecord (mkStream rest false) = POk (rec, f') -> r_sec rec = "G"%char ->
  exists out, writeStart ls = POk (ls, out) /\ numbered (sec_line "S") 1 ls out /\
    read_start [] (mkStream (out ++ rest) false) = POk (ls, rec, f').
Proof. exact history_round. Qed.
Print Assumptions c11_round_trip.

(** Without any header text one line about the library is written. *)
Theorem c11_default_text : exists out, writeStart [] = POk ([padr 72 start_default], out) /\
  numbered (sec_line "S") 1 [padr 72 start_default] out.
Proof. exact writeStart_empty. Qed.
Print Assumptions c11_default_text.

(** What is accepted as a Start Section: at least one record S, numbered on from the
    lines already present, up to the first record G. *)
Theorem c11_accepted_iff : forall lines f ls rec f', read_start lines f = POk (ls, rec, f') <->
  exists d ls', ls = lines ++ d :: ls' /\ start_records (Z.of_nat (length lines) + 1) f (d :: ls') rec f' /\ r_sec rec = "G"%char.
Proof. exact read_start_iff. Qed.
Print Assumptions c11_accepted_iff.

(** Header text added before reading a file makes a well formed file unreadable. *)
Theorem c11_text_before_reading : forall l lines f ls rec f' r0 f0, ReadIGESRecord f = POk (r0, f0) -> r_idx r0 = 1 ->
  read_start (l :: lines) f <> POk (ls, rec, f').
Proof. exact read_start_dirty. Qed.
Print Assumptions c11_text_before_reading.

Definition long_text : str := repeat "x"%char 70 ++ S2 " and some more".
Definition text72 : str := repeat "y"%char 72.
Definition g_line : str := repeat sp 72 ++ S2 "G      1" ++ [nl].
Example c11_case :
  fold_left AddToHeader [S2 "short"; text72; long_text] [] =
    [S2 "short" ++ repeat sp 67; repeat "x"%char 70 ++ S2 " a"; S2 "nd some more" ++ repeat sp 60] /\
  (exists out, writeStart (fold_left AddToHeader [S2 "short"; text72; long_text] []) =
      POk (fold_left AddToHeader [S2 "short"; text72; long_text] [], out) /\
    read_start [] (mkStream (out ++ g_line) false) =
      POk (fold_left AddToHeader [S2 "short"; text72; long_text] [], mkRec (repeat sp 72) "G" 1, mkStream [] false) /\
    read_start [S2 "here before"] (mkStream (out ++ g_line) false) = PFail).
Proof.
  split; [vm_compute; reflexivity|]. eexists. split; [vm_compute; reflexivity|]. split; vm_compute; reflexivity.
Qed.

(** *** C44: The comments of an entity behave as a list *)

Theorem c44_comments_are_a_list : forall ops, comment_run c_new ops = list_run [] ops.
Proof. exact comment_history. Qed.
Print Assumptions c44_comments_are_a_list.

(** A deletion and an addition between two looks at the array. *)
Example c44_case : comment_run c_new
  [AddComment (S2 "a"); AddComment (S2 "b"); GetComments; DelComment 0; AddComment (S2 "c"); GetComments; DelComment 2; GetNComments; GetComment 1] =
  [ABool true; ABool true; AArray (Some [Some (S2 "a"); Some (S2 "b")]); ABool true; ABool true;
   AArray (Some [Some (S2 "b"); Some (S2 "c")]); ABool false; ANum 2; AText (Some (S2 "c"))].
Proof. vm_compute. reflexivity. Qed.

(** *** C55: The array of header lines dangles after Clear *)

(** As long as the model is not cleared the array holds the lines. *)
Theorem c55_array_right : forall l0 ops, Forall adds_only ops ->
  forall ls, ls = fold_left lines_after (HLoad l0 :: ops) [] ->
  fst (header_step (header_run c_new (HLoad l0 :: ops)) HGet) = match ls with [] => None | _ => Some (map Some ls) end.
Proof. exact header_array_right. Qed.
Print Assumptions c55_array_right.

(** Clearing and reading a file with as many lines as were handed out. *)
Theorem c55_array_dangles : forall ops l ls, ls = fold_left lines_after ops [] -> ls <> [] -> length l = length ls ->
  fst (header_step (header_run c_new (ops ++ [HGet; HClear; HLoad l])) HGet) = Some (repeat None (length l)).
Proof. exact header_array_stale. Qed.
Print Assumptions c55_array_dangles.

Example c55_case :
  fst (header_step (header_run c_new [HLoad [S2 "a"]; HAdd (S2 "b")]) HGet) = Some [Some (S2 "a"); Some (padr 72 (S2 "b"))] /\
  fst (header_step (header_run c_new [HLoad [S2 "a"]; HGet; HClear; HLoad [S2 "b"]]) HGet) = Some [None] /\
  fst (header_step (header_run c_new [HLoad [S2 "a"]; HGet; HClear; HLoad [S2 "b"; S2 "c"]]) HGet) = Some [Some (S2 "b"); Some (S2 "c")].
Proof. repeat split; vm_compute; reflexivity. Qed.
