(** C152: editing the outlines of a section of an IDF board. *)

From Verif Require Import Base IdfText IdfPlace IdfHold IdfHoldSpec IdfHoldFacts IdfHoldCase.
Local Open Scope nat_scope.

(** C152: [AddOutline] obeys the rules of ownership, takes no outline twice, and puts the
    new one at the end. *)
Theorem c152_add p s : (fst (hold_step (AddOut p) s) = true <-> may_change s /\ ~ In p (h_list s)) /\
  snd (hold_step (AddOut p) s) = (if fst (hold_step (AddOut p) s) then with_list (h_list s ++ [p]) s else s).
Proof. exact (add_iff p s). Qed.
Print Assumptions c152_add.

(** [DelOutline] removes any outline but the first of several, and no other; only that by
    index deletes it. *)
Theorem c152_remove c par comp cs i : let s := hold_run cs (hold_new par comp) in removes c (h_list s) i ->
  exists p a b, h_list s = a ++ p :: b /\ length a = i /\
    (fst (hold_step c s) = true <-> i <> 0 \/ length (h_list s) = 1) /\
    snd (hold_step c s) = (if fst (hold_step c s)
      then with_list (a ++ b) (match c with DropAt _ => deleted [p] s | _ => s end) else s).
Proof. exact (remove_iff c (hold_run cs (hold_new par comp)) i (run_nodup cs (hold_new par comp) (NoDup_nil _))). Qed.
Print Assumptions c152_remove.

(** Nothing is removed by NULL, by a pointer which is not there or by an index out of
    bounds. *)
Theorem c152_absent s : (forall p, p = None \/ ~ In p (h_list s) -> hold_step (TakeOut p) s = (false, s)) /\
  (forall i, length (h_list s) <= i -> hold_step (DropAt i) s = (false, s)).
Proof. exact (absent s). Qed.
Print Assumptions c152_absent.

(** The documentation subjects [DelOutline] to the rules of ownership too; it does not
    obey them. *)
Theorem c152_owner_refuted par comp cs a p b : let s := hold_run cs (hold_new par comp) in ~ may_change s -> h_list s = a ++ p :: b -> a <> [] ->
  (forall q, hold_step (AddOut q) s = (false, s)) /\ hold_step WipeAll s = (false, s) /\ (forall o, hold_step (OwnBy o) s = (false, s)) /\
  hold_step (DropAt (length a)) s = (true, with_list (a ++ b) (deleted [p] s)) /\
  (forall x, p = Some x -> hold_step (TakeOut p) s = (true, with_list (a ++ b) s)).
Proof. exact (not_owner (hold_run cs (hold_new par comp)) a p b (run_nodup cs (hold_new par comp) (NoDup_nil _))). Qed.
Print Assumptions c152_owner_refuted.

Example c152_owner_case : NoDup (h_list given_held) /\ ~ may_change given_held /\ h_list given_held = [Some 0] ++ Some 1 :: [None; Some 2] /\
  removes (TakeOut (Some 1)) (h_list given_held) 1 /\ removes (DropAt 2) (h_list given_held) 2 /\
  h_list (hold_run [TakeOut (Some 0); TakeOut None; DropAt 2; DropAt 9] given_held) = [Some 0; Some 1; Some 2].
Proof. exact given_case. Qed.

(** [SetOwner] and [Clear] obey them; nothing else changes the owner. *)
Theorem c152_set_owner s :
  (forall o, (fst (hold_step (OwnBy o) s) = true <-> may_change s) /\ h_list (snd (hold_step (OwnBy o) s)) = h_list s /\
     h_gone (snd (hold_step (OwnBy o) s)) = h_gone s) /\
  (fst (hold_step WipeAll s) = true <-> may_change s) /\
  (fst (hold_step WipeAll s) = true -> h_list (snd (hold_step WipeAll s)) = []) /\
  (forall c, h_owner (snd (hold_step c s)) =
     match c with OwnBy o => if fst (hold_step c s) then o else h_owner s | WipeAll => if fst (hold_step c s) then Unowned else h_owner s | _ => h_owner s end).
Proof. exact (owners s). Qed.
Print Assumptions c152_set_owner.

(** So a section which was given away can not be taken back. *)
Theorem c152_given_away cs s : ~ may_change s -> h_owner (hold_run cs s) = h_owner s /\ ~ may_change (hold_run cs s).
Proof. exact (given_away cs s). Qed.
Print Assumptions c152_given_away.

(** The first outline stays the first, until it is the only one or all are cleared. *)
Theorem c152_first before par comp cs x l : let s := hold_run before (hold_new par comp) in h_list s = x :: l ->
  (exists l', h_list (hold_run cs s) = x :: l') \/
  (exists a c b l', cs = a ++ c :: b /\ h_list (hold_run a s) = x :: l' /\ h_list (hold_run (a ++ [c]) s) = [] /\ (l' = [] \/ c = WipeAll)).
Proof. exact (first_stays cs (hold_run before (hold_new par comp)) x l (run_nodup before (hold_new par comp) (NoDup_nil _))). Qed.
Print Assumptions c152_first.

(** When the section is destroyed no outline has been deleted twice, unless one was added
    after it was deleted; *)
Theorem c152_once cs par comp : careful cs (hold_new par comp) -> NoDup (h_gone (clear_held (hold_run cs (hold_new par comp)))).
Proof. exact (once cs par comp). Qed.
Print Assumptions c152_once.

(** and all which were accepted have been, but for those removed by pointer. *)
Theorem c152_deleted a x b par comp : fst (hold_step (AddOut (Some x)) (hold_run a (hold_new par comp))) = true -> ~ In (TakeOut (Some x)) b ->
  In x (h_gone (clear_held (hold_run (a ++ AddOut (Some x) :: b) (hold_new par comp)))).
Proof. exact (no_leak a x b par comp). Qed.
Print Assumptions c152_deleted.

Example c152_once_case : careful given (hold_new (Some Elec) false) /\
  h_gone (clear_held (hold_run (given ++ [DropAt 3; TakeOut (Some 1)]) (hold_new (Some Elec) false))) = [2; 0].
Proof. exact given_careful. Qed.
