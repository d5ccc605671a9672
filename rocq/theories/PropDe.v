(** The claims about Directory Entries (C17 - C19, C54), each with a concrete
    case. *)

From Coq Require Import Lia.
From Verif Require Import Base Num Spec IoModel DeModel DeSpec DeProps PropGlobal.
Open Scope Z_scope.

(** A circular arc with a transform, a blank flag, a colour of its own, a line
    weight beyond the gradations and an indented label. *)
Definition arc_dir : dir :=
  mkDir 100 7 12 3 None 2 None 4 None None (Some 5) None false 2 1 0 50 8 (Some 9) 0 (S2 "  ARC 1") 6.
Definition arc_out : str := match writeDE arc_dir with Some o => o | None => [] end.

(** *** C17: Directory Entries survive a write and read back *)

Theorem c17_directory_round_trip : forall d maxgrad out, dir_sane d -> 1 <= d_seq d -> writeDE d = Some out ->
  (dir_readable d /\ form_accepted (d_type d) (d_form d) -> exists i, kept_by_type maxgrad d i /\
     forall rest, read_dir (d_type d) maxgrad (mkStream (out ++ rest) false) = POk (i, mkStream rest false)) /\
  (~ (dir_readable d /\ form_accepted (d_type d) (d_form d)) ->
     forall rest, read_dir (d_type d) maxgrad (mkStream (out ++ rest) false) = PFail).
Proof. exact dir_type_round. Qed.
Print Assumptions c17_directory_round_trip.

(** The same for the fields before the type of the entity is considered. *)
Theorem c17_fields_round_trip : forall d maxgrad out, dir_sane d -> 1 <= d_seq d -> writeDE d = Some out ->
  (dir_readable d -> exists i, dir_kept maxgrad d i /\
     forall rest, read_dir_base (d_type d) maxgrad (mkStream (out ++ rest) false) = POk (i, mkStream rest false)) /\
  (~ dir_readable d -> forall rest, read_dir_base (d_type d) maxgrad (mkStream (out ++ rest) false) = PFail).
Proof. exact dir_base_round. Qed.
Print Assumptions c17_fields_round_trip.

Theorem c17_written_iff : forall d, dir_sane d -> 1 <= d_seq d ->
  ((exists out, writeDE d = Some out) <->
   d_seq d <= 9999998 /\ d_pdata d + d_count d <= 10000000 /\
   Forall (fun n => -9999999 <= n <= 99999999) [d_type d; d_pdata d; d_count d; d_weight d; d_form d; d_sub d] /\
   (d_plevel d = None -> d_level d <= 99999999)).
Proof. exact writeDE_iff. Qed.
Print Assumptions c17_written_iff.

Example arc_sane : dir_sane arc_dir /\ dir_readable arc_dir /\ form_accepted 100 0.
Proof.
  split; [split; cbn; try lia; auto; intuition discriminate|]. split.
  - split; cbn; try lia; try reflexivity. exists 3. reflexivity.
  - apply form_ok_iff; [lia|reflexivity].
Qed.

Example c17_case :
  firstn 81 arc_out = S2 "     100      12       0       2       4       0       5       0 1020100D      7" ++ [nl] /\
  skipn 81 arc_out = S2 "     100      50      -9       3       0                   ARC 1       6D      8" ++ [nl] /\
  read_dir 100 16 (mkStream (arc_out ++ behind) false) =
    POk (mkIn 7 12 0 2 4 0 5 0 false 2 1 0 16 (-9) 3 0 (S2 "ARC 1") 6, mkStream behind false).
Proof. repeat split; vm_compute; reflexivity. Qed.

(** *** C18: Status digits are independent *)

Theorem c18_status_digits : forall v dep use hier v' dep' use' hier',
  0 <= dep <= 3 -> 0 <= use <= 6 -> 0 <= hier <= 2 -> 0 <= dep' <= 3 -> 0 <= use' <= 6 -> 0 <= hier' <= 2 ->
  status_number v dep use hier = status_number v' dep' use' hier' -> v = v' /\ dep = dep' /\ use = use' /\ hier = hier'.
Proof. exact status_injective. Qed.
Print Assumptions c18_status_digits.

(** Read from any record, not only a written one. *)
Theorem c18_status_read : forall etype maxgrad rec f i f', readDE_base etype maxgrad rec f = POk (i, f') ->
  exists b n, (DEItemToInt (r_data rec) 8 None = POk n \/ (DEItemToInt (r_data rec) 8 None = PFail /\ n = 0)) /\
    0 <= n < 100000000 /\ n = b * 1000000 + i_dep i * 10000 + i_use i * 100 + i_hier i /\
    (i_visible i = true /\ b = 0 \/ i_visible i = false /\ b = 1) /\
    0 <= i_dep i <= 3 /\ 0 <= i_use i <= 6 /\ 0 <= i_hier i <= 2.
Proof. exact status_read. Qed.
Print Assumptions c18_status_read.

Theorem c18_status_refused : forall etype maxgrad rec f n, DEItemToInt (r_data rec) 8 None = POk n ->
  n < 0 \/ n mod 100 > 2 \/ (n / 100) mod 100 > 6 \/ (n / 10000) mod 100 > 3 \/ (n / 1000000) mod 100 > 1 ->
  forall i f', readDE_base etype maxgrad rec f <> POk (i, f').
Proof. exact status_refused. Qed.
Print Assumptions c18_status_refused.

(** The record above with another status number. *)
Definition with_status (s : string) : stream := mkStream (firstn 64 arc_out ++ S2 s ++ skipn 72 arc_out) false.
Example c18_case :
  (exists i f, read_dir_base 100 16 (with_status "01030602") = POk (i, f) /\
    i_visible i = false /\ i_dep i = 3 /\ i_use i = 6 /\ i_hier i = 2) /\
  (exists rec f, ReadIGESRecord (with_status "00000700") = POk (rec, f) /\
    DEItemToInt (r_data rec) 8 None = POk 700 /\ readDE_base 100 16 rec f = PFail) /\
  (exists i f, read_dir_base 100 16 (with_status "       x") = POk (i, f) /\ i_visible i = true /\ i_dep i = 0).
Proof. repeat split; do 2 eexists; repeat split; vm_compute; reflexivity. Qed.

(** *** C19: A level given by a level definition entity makes the file unreadable *)

Theorem c19_level_entity_refused : forall d maxgrad out s, dir_sane d -> 1 <= d_seq d -> d_plevel d = Some s ->
  writeDE d = Some out -> forall rest, read_dir (d_type d) maxgrad (mkStream (out ++ rest) false) = PFail.
Proof. exact level_entity_refused. Qed.
Print Assumptions c19_level_entity_refused.

Definition level_dir : dir :=
  mkDir 100 7 12 3 None 2 None 0 (Some 3) None (Some 5) None false 2 1 0 5 8 (Some 9) 0 (S2 "ARC 1") 6.
Example c19_case : dir_sane level_dir /\ exists out, writeDE level_dir = Some out /\
  read_dir 100 16 (mkStream (out ++ behind) false) = PFail.
Proof.
  split; [split; cbn; try lia; auto; intuition discriminate|].
  eexists. split; [vm_compute; reflexivity|]. vm_compute. reflexivity.
Qed.

(** *** C54: A form number which was never set makes the file unreadable *)

Theorem c54_negative_form_refused : forall d maxgrad out, dir_sane d -> 1 <= d_seq d -> d_form d < 0 ->
  writeDE d = Some out -> forall rest, read_dir (d_type d) maxgrad (mkStream (out ++ rest) false) = PFail.
Proof. exact negative_form_refused. Qed.
Print Assumptions c54_negative_form_refused.

(** A new shell has form -1; form 2, an open shell, may be set but is refused too. *)
Theorem c54_shells_need_form_1 : forall d maxgrad out, dir_sane d -> 1 <= d_seq d -> d_type d = 514 -> d_form d <> 1 ->
  writeDE d = Some out -> forall rest, read_dir 514 maxgrad (mkStream (out ++ rest) false) = PFail.
Proof. exact shells_need_form_1. Qed.
Print Assumptions c54_shells_need_form_1.

Definition shell_dir (form : Z) : dir :=
  mkDir 514 7 12 3 None 0 None 0 None None None None true 0 0 0 0 0 None form (S2 "SHELL") 0.
Definition shell_back (form : Z) : option bool :=
  match writeDE (shell_dir form) with
  | Some out => Some (match read_dir 514 16 (mkStream (out ++ behind) false) with POk _ => true | _ => false end)
  | None => None
  end.
Example c54_case : dir_sane (shell_dir (-1)) /\ dir_sane (shell_dir 2) /\
  shell_back (-1) = Some false /\ shell_back 2 = Some false /\ shell_back 1 = Some true.
Proof.
  split; [split; cbn; try lia; auto; intuition discriminate|].
  split; [split; cbn; try lia; auto; intuition discriminate|]. repeat split; vm_compute; reflexivity.
Qed.
