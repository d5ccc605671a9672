(** The claims about whole files (C24, C25, C43), each with a concrete case. *)

From Coq Require Import QArith Lia.
From Verif Require Import Base Num Spec IoModel EntModel DeModel GlobalModel PayloadModel FileModel FileSpec FileFacts TailFacts
  PropGlobal PropEnt.
Open Scope Z_scope.

(** A document with a line which uses a transform, and the transform, which
    carries a comment. *)
Definition plain (t : Z) (trans : option Z) (sub : Z) : dir :=
  mkDir t 0 0 0 None 1 None 4 None None trans None true 0 0 0 1 8 None 0 (S2 "E") sub.
Definition sample_doc (sub : Z) : doc := mkDoc [S2 "first"; S2 "second"] (sample "," ";" (1 # 1000) (S2 "note"))
  [mkEnt (plain 110 (Some 3) sub) (P110 line_ex) [] [];
   mkEnt (plain 124 None 0) (P124 (mkX 0 (-1) 0 (5 # 2) 1 0 0 (1 # 1000) 0 0 1 (-30000))) [] [S2 "quarter turn"]].
Definition sample_write (sub : Z) (t : target) (over : bool) : pres (bool * target) :=
  Write (sample_doc sub) (S2 "x.igs") sample_ver sample_now t over.
Definition file_of (o : pres (bool * target)) : str := match o with POk (_, Old s) => s | _ => [] end.

(** *** C24: The layout of a written file *)

Theorem c24_layout : forall d name ver now t over t', Forall one_lined (doc_texts d name ver now) ->
  Forall (fun l => (length l <= 72)%nat) (d_start d) ->
  Write d name ver now t over = POk (true, t') ->
  exists s, t' = Old s /\ (Z.of_nat (length s) <= 809999919 -> well_laid (d_ents d) s).
Proof. exact layout. Qed.
Print Assumptions c24_layout.

Example c24_case : Forall one_lined (doc_texts (sample_doc 0) (S2 "x.igs") sample_ver sample_now) /\
  match sample_write 0 Free false with
  | POk (true, Old s) => length s = 972%nat /\
      firstn 81 (skipn 324 s) = S2 "     110       1       0       1       4       0       3       0       0D      1" ++ [nl] /\
      firstn 81 (skipn 486 s) = S2 "     124       2       0       1       4       0       0       0       0D      3" ++ [nl] /\
      firstn 81 (skipn 567 s) = S2 "     124       1       8       2       0                       E       0D      4" ++ [nl] /\
      firstn 81 (skipn 648 s) = S2 "110,0.5,2.0,3.0,-1.0,0.25,1.0E+05;                                     1P      1" ++ [nl] /\
      firstn 81 (skipn 810 s) = S2 "quarter turn                                                            P      3" ++ [nl] /\
      skipn 891 s = S2 "S      2G      2D      4P      3                                        T      1" ++ [nl]
  | _ => False
  end.
Proof.
  split; [|vm_compute; auto 10].
  cbn [doc_texts sample_doc d_start d_glob d_ents app flat_map texts_of e_data e_dir e_comments plain d_label].
  repeat (apply Forall_cons || apply Forall_nil);
    intros X; vm_compute in X; repeat destruct X as [X|X]; try discriminate X; exact X.
Qed.

(** *** C25: The counts of the Terminate Section do not matter *)

Theorem c25_counts_ignored : forall lines n g0 name body t t' rest st g es ts,
  whole_lines body -> terminate_line t -> terminate_line t' ->
  read_file lines n g0 name (mkStream (body ++ t ++ rest) false) = POk (st, g, es, ts) ->
  exists ts', read_file lines n g0 name (mkStream (body ++ t' ++ rest) false) = POk (st, g, es, ts').
Proof. exact counts_ignored. Qed.
Print Assumptions c25_counts_ignored.

Theorem c25_record_required : forall f a b c d, readTS f = POk [a; b; c; d] <->
  exists data f', ReadIGESRecord f = POk (mkRec data "T" 1, f') /\ counts_text a b c d data.
Proof. exact readTS_iff. Qed.
Print Assumptions c25_record_required.

(** The document without its comment, which would make it unreadable (C21). *)
Definition quiet_doc : doc := mkDoc [] (d_glob (sample_doc 0)) (map (fun e => mkEnt (e_dir e) (e_data e) [] []) (d_ents (sample_doc 0))).
Definition quiet : str := file_of (Write quiet_doc (S2 "x.igs") sample_ver sample_now Free false).
Definition wrong_tail (g : string) : str := S2 "S      9G" ++ S2 g ++ S2 "D     -1P      0 anything                               T      1" ++ [nl].
Definition read_quiet (t : str) := read_file [] 0 init_globals (S2 "x.igs") (mkStream (firstn 729 quiet ++ t) false).
Example c25_case : let t := skipn 729 quiet in
  whole_lines (firstn 729 quiet) /\ terminate_line t /\ terminate_line (wrong_tail "    +77") /\
  match read_quiet t, read_quiet (wrong_tail "    +77") with
  | POk (_, _, es, ts), POk (_, _, es', ts') => length es = 2%nat /\ es = es' /\ ts = [1; 2; 4; 2] /\ ts' = [9; 77; -1; 0]
  | _, _ => False
  end /\ read_quiet (wrong_tail "       ") = PFail.
Proof.
  cbv zeta. split; [|split; [|split; [|split]]].
  - right. exists (firstn 728 quiet). vm_compute. reflexivity.
  - replace (skipn 729 quiet) with (firstn 72 (skipn 729 quiet) ++ S2 "T      1" ++ [nl]) by (vm_compute; reflexivity).
    apply (terminate_read _ 1 2 4 2); [vm_compute; reflexivity| |vm_compute; reflexivity].
    intros X; vm_compute in X; repeat destruct X as [X|X]; try discriminate X; exact X.
  - replace (wrong_tail "    +77") with (firstn 72 (wrong_tail "    +77") ++ S2 "T      1" ++ [nl]) by (vm_compute; reflexivity).
    apply (terminate_read _ 9 77 (-1) 0); [vm_compute; reflexivity| |vm_compute; reflexivity].
    intros X; vm_compute in X; repeat destruct X as [X|X]; try discriminate X; exact X.
  - vm_compute. auto 10.
  - vm_compute. reflexivity.
Qed.

(** *** C43: A failing [Write] and the content of its target *)

Theorem c43_target : forall d name ver now t over b t', Write d name ver now t over = POk (b, t') ->
  (b = false /\ t' = t /\ (can_open t over -> forall t2 over2, Write d name ver now t2 over2 = POk (false, t2))) \/
  (can_open t over /\ exists s, t' = Old s /\ forall t2 over2, can_open t2 over2 -> Write d name ver now t2 over2 = POk (b, Old s)).
Proof. exact write_target. Qed.
Print Assumptions c43_target.

(** A subscript which does not fit its field is only noticed behind the Global
    Section.  A file which can be written but not read is emptied without leave. *)
Example c43_case : sample_write 0 (Old (S2 "precious")) false = POk (false, Old (S2 "precious")) /\
  sample_write 100000000 (Old (S2 "precious")) false = POk (false, Old (S2 "precious")) /\
  sample_write 100000000 (Old (S2 "precious")) true = POk (false, Old (firstn 324 (file_of (sample_write 0 Free false)))) /\
  sample_write 0 (WriteOnly (S2 "precious")) false = sample_write 0 Free false /\
  Write (mkDoc [] (d_glob (sample_doc 0)) []) (S2 "x.igs") sample_ver sample_now (Old (S2 "precious")) true = POk (false, Old (S2 "precious")).
Proof. vm_compute. auto 10. Qed.
