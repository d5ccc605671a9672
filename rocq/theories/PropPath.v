(** The claims about file paths (C37, C58, C59), each with a concrete case. *)

From Coq Require Import QArith Lia.
From Verif Require Import Base Num Spec IoModel GlobalModel FileModel FileSpec PathModel PathSpec PathFacts PropGlobal PropFile.

Definition path_ex : str := S2 "a.d\part.v2.igs".
Definition slashed_ex : slashed path_ex (S2 "a.d/part.v2.igs") := native_slashed path_ex.

(** *** C37: The parts of a path *)

Theorem c37_parts_unique : forall path, exists full, slashed path full /\ (forall full', slashed path full' -> full' = full) /\
  exists dir name, located full dir name /\ (forall dir' name', located full dir' name' -> dir' = dir /\ name' = name) /\
  exists base ext, extended name base ext /\ (forall base' ext', extended name base' ext' -> base' = base /\ ext' = ext).
Proof. exact parts_unique. Qed.
Print Assumptions c37_parts_unique.

Theorem c37_parts_reported : forall path full dir name base ext qs,
  slashed path full -> full <> [] -> located full dir name -> extended name base ext -> In dot full \/ name = [] ->
  answers qs (SetPath path) = map (right_answer full name base ext) qs.
Proof. exact path_parts. Qed.
Print Assumptions c37_parts_reported.

Theorem c37_no_period_throws : forall path full dir name qs q qs',
  slashed path full -> full <> [] -> located full dir name -> ~ In dot full -> name <> [] ->
  Forall (fun q => q = QFull \/ q = QExt) qs -> q = QName \/ q = QBase ->
  answers (qs ++ q :: qs') (SetPath path) =
    map (right_answer full name name None) qs ++ AThrow :: map (right_answer full name name None) qs'.
Proof. exact path_throws. Qed.
Print Assumptions c37_no_period_throws.

Theorem c37_empty_path : forall qs, answers qs (SetPath []) = map (fun _ => ANull) qs.
Proof. exact path_empty. Qed.
Print Assumptions c37_empty_path.

Example c37_case :
  located (S2 "a.d/part.v2.igs") (S2 "a.d/") (S2 "part.v2.igs") /\ extended (S2 "part.v2.igs") (S2 "part.v2") (Some (S2 "igs")) /\
  extended (S2 ".igs") (S2 ".igs") None /\ located (S2 "dir/model") (S2 "dir/") (S2 "model") /\ ~ In dot (S2 "dir/model") /\
  answers [QExt; QName; QBase; QFull] (SetPath path_ex) =
    [AText (S2 "igs"); AText (S2 "part.v2.igs"); AText (S2 "part.v2"); AText (S2 "a.d/part.v2.igs")] /\
  answers [QExt; QName; QName; QBase] (SetPath (S2 "dir\model")) = [ANull; AThrow; AText (S2 "model"); AText (S2 "model")] /\
  answers [QName; QExt] (SetPath (S2 "dir/.igs")) = [AText (S2 ".igs"); ANull].
Proof.
  assert (D : forall (c : ascii) s, existsb (Ascii.eqb c) s = false -> ~ In c s).
  { intros c s E I. assert (X : existsb (Ascii.eqb c) s = true) by (apply existsb_exists; exists c; split; [exact I|apply Ascii.eqb_refl]). congruence. }
  split; [split; [reflexivity|]; split; [apply D; reflexivity|right; exists (S2 "a.d"); reflexivity]|].
  split; [split; [reflexivity|]; split; [discriminate|apply D; reflexivity]|].
  split; [split; [reflexivity|apply D; reflexivity]|].
  split; [split; [reflexivity|]; split; [apply D; reflexivity|right; exists (S2 "dir"); reflexivity]|].
  split; [apply D; reflexivity|]. repeat split; vm_compute; reflexivity.
Qed.

(** *** C58: Replacing the extension *)

Theorem c58_extension_replaced : forall path full dir name base ext e,
  slashed path full -> full <> [] -> located full dir name -> extended name base ext -> e <> [] -> hd_error e <> Some dot ->
  exists p, SetExtension e (SetPath path) = (true, p) /\ GetFullPath p = AText (dir ++ base ++ dot :: e) /\
    (base <> [] -> ~ In dot e -> ~ In sl e -> forall qs,
     answers qs p = map (right_answer (dir ++ base ++ dot :: e) (base ++ dot :: e) base (Some e)) qs).
Proof. exact set_fresh. Qed.
Print Assumptions c58_extension_replaced.

Theorem c58_period_lost : forall path full dir name base ext r,
  slashed path full -> full <> [] -> located full dir name -> extended name base ext -> r <> [] ->
  exists p, SetExtension (dot :: r) (SetPath path) = (true, p) /\ GetFullPath p = AText (dir ++ base ++ r).
Proof. exact set_with_period. Qed.
Print Assumptions c58_period_lost.

Theorem c58_extension_kept_after_query : forall path full dir name base x qs e,
  slashed path full -> located full dir name -> extended name base (Some x) -> x <> [] -> e <> [] -> hd_error e <> Some dot ->
  In QExt qs -> exists p, SetExtension e (asked qs (SetPath path)) = (true, p) /\ GetFullPath p = AText (full ++ dot :: e).
Proof. exact set_after_ext. Qed.
Print Assumptions c58_extension_kept_after_query.

Theorem c58_name_differs_after_query : forall path full dir name base x qs e,
  slashed path full -> located full dir name -> extended name base (Some x) -> x <> [] -> e <> [] -> hd_error e <> Some dot ->
  In QName qs \/ In QBase qs ->
  exists p, SetExtension e (asked qs (SetPath path)) = (true, p) /\
    answers [QFull; QName; QBase; QExt] p = [AText (full ++ dot :: e); AText (base ++ dot :: e); AText base; AText e].
Proof. exact set_after_asking. Qed.
Print Assumptions c58_name_differs_after_query.

Theorem c58_append : forall p0 s q p, slashed s q -> s <> [] -> q <> [sl] -> slashed p0 (m_full p) ->
  Append s p = (false, SetPath (m_full p ++ sl :: q)).
Proof. exact append_path. Qed.
Print Assumptions c58_append.

Example c58_case :
  GetFullPath (snd (SetExtension (S2 "brep") (SetPath path_ex))) = AText (S2 "a.d/part.v2.brep") /\
  GetFullPath (snd (SetExtension (S2 ".brep") (SetPath path_ex))) = AText (S2 "a.d/part.v2brep") /\
  GetFullPath (snd (SetExtension (S2 "brep") (asked [QExt] (SetPath path_ex)))) = AText (S2 "a.d/part.v2.igs.brep") /\
  answers [QName] (snd (SetExtension (S2 "brep") (asked [QName] (SetPath path_ex)))) = [AText (S2 "part.v2.brep")] /\
  Append (S2 "sub\x.igs") (SetPath []) = (false, SetPath (S2 "/sub/x.igs")).
Proof. repeat split; vm_compute; reflexivity. Qed.

(** *** C59: Reading and writing files whose path has no period *)

Theorem c59_write_throws : forall path full dir name d other ver now b s,
  slashed path full -> full <> [] -> located full dir name -> ~ In dot full -> name <> [] ->
  Write d other ver now Free false = POk (b, Old s) ->
  forall t over, (can_open t over -> write_to d path ver now t over = WThrow (Old [])) /\
                 (~ can_open t over -> write_to d path ver now t over = Wrote false t).
Proof. exact write_throws. Qed.
Print Assumptions c59_write_throws.

Theorem c59_write_named : forall path full dir name d ver now t over,
  slashed path full -> full <> [] -> located full dir name -> In dot full \/ name = [] ->
  write_to d path ver now t over = match Write d name ver now t over with POk (b, t') => Wrote b t' | _ => WCrash end.
Proof. exact write_named. Qed.
Print Assumptions c59_write_named.

Theorem c59_read_throws : forall path full dir name lines n g0 other f x,
  slashed path full -> full <> [] -> located full dir name -> ~ In dot full -> name <> [] ->
  read_file lines n g0 other f = POk x -> read_from lines n g0 path f = None.
Proof. exact read_throws. Qed.
Print Assumptions c59_read_throws.

Theorem c59_read_named : forall path full dir name lines n g0 f,
  slashed path full -> full <> [] -> located full dir name -> In dot full \/ name = [] ->
  read_from lines n g0 path f = Some (read_file lines n g0 name f).
Proof. exact read_named. Qed.
Print Assumptions c59_read_named.

Example c59_case : let d := sample_doc 0 in
  write_to d (S2 "out/model") sample_ver sample_now (Old (S2 "precious")) true = WThrow (Old []) /\
  write_to d (S2 "out/model") sample_ver sample_now (Old (S2 "precious")) false = Wrote false (Old (S2 "precious")) /\
  write_to d (S2 "out.d/x.igs") sample_ver sample_now Free false = Wrote true (Old (file_of (sample_write 0 Free false))) /\
  read_from [] 0 init_globals (S2 "model") (mkStream quiet false) = None /\
  match read_from [] 0 init_globals (S2 "b/x.igs") (mkStream quiet false) with Some (POk (_, g, _, _)) => fileName g = S2 "x.igs" | _ => False end.
Proof. vm_compute. auto 10. Qed.
