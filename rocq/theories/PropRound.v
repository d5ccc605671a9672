(** The claims about writing and reading whole files (C74 - C76, and C21 for all
    types of entities), each with a concrete case. *)

From Coq Require Import QArith Qabs Lia.
From Verif Require Import Base Num Spec IoModel PdSpec PdModel PdFacts EntModel EntModel2 EntModel3 EntSpec DeModel DeSpec
  GlobalModel DateFacts GlobSpec PayloadModel FileModel FileSpec RoundSpec RoundFile RoundBad RoundRes PropGlobal PropEnt PropFile.
Open Scope Z_scope.

(** A document in metres with a resolution of a millimetre: a line which uses a
    transform, the transform, and an arc of radius 2. *)
Definition arc_ex : arc := mkArc 0 1 1 3 1 1 3.
Definition metres (note : str) : globals :=
  mkG "," ";" (S2 "part") [] [] [] 0 0 0 0 0 (S2 "rcv") 1 6 [] 4 (3 # 10) (S2 "20150704.123456") (1 # 1000)
    0 (S2 "me") [] 3 5 [] note 1 false.
Definition arc_doc (note : str) (sub : Z) (cs : list str) : doc := mkDoc [S2 "first"] (metres note)
  [mkEnt (plain 110 (Some 3) sub) (P110 line_ex) [] cs;
   mkEnt (plain 124 None 0) (P124 (mkX 0 (-1) 0 (5 # 2) 1 0 0 (1 # 1000) 0 0 1 (-30000))) [] [];
   mkEnt (plain 100 None 0) (P100 arc_ex) [] []].
Definition arc_write (note : str) (sub : Z) (cs : list str) : pres (bool * target) :=
  Write (arc_doc note sub cs) (S2 "x.igs") sample_ver sample_now Free false.
Definition arc_read (note : str) (sub : Z) (cs : list str) :=
  read_file [] 0 init_globals (S2 "x.igs") (mkStream (file_of (arc_write note sub cs)) false).

Lemma arc_head note sub cs : note = [] \/ note = S2 "note" -> head_ok (arc_doc note sub cs) (S2 "x.igs") sample_ver sample_now.
Proof.
  intros H. split; [|split; [|split]].
  - split; [|cbn; lia]. constructor; [|constructor]. split; [cbn; lia|].
    intros X; vm_compute in X; repeat destruct X as [X|X]; try discriminate X; exact X.
  - unfold GlobSpec.settings_ok. cbn [arc_doc metres d_glob with_name pdelim rdelim fileName unitsFlag modelScale minResolution
      maxLinewidthGrad draftStandard creationDate productIDSS nativeSystemID productIDRS author organization applicationNote].
    split; [exact default_delims|]. split; [discriminate|]. split; [lia|]. split; [vm_compute; split; discriminate|].
    split; [vm_compute; discriminate|]. split; [unfold is_int; lia|]. split; [unfold is_int; lia|].
    split; [intros X; apply checkDate_crash in X; vm_compute in X; discriminate|]. split.
    { exists (S2 "2026"), (S2 "01"), (S2 "01"), (S2 "00"), (S2 "00"), (S2 "00"), 2026, 1, 1, 0, 0, 0.
      repeat split; auto; try discriminate; repeat constructor; vm_compute; intuition discriminate. }
    destruct H as [-> | ->]; (split; [|vm_compute; discriminate]);
      repeat constructor; unfold one_line; intros X; vm_compute in X; decompose [or] X; try discriminate; assumption.
  - left. split; reflexivity.
  - right. vm_compute. discriminate.
Qed.

Lemma plain_ok t tr sub : form_accepted t 0 -> seq_ptr tr -> 0 <= sub <= 99999999 -> dir_ok t (plain t tr sub).
Proof.
  intros F T S. split; [|split; [reflexivity|]].
  - constructor; cbn; try lia; try exact T; try (intros n X; discriminate X); try exact Logic.I.
    intros X; repeat destruct X as [X|X]; try discriminate X; exact X.
  - cbn. split; [lia|]. split; [exact F|]. lia.
Qed.

(** *** C74: Writing and reading a whole file *)

Theorem c74_file_round_trip : forall d name ver now t over name2, doc_ok d name ver now -> opened t over = true ->
  exists s st g' ns ng np, Write d name ver now t over = POk (true, Old s) /\
    read_file [] 0 init_globals name2 (mkStream s false) =
      POk (st, with_name g' name2, ns, [Z.of_nat (length st); ng; 2 * Z.of_nat (length (d_ents d)); np]) /\
    start_read (d_start d) st /\ reads_back (with_name (d_glob d) name) ver now g' /\
    all_read_as (minResolution (d_glob d)) (maxLinewidthGrad g') 1 1 (d_ents d) ns.
Proof. exact file_round. Qed.
Print Assumptions c74_file_round_trip.

Theorem c74_plain_documents : forall d name ver now, head_ok d name ver now -> d_ents d <> [] -> all_lines (d_ents d) <= 9999998 ->
  applicationNote (d_glob d) = [] -> six_digits (minResolution (d_glob d)) -> six_digits (modelScale (d_glob d)) ->
  Forall (ent_ok (minResolution (d_glob d)) (minResolution (d_glob d))) (d_ents d) -> doc_ok d name ver now.
Proof. exact doc_ok_plain. Qed.
Print Assumptions c74_plain_documents.

Lemma forms_ex : form_accepted 110 0 /\ form_accepted 124 0 /\ form_accepted 100 0.
Proof.
  repeat split; intros l fs H; repeat (destruct H as [H|H]; [first [discriminate H | injection H as <- <-; cbn; auto 10]|]); destruct H.
Qed.

Lemma arc_digits : Forall real300 (arc_reals arc_ex) /\ Forall six_digits (arc_reals arc_ex) /\
  six_digits (1 # 1000) /\ six_digits 1.
Proof.
  assert (H : forall n, Z.abs n < 1000000 -> 1 <= Z.abs n -> six_digits (inject_Z n)).
  { intros n A B. exists n, 0. split; [unfold inject_Z, Qeq; cbn; lia|]. split; [exact A|]. right. unfold inject_Z, Qabs, Qle. cbn. lia. }
  split; [repeat constructor; vm_compute; discriminate|]. split.
  - unfold arc_reals, arc_ex. cbn. constructor; [exists 0, 0; repeat split; left; reflexivity|].
    repeat (constructor; [apply (H 1) || apply (H 3); cbn; lia|]). constructor.
  - split; [|apply (H 1); cbn; lia]. exists 1, (-3). split; [reflexivity|]. split; [reflexivity|]. right. vm_compute. discriminate.
Qed.

Example c74_case : doc_ok (arc_doc [] 0 []) (S2 "x.igs") sample_ver sample_now /\
  match arc_read [] 0 [] with POk (st, _, ns, ts) => length st = 1%nat /\ map n_type ns = [110; 124; 100] /\ ts = [1; 2; 6; 3] | _ => False end.
Proof.
  split; [|vm_compute; auto]. destruct arc_digits as (R & S & S1 & S2). destruct forms_ex as (F1 & F2 & F3).
  apply c74_plain_documents; [apply arc_head; auto|discriminate|vm_compute; discriminate|reflexivity|exact S1|exact S2|].
  cbn [arc_doc d_ents d_glob metres minResolution].
  assert (X : extras_ok []) by (split; [constructor|vm_compute; discriminate]).
  constructor; [|constructor; [|constructor; [|constructor]]]; (split; [apply plain_ok; [assumption|cbn; lia|lia]|]);
    (split; [|split; [exact X|reflexivity]]).
  - cbn [data_ok e_data]. repeat constructor; vm_compute; discriminate.
  - cbn [data_ok e_data]. repeat constructor; vm_compute; discriminate.
  - apply arc_six; [exact R|exact S|]. apply EntProps5.arc_ok_iff. vm_compute. reflexivity.
Qed.

(** *** C75: One entity which cannot be read makes the file unreadable *)

Theorem c75_directory_entry_refused : forall d name ver now t over s name2, head_ok d name ver now ->
  Forall (fun e => dir_sane (e_dir e)) (d_ents d) -> Exists dir_refused (d_ents d) ->
  Write d name ver now t over = POk (true, Old s) ->
  read_file [] 0 init_globals name2 (mkStream s false) = PFail.
Proof. exact dir_spoils. Qed.
Print Assumptions c75_directory_entry_refused.

Theorem c75_record_refused : forall d name ver now t over s name2 es1 e es2, head_ok d name ver now -> d_ents d = es1 ++ e :: es2 ->
  Forall (fun e => dir_sane (e_dir e)) (d_ents d) -> Forall ent_lined (es1 ++ [e]) ->
  Z.of_nat (length s) <= 729000000 -> ent_lines e <= 900000 ->
  (forall g', reads_back (with_name (d_glob d) name) ver now g' ->
     record_refused (minResolution g') (minResolution (d_glob d)) (1 + 2 * Z.of_nat (length es1)) e) ->
  Write d name ver now t over = POk (true, Old s) ->
  forall x, read_file [] 0 init_globals name2 (mkStream s false) <> POk x.
Proof. exact record_spoils. Qed.
Print Assumptions c75_record_refused.

(** A negative subscript; a comment. *)
Example c75_case : Exists dir_refused (d_ents (arc_doc [] (-1) [])) /\
  (exists s, arc_write [] (-1) [] = POk (true, Old s)) /\ arc_read [] (-1) [] = PFail /\
  (exists s, arc_write [] 0 [S2 "left edge"] = POk (true, Old s) /\ Z.of_nat (length s) <= 729000000) /\
  (forall u, record_refused u (1 # 1000) 1 (mkEnt (plain 110 (Some 3) 0) (P110 line_ex) [] [S2 "left edge"])) /\
  arc_read [] 0 [S2 "left edge"] = PFail.
Proof.
  split; [constructor; unfold dir_refused; right; right; right; right; reflexivity|].
  split; [eexists; vm_compute; reflexivity|]. split; [vm_compute; reflexivity|].
  split; [exists (file_of (arc_write [] 0 [S2 "left edge"])); split; [vm_compute; reflexivity|vm_compute; discriminate]|].
  split; [|vm_compute; reflexivity].
  intros u. split; [split; [constructor|vm_compute; discriminate]|]. right. split; [cbn [data_ok e_data]; repeat constructor; vm_compute; discriminate|].
  exists (S2 "left edge"). split; [reflexivity|]. split.
  - intros X; vm_compute in X; repeat destruct X as [X|X]; try discriminate X; exact X.
  - intros T. apply PdProps.tagged_iff in T; [|reflexivity]. destruct T as [_ T]. vm_compute in T. discriminate T.
Qed.

(** *** C21: comments, for entities of every type which can be read *)

Theorem c21_every_type : forall u' u pd rd k seq e, EntSpec.settings_ok pd rd seq k (e_extras e) -> (0 < u)%Q ->
  data_ok u' u (d_form (e_dir e)) (e_extras e) (e_data e) -> k + ent_lines e <= 9999999 -> spoiling_comment seq (e_comments e) ->
  forall r, format_ent u pd rd k seq e = POk r ->
  forall rest, read_payload (type_no (e_data e)) seq k (p_count r) pd rd u' (mkStream (p_out r ++ rest) false) = PFail.
Proof. exact comment_spoils. Qed.
Print Assumptions c21_every_type.

(** *** C76: The resolution is converted before the entities are *)

Theorem c76_resolution_used : forall g ver now g', six_digits (minResolution g) -> six_digits (modelScale g) ->
  (1 # 1000000000000 <= minResolution g)%Q -> reads_back g ver now g' -> resolution_used g (minResolution g').
Proof. exact res_used. Qed.
Print Assumptions c76_resolution_used.

Theorem c76_small_arcs_refused : forall d name ver now t over s name2 es1 e es2 a, head_ok d name ver now -> d_ents d = es1 ++ e :: es2 ->
  Forall (fun e => dir_sane (e_dir e)) (d_ents d) -> Forall ent_lined (es1 ++ [e]) ->
  Z.of_nat (length s) <= 729000000 -> ent_lines e <= 900000 ->
  six_digits (minResolution (d_glob d)) -> six_digits (modelScale (d_glob d)) ->
  e_data e = P100 a -> Forall real300 (arc_reals a) -> Forall six_digits (arc_reals a) -> extras_ok (e_extras e) -> e_comments e = [] ->
  (forall u, resolution_used (d_glob d) u -> ~ radii_ok u (a_xc a) (a_yc a) (a_xs a) (a_ys a) (a_xe a) (a_ye a)) ->
  Write d name ver now t over = POk (true, Old s) ->
  forall x, read_file [] 0 init_globals name2 (mkStream s false) <> POk x.
Proof. exact small_arc_spoils. Qed.
Print Assumptions c76_small_arcs_refused.

(** With an application note the document of C74, whose resolution is a millimetre,
    cannot be read any more: its arc of radius two metres counts as a point. *)
Example c76_case :
  (forall u, resolution_used (metres (S2 "note")) u -> ~ radii_ok u (a_xc arc_ex) (a_yc arc_ex) (a_xs arc_ex) (a_ys arc_ex) (a_xe arc_ex) (a_ye arc_ex)) /\
  (exists s, arc_write (S2 "note") 0 [] = POk (true, Old s)) /\ arc_read (S2 "note") 0 [] = PFail /\
  (exists s, arc_write [] 0 [] = POk (true, Old s)) /\ arc_read [] 0 [] <> PFail.
Proof.
  split; [|split; [eexists; vm_compute; reflexivity|split; [vm_compute; reflexivity|split; [eexists; vm_compute; reflexivity|vm_compute; discriminate]]]].
  intros u [H _]. cbn [metres modelScale minResolution unitsFlag mm_per_unit] in H.
  assert (E : (u == 1)%Q) by (rewrite H; [reflexivity|vm_compute; split; discriminate]).
  rewrite (radii_eq u 1 _ _ _ _ _ _ _ _ _ _ _ _ E) by reflexivity. rewrite <- EntProps5.arc_ok_iff. vm_compute. discriminate.
Qed.
