(** Facts about the sections of IDF files (IdfFile.v, IdfFileSpec.v): the header read
    again, the order of the sections, and what follows a line which is no heading. *)

From Verif Require Import Base Num IoModel IdfText IdfOutl IdfFile Spec IdfSpec IdfOutlSpec IdfFileSpec
  IdfFacts IdfNum IdfRound IdfLine IdfOutlText IdfFileHead.
From Verif Require IdfPlace.
From Coq Require Import Lia.
Open Scope Z_scope.

(** ** Lines of fields *)

Lemma opens_plain raw rest : raw <> [] -> ~ In nl raw -> (forall r, raw <> hash :: r) ->
  (forall c r, raw = c :: r -> ~ isspc c) -> (forall c r, raw = r ++ [c] -> ~ isspc c) ->
  opens (mkStream (raw ++ nl :: rest) false) raw (mkStream rest false).
Proof.
  intros N1 N2 H A B. exists [], raw, (mkStream (raw ++ nl :: rest) false). split; [reflexivity|]. split; [constructor|]. split; [reflexivity|].
  split; [split; [reflexivity|split; [exact N2|left; exists rest; auto]]|]. split; [exact H|]. split; [|exact N1].
  exists [], []. rewrite app_nil_r. split; [reflexivity|]. split; [constructor|]. split; [constructor|]. split; assumption.
Qed.

(** Fields with single spaces between them. *)
Fixpoint spaced (fs : list field) : str :=
  match fs with
  | [] => []
  | [f] => field_text f
  | f :: fs' => field_text f ++ sp :: spaced fs'
  end.
Definition fields_ok (fs : list field) : Prop := Forall (fun f => field_ok f /\ ~ In nl (field_text f)) fs.

Lemma spaced_cons f g fs : spaced (f :: g :: fs) = field_text f ++ sp :: spaced (g :: fs).
Proof. reflexivity. Qed.

Lemma laid_space fs line : laid_out false fs line -> laid_out false fs (sp :: line).
Proof.
  intros L. remember false as b eqn:E. destruct L as [w W|w t W N|b w f fs rest W O X L]; [|discriminate|].
  - apply lo_end. constructor; [apply sp_space|exact W].
  - apply (lo_field b (sp :: w) f fs rest); auto. constructor; [apply sp_space|exact W].
Qed.

Lemma spaced_laid fs : fields_ok fs -> laid_out false fs (spaced fs).
Proof.
  intros F. induction F as [|f fs (O & _) F IH]; [constructor; constructor|].
  destruct fs as [|g fs].
  - cbn [spaced]. rewrite <- (app_nil_r (field_text f)). apply (lo_field false [] f [] []); [apply Forall_nil|exact O|destruct f; exact I|apply lo_end, Forall_nil].
  - rewrite spaced_cons. apply (lo_field false [] f (g :: fs) (sp :: spaced (g :: fs))); auto.
    + destruct f; cbn; [left; reflexivity|exact I].
    + exact (laid_space _ _ IH).
Qed.

Lemma spaced_no_nl fs : fields_ok fs -> ~ In nl (spaced fs).
Proof.
  intros F. induction F as [|f fs (_ & N) F IH]; [intros []|]. destruct fs as [|g fs]; [exact N|]. rewrite spaced_cons.
  intros I. apply in_sp in I as [I|[I|I]]; [tauto|discriminate|tauto].
Qed.

Lemma field_nonnil f : field_ok f -> field_text f <> [].
Proof. destruct f; cbn; [tauto|discriminate]. Qed.

Lemma spaced_nonnil f fs : field_ok f -> spaced (f :: fs) <> [].
Proof.
  intros O. destruct fs; cbn [spaced]; [apply field_nonnil, O|]. destruct (field_text f) eqn:E; [exfalso; exact (field_nonnil f O E)|discriminate].
Qed.

Lemma field_head f c r : field_ok f -> field_text f = c :: r -> ~ isspc c.
Proof.
  destruct f as [s|s]; cbn.
  - intros (_ & F & _) ->. inversion F; auto.
  - intros _ E. injection E as <- _. apply space_false. reflexivity.
Qed.

Lemma spaced_head f fs c r : field_ok f -> spaced (f :: fs) = c :: r -> ~ isspc c /\ exists r', field_text f = c :: r'.
Proof.
  intros O E. destruct (field_text f) as [|x t] eqn:T; [exfalso; exact (field_nonnil f O T)|].
  assert (X : x = c). { destruct fs; cbn [spaced] in E; rewrite T in E; cbn [app] in E; congruence. }
  subst x. split; [exact (field_head f c t O T)|eauto].
Qed.

Lemma spaced_last fs c r : fields_ok fs -> spaced fs = r ++ [c] -> ~ isspc c.
Proof.
  intros F. revert r. induction F as [|f fs (O & N) F IH]; intros r E; [destruct r; discriminate|].
  destruct fs as [|g fs].
  - cbn [spaced] in E. destruct (field_last (field_text f) f) as (_ & L); [split; [reflexivity|split; assumption]|]. exact (L c r E).
  - rewrite spaced_cons in E. assert (NE : spaced (g :: fs) <> []) by (inversion F as [|? ? (O' & _) _]; subst; apply spaced_nonnil, O').
    change (sp :: spaced (g :: fs)) with ([sp] ++ spaced (g :: fs)) in E. rewrite app_assoc in E.
    destruct (app_last _ _ _ _ NE E) as (r' & R). exact (IH r' R).
Qed.

Lemma opens_spaced f fs rest : fields_ok (f :: fs) -> (forall r, field_text f <> hash :: r) ->
  opens (mkStream (spaced (f :: fs) ++ nl :: rest) false) (spaced (f :: fs)) (mkStream rest false).
Proof.
  intros F H. assert (O : field_ok f) by (inversion F; tauto). apply opens_plain.
  - apply spaced_nonnil, O.
  - apply spaced_no_nl, F.
  - intros r E. destruct (spaced_head _ _ _ _ O E) as (_ & r' & E'). exact (H r' E').
  - intros c r E. exact (proj1 (spaced_head _ _ _ _ O E)).
  - intros c r E. exact (spaced_last _ _ _ F E).
Qed.

Lemma bare_ok t : t <> [] -> forallb (fun c => negb (is_space c)) t = true ->
  match t with c :: _ => Ascii.eqb c quote = false | [] => True end -> field_ok (Bare t) /\ ~ In nl (field_text (Bare t)).
Proof. intros A B C. destruct (bare_by t A B C) as (_ & O & N). auto. Qed.

Lemma quoted_ok s : ~ In quote s -> ~ In nl s -> field_ok (Quoted s) /\ ~ In nl (field_text (Quoted s)).
Proof. intros A B. destruct (quoted_written s A B) as (_ & O & N). auto. Qed.

Lemma same_self key : same_word key (S2 key).
Proof. unfold same_word. induction (S2 key); constructor; [left; reflexivity|assumption]. Qed.

(** ** The header read again *)

Definition source_text (s : str) : str := S2 "Created by " ++ match s with [] => S2 "KiCad-IDF Framework" | _ => s end.
Definition name_text (s : str) : str := match s with [] => S2 "BOARD WITH NO NAME" | _ => s end.
Definition unit_text (u : unit_of) : str := match u with MM => S2 "MM" | _ => S2 "THOU" end.

Definition record_fields (key : string) (source date : str) (n : Z) : list field :=
  [Bare (S2 key); Bare (S2 "3.0"); Quoted (source_text source); Bare date; Bare (showN (n + 1))].

Lemma record2_spaced key source date n : 0 <= n + 1 -> record2 key source date n = spaced (record_fields key source date n).
Proof.
  intros B. unfold record2, record_fields, source_text, quoted_text, showZ. destruct (Z.ltb_spec (n + 1) 0); [lia|].
  cbn [spaced field_text]. repeat (rewrite <- ?app_assoc; cbn [app]). reflexivity.
Qed.

Lemma not_in_app (c : ascii) a b : ~ In c a -> ~ In c b -> ~ In c (a ++ b).
Proof. intros A B I. apply in_app_iff in I. tauto. Qed.

Lemma by_computing (c : ascii) s : existsb (Ascii.eqb c) s = false -> ~ In c s.
Proof. intros E I. assert (X : existsb (Ascii.eqb c) s = true) by (apply existsb_exists; exists c; split; [exact I|apply Ascii.eqb_refl]). congruence. Qed.

Lemma source_ok s : ~ In quote s -> ~ In nl s -> ~ In quote (source_text s) /\ ~ In nl (source_text s).
Proof. intros A B. unfold source_text. split; (apply not_in_app; [apply by_computing; reflexivity|destruct s; [apply by_computing; reflexivity|assumption]]). Qed.
Lemma nam_ok s : ~ In quote s -> ~ In nl s -> ~ In quote (name_text s) /\ ~ In nl (name_text s).
Proof. intros A B. unfold name_text. destruct s; [split; apply by_computing; reflexivity|auto]. Qed.

Definition date_ok (d : str) : Prop := field_ok (Bare d).

Lemma date_no_nl d : date_ok d -> ~ In nl d.
Proof. intros (_ & F & _) I. rewrite Forall_forall in F. apply (F _ I). unfold isspc. cbn. lia. Qed.

Lemma record_ok key source date n : S2 key <> [] -> forallb (fun c => negb (is_space c)) (S2 key) = true ->
  match S2 key with c :: _ => Ascii.eqb c quote = false | [] => True end ->
  ~ In quote source -> ~ In nl source -> date_ok date -> 0 <= n + 1 -> fields_ok (record_fields key source date n).
Proof.
  intros K1 K2 K3 Q N D B. destruct (source_ok source Q N) as (Q' & N'). unfold fields_ok, record_fields.
  apply Forall_cons; [apply bare_ok; assumption|]. apply Forall_cons; [apply bare_ok; [discriminate|reflexivity|reflexivity]|].
  apply Forall_cons; [apply quoted_ok; assumption|]. apply Forall_cons; [split; [exact D|exact (date_no_nl date D)]|].
  apply Forall_cons; [|apply Forall_nil]. destruct (shown_written (n + 1) B) as (_ & O & X). split; assumption.
Qed.

Lemma word_opens key rest : S2 key <> [] -> forallb (fun c => negb (is_space c)) (S2 key) = true ->
  match S2 key with c :: _ => Ascii.eqb c quote = false /\ Ascii.eqb c hash = false | [] => True end ->
  opens (mkStream (S2 key ++ nl :: rest) false) (S2 key) (mkStream rest false).
Proof.
  intros A B C. apply (opens_spaced (Bare (S2 key)) [] rest).
  - apply Forall_cons; [|apply Forall_nil]. apply bare_ok; auto. destruct (S2 key); tauto.
  - cbn [field_text]. intros r E. rewrite E in C. destruct C as (_ & C). rewrite Ascii.eqb_refl in C. discriminate.
Qed.

Lemma record_means key source date n : S2 key <> [] -> 0 <= n + 1 <= int_max ->
  head_means key (record_fields key source date n) (mkHead V3 (source_text source) date (n + 1)).
Proof.
  intros K B. apply head_is; cbn [h_ver h_source h_date h_num value]; auto.
  - apply same_self.
  - left. reflexivity.
  - left. exists []. apply int_shown, B.
Qed.

Lemma head_again source date name n u rest : ~ In quote source -> ~ In nl source -> ~ In quote name -> ~ In nl name ->
  date_ok date -> 0 <= n + 1 <= int_max ->
  read_head (mkStream (write_head source date name n u ++ rest) false) =
    Some (mkHead V3 (source_text source) date (n + 1), name_text name, match u with MM => MM | _ => Thou end, mkStream (nl :: rest) false).
Proof.
  intros Q1 N1 Q2 N2 D B. destruct (nam_ok name Q2 N2) as (Q3 & N3).
  set (fs3 := [Quoted (name_text name); Bare (unit_text u)]).
  set (t4 := S2 ".END_HEADER" ++ nl :: nl :: rest). set (t3 := spaced fs3 ++ nl :: t4).
  set (fs2 := record_fields "BOARD_FILE" source date n). set (t2 := spaced fs2 ++ nl :: t3).
  assert (T : write_head source date name n u ++ rest = S2 ".HEADER" ++ nl :: t2).
  { unfold write_head. rewrite record2_spaced by lia. unfold t2, t3, t4, fs2, fs3. cbn [spaced field_text]. unfold quoted_text, name_text, unit_text.
    repeat (rewrite <- ?app_assoc; cbn [app]). reflexivity. }
  rewrite T.
  assert (F2 : fields_ok fs2) by (apply record_ok; [discriminate|reflexivity|reflexivity|assumption|assumption|assumption|lia]).
  assert (F3 : fields_ok fs3).
  { apply Forall_cons; [apply quoted_ok; assumption|]. apply Forall_cons; [|apply Forall_nil]. apply bare_ok; destruct u; try discriminate; reflexivity. }
  apply (head_iff _ (S2 ".HEADER") (mkStream t2 false) (spaced fs2) (mkStream t3 false) (spaced fs3) (mkStream t4 false) (S2 ".END_HEADER") (mkStream (nl :: rest) false)
    false fs2 false fs3).
  - apply word_opens; [discriminate|reflexivity|split; reflexivity].
  - apply opens_spaced; [exact F2|discriminate].
  - apply opens_spaced; [exact F3|discriminate].
  - apply word_opens; [discriminate|reflexivity|split; reflexivity].
  - apply spaced_laid, F2.
  - apply spaced_laid, F3.
  - split; [reflexivity|]. split; [apply same_self|]. split; [apply record_means; [discriminate|exact B]|]. split; [|apply same_self].
    unfold fs3. cbn [h_ver]. apply (name_is V3 (Quoted (name_text name))). destruct u; apply same_self.
Qed.

Lemma lib_head_again source date n rest : ~ In quote source -> ~ In nl source -> date_ok date -> 0 <= n + 1 <= int_max ->
  read_lib_head (mkStream (write_lib_head source date n ++ rest) false) =
    Some (mkHead V3 (source_text source) date (n + 1), mkStream (nl :: rest) false).
Proof.
  intros Q1 N1 D B. set (t3 := S2 ".END_HEADER" ++ nl :: nl :: rest).
  set (fs2 := record_fields "LIBRARY_FILE" source date n). set (t2 := spaced fs2 ++ nl :: t3).
  assert (T : write_lib_head source date n ++ rest = S2 ".HEADER" ++ nl :: t2).
  { unfold write_lib_head. rewrite record2_spaced by lia. unfold t2, t3, fs2. repeat (rewrite <- ?app_assoc; cbn [app]). reflexivity. }
  rewrite T. assert (F2 : fields_ok fs2) by (apply record_ok; [discriminate|reflexivity|reflexivity|assumption|assumption|assumption|lia]).
  apply (lib_head_iff _ (S2 ".HEADER") (mkStream t2 false) (spaced fs2) (mkStream t3 false) (S2 ".END_HEADER") (mkStream (nl :: rest) false) false fs2).
  - apply word_opens; [discriminate|reflexivity|split; reflexivity].
  - apply opens_spaced; [exact F2|discriminate].
  - apply word_opens; [discriminate|reflexivity|split; reflexivity].
  - apply spaced_laid, F2.
  - split; [reflexivity|]. split; [apply same_self|]. split; [apply record_means; [discriminate|exact B]|apply same_self].
Qed.
