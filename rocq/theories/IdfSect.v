(** Proofs: whole sections of an IDF file, notes, and names which do not come back. *)

From Coq Require Import Lia Lqa.
From Verif Require Import Base Num IoModel IdfText Spec NumFacts RealFacts IdfSpec IdfFacts IdfNum IdfRound IdfLine.
Open Scope Z_scope.

Lemma read_all_list {A} (rd : stream -> got A) (wr : A -> str) (ok : A -> Prop) (P : A -> A -> Prop) endt g :
  (forall a rest, ok a -> exists a', rd (mkStream (wr a ++ rest) false) = Got a' (mkStream rest false) /\ P a a') ->
  rd (mkStream endt false) = Over g ->
  forall l fuel, Forall ok l -> (length l < fuel)%nat ->
  exists l', read_all rd fuel (mkStream (flat_map wr l ++ endt) false) = Some (l', g) /\ Forall2 P l l'.
Proof.
  intros H E. induction l as [|a l IH]; intros fuel F K; destruct fuel as [|fuel]; try lia.
  - exists []. cbn. rewrite E. split; [reflexivity|constructor].
  - inversion F; subst. cbn [flat_map]. rewrite <- app_assoc.
    destruct (H a (flat_map wr l ++ endt) H2) as (a' & R & B).
    destruct (IH fuel H3 ltac:(cbn in K; lia)) as (l' & R' & B').
    exists (a' :: l'). cbn [read_all]. rewrite R, R'. split; [reflexivity|]. constructor; assumption.
Qed.

Lemma flat_len {A} (wr : A -> str) l : (forall a, wr a <> []) -> (length l <= length (flat_map wr l))%nat.
Proof.
  intros H. induction l as [|a l IH]; cbn; [lia|]. rewrite app_length.
  specialize (H a). destruct (wr a); [congruence|]. cbn. lia.
Qed.

Lemma end_line key rest : S2 key <> [] -> ~ In nl (S2 key) -> (forall r, S2 key <> hash :: r) ->
  forallb (fun c => negb (is_space c)) (S2 key) = true ->
  match S2 key with c :: _ => Ascii.eqb c quote = false | [] => True end ->
  read_line (mkStream ((S2 key ++ [nl; nl]) ++ rest) false) = Some (S2 key, false, mkStream (nl :: rest) false) /\
  get_string (S2 key) (mkScan [] false 0) = (true, mkScan (S2 key) false (length (S2 key))).
Proof.
  intros N1 N2 N3 F Q. destruct (bare_by _ N1 F Q) as (_ & O & _).
  assert (S : forall c, In c (S2 key) -> ~ isspc c).
  { destruct O as (_ & O & _). rewrite Forall_forall in O. exact O. }
  split.
  - rewrite <- app_assoc. cbn [app]. apply read_line_plain; auto.
    + intros c r E. apply S. rewrite E. left. reflexivity.
    + intros c r E. apply S. rewrite E. rewrite in_app_iff. right. left. reflexivity.
  - assert (B : before (S2 key) ([] ++ field_text (Bare (S2 key)) ++ []) (mkScan [] false 0)).
    { cbn [app field_text]. rewrite app_nil_r. apply before_start. }
    destruct (get_field _ _ _ _ _ B (Forall_nil _) O I) as (G & _). rewrite G. cbn [value in_quotes length].
    rewrite Nat.sub_0_r. reflexivity.
Qed.

Lemma drills_end u v rest : read_drill (mkStream ((S2 ".END_DRILLED_HOLES" ++ [nl; nl]) ++ rest) false) u v =
  Over (mkStream (nl :: rest) false).
Proof.
  destruct (end_line ".END_DRILLED_HOLES" rest) as (R & G); try discriminate.
  - cbn. repeat (intros [E|E]; [discriminate|revert E]). tauto.
  - reflexivity.
  - reflexivity.
  - unfold read_drill. rewrite R, G. reflexivity.
Qed.

Lemma write_drill_nonnil u d : write_drill u d <> [].
Proof. rewrite write_drill_line. intros E. apply app_eq_nil in E as [_ E]. discriminate. Qed.

Lemma drills_again u l rest : u <> Tnm -> Forall (drill_ok u) l ->
  exists l', read_drills u V3 (mkStream (write_drills u l ++ rest) false) =
    Some (l', mkStream (nl :: rest) false) /\
    Forall2 (fun d d' => drill_back u d d' /\ (drill_short u d -> drill_same d d')) l l'.
Proof.
  intros U F. unfold read_drills, write_drills. rewrite <- app_assoc.
  apply (read_all_list (fun f => read_drill f u V3) (write_drill u) (drill_ok u)
    (fun d d' => drill_back u d d' /\ (drill_short u d -> drill_same d d'))).
  - intros a r O. exact (drill_again u a r U O).
  - apply drills_end.
  - exact F.
  - cbn [s_rest]. rewrite app_length. pose proof (flat_len (write_drill u) l (write_drill_nonnil u)). lia.
Qed.

(** ** Notes *)

Definition note_num (u : unit_of) (q : Q) : str :=
  match u with Thou => fixed 1 (q / thou_to_mm)%Q | _ => fixed 5 q end.
Definition note_conv (u : unit_of) (q : Q) : Q := match u with Thou => (q * thou_to_mm)%Q | _ => q end.

Lemma note_reads u q : sized q ->
  exists m k q', decimal k (note_num u q) m /\ stream_num (note_num u q) = Some q' /\
    near (tol_pos u) q (note_conv u q').
Proof.
  intros S. destruct u.
  - destruct (unit_reads MM V3 5 q ltac:(discriminate) ltac:(lia) S) as (m & k & q' & r & D & N & T & C & _).
    exists m, k, q'. split; [exact D|]. split; [exact N|]. cbn in T. injection T as <-.
    apply (near_ext _ _ _ _ (unit_tol_pos MM) C).
  - destruct (unit_reads Thou V3 5 q ltac:(discriminate) ltac:(lia) S) as (m & k & q' & r & D & N & T & C & _).
    exists m, k, q'. split; [exact D|]. split; [exact N|]. cbn in T. injection T as <-.
    apply (near_ext _ _ _ _ (unit_tol_pos Thou) C).
  - destruct (unit_reads MM V3 5 q ltac:(discriminate) ltac:(lia) S) as (m & k & q' & r & D & N & T & C & _).
    exists m, k, q'. split; [exact D|]. split; [exact N|]. cbn in T. injection T as <-.
    unfold near in *. eapply Qle_trans; [exact C|]. discriminate.
Qed.

Lemma note_again u n rest : note_ok n ->
  exists n', read_note (mkStream (write_note u n ++ rest) false) u = Got n' (mkStream rest false) /\ note_back u n n'.
Proof.
  intros (S1 & S2' & S3 & S4 & TQ & TN).
  destruct (note_reads u _ S1) as (m1 & k1 & q1 & D1 & N1 & C1).
  destruct (note_reads u _ S2') as (m2 & k2 & q2 & D2 & N2 & C2).
  destruct (note_reads u _ S3) as (m3 & k3 & q3 & D3 & N3 & C3).
  destruct (note_reads u _ S4) as (m4 & k4 & q4 & D4 & N4 & C4).
  pose proof (quoted_written _ TQ TN) as WT.
  exists (mkNote (note_conv u q1) (note_conv u q2) (note_conv u q3) (note_conv u q4) (nt_text n)).
  split; [|unfold note_back; cbn; auto].
  unfold write_note. fold (note_num u (nt_x n)) (note_num u (nt_y n)) (note_num u (nt_height n)) (note_num u (nt_length n)).
  set (t1 := note_num u (nt_x n)) in *. set (t2 := note_num u (nt_y n)) in *.
  set (t3 := note_num u (nt_height n)) in *. set (t4 := note_num u (nt_length n)) in *.
  set (t5 := quoted_text (nt_text n)) in *.
  set (line := t1 ++ sp :: t2 ++ sp :: t3 ++ sp :: t4 ++ sp :: t5).
  assert (EW : (t1 ++ sp :: t2 ++ sp :: t3 ++ sp :: t4 ++ sp :: t5 ++ [nl]) ++ rest = line ++ nl :: rest).
  { unfold line. repeat (rewrite <- app_assoc; cbn [app]). reflexivity. }
  rewrite EW. clear EW.
  assert (RL : read_line (mkStream (line ++ nl :: rest) false) = Some (line, false, mkStream rest false)).
  { assert (EL : line = t1 ++ sp :: (t2 ++ sp :: t3 ++ sp :: t4) ++ sp :: t5).
    { unfold line. repeat (rewrite <- app_assoc; cbn [app]). reflexivity. }
    rewrite EL. apply (read_written_line _ k1 m1 _ _ (Quoted (nt_text n))); [exact D1|exact WT|].
    pose proof (decimal_written _ _ _ D2) as (_ & _ & X2). pose proof (decimal_written _ _ _ D3) as (_ & _ & X3).
    pose proof (decimal_written _ _ _ D4) as (_ & _ & X4).
    intros I. repeat (apply in_sp in I as [I|[I|I]]; [auto|discriminate|]). auto. }
  unfold read_note. rewrite RL.
  destruct (first_at line t1 (Bare t1) _ eq_refl (decimal_written _ _ _ D1) eq_refl) as (st & G & TK & QT & B).
  rewrite G, QT, TK. cbn [in_quotes value].
  destruct (compare_token ".END_NOTES" t1) eqn:CE; [exfalso; exact (decimal_not_end _ _ _ _ D1 CE)|].
  rewrite N1.
  destruct (number_at line st [sp] k2 m2 t2 _ q2 B (or_intror eq_refl) D2 N2 eq_refl) as (st2 & G2 & B2). rewrite G2.
  destruct (number_at line st2 [sp] k3 m3 t3 _ q3 B2 (or_intror eq_refl) D3 N3 eq_refl) as (st3 & G3 & B3). rewrite G3.
  destruct (number_at line st3 [sp] k4 m4 t4 _ q4 B3 (or_intror eq_refl) D4 N4 eq_refl) as (st4 & G4 & B4). rewrite G4.
  assert (B4' : before line ([sp] ++ t5 ++ []) st4) by (rewrite app_nil_r; exact B4).
  destruct (word_at line st4 [sp] t5 _ [] B4' (or_intror eq_refl) WT I) as (st5 & G5 & B5). rewrite G5.
  reflexivity.
Qed.

Lemma notes_end u rest : read_note (mkStream ((S2 ".END_NOTES" ++ [nl; nl]) ++ rest) false) u =
  Over (mkStream (nl :: rest) false).
Proof.
  destruct (end_line ".END_NOTES" rest) as (R & G); try discriminate.
  - cbn. repeat (intros [E|E]; [discriminate|revert E]). tauto.
  - reflexivity.
  - reflexivity.
  - unfold read_note. rewrite R, G. reflexivity.
Qed.

Lemma notes_again u l rest : Forall note_ok l ->
  exists l', read_notes u (mkStream (write_notes u l ++ rest) false) =
    Some (l', mkStream (nl :: rest) false) /\ notes_back u l l'.
Proof.
  intros F. unfold read_notes, write_notes. rewrite <- app_assoc.
  apply (read_all_list (fun f => read_note f u) (write_note u) note_ok (note_back u)).
  - intros a r O. exact (note_again u a r O).
  - apply notes_end.
  - exact F.
  - cbn [s_rest]. rewrite app_length.
    assert (N : forall a, write_note u a <> []).
    { intros a. unfold write_note. intros E. apply app_eq_nil in E as [_ E]. discriminate. }
    pose proof (flat_len (write_note u) l N). lia.
Qed.

(** ** Names which do not come back *)

(** A name with a quote: the part after it is taken for the next fields. *)
Definition bad_name : drill := mkDrill 1 0 0 true (Named (S2 "A" ++ quote :: S2 " VIA ECAD ")) Pin Mcad.

Lemma bad_name_read : read_drill (mkStream (write_drill MM bad_name) false) MM V3 =
  Got (mkDrill (1000 # 1000) (0 # 100000) (0 # 100000) true (Named (S2 "A")) Via Ecad) (mkStream [] false).
Proof. vm_compute. reflexivity. Qed.

(** A hole whose diameter rounds to zero thousandths of an inch is written, and the
    file can not be read. *)
Definition tiny : drill := mkDrill (1 # 1000) 0 0 true ToBoard Pin Unowned.

Lemma tiny_wrong : read_drill (mkStream (write_drill Thou tiny) false) Thou V3 = Wrong /\
  read_drill (mkStream (write_drill MM tiny) false) MM V3 =
    Got (mkDrill (1 # 1000) (0 # 100000) (0 # 100000) true ToBoard Pin Unowned) (mkStream [] false).
Proof. split; vm_compute; reflexivity. Qed.

(** A number with something after it. *)
Lemma num_tail k s m r : decimal k s m -> no_more r -> (0 < k)%nat -> (Qabs (dec_value k m) <= inject_Z (10 ^ 305))%Q ->
  exists q, stream_num (s ++ r) = Some q /\ (q == dec_value k m)%Q.
Proof. intros D N K H. apply stream_num_decimal; auto. apply huge_false, H. Qed.

Lemma new_dia x : (3 # 10 <= (if Qle_bool (3 # 10) x then x else 3 # 10))%Q.
Proof. destruct (Qle_bool (3 # 10) x) eqn:E; [apply Qle_bool_iff, E|apply Qle_refl]. Qed.

(** A hole made by a program comes back. *)
Lemma new_drill_ok u dia x y p r h o : u <> Tnm -> sized dia -> sized x -> sized y ->
  name_ok r -> name_ok h -> drill_ok u (new_drill dia x y p r h o).
Proof.
  intros U D X Y R H. unfold drill_ok, new_drill. cbn [dr_dia dr_x dr_y dr_ref dr_hole].
  split; [|split; [|split; [exact X|split; [exact Y|split]]]].
  - eapply Qle_trans; [|apply new_dia]. destruct u; discriminate.
  - destruct (Qle_bool _ _); [exact D|]. unfold sized. vm_compute. discriminate.
  - unfold new_ref. destruct (str_eqb r _); [exact I|].
    destruct (match r with [] => true | _ => _ end); [exact I|]. destruct (str_eqb r _); [exact I|exact R].
  - unfold new_hole. destruct (str_eqb h _); [exact I|]. destruct (str_eqb h _); [exact I|].
    destruct (match h with [] => true | _ => _ end); [exact I|]. destruct (str_eqb h _); [exact I|exact H].
Qed.

Lemma comment_wrong bl raw g f' u v : blank_lines bl -> s_eof g = false -> ends_line (hash :: raw) g f' ->
  read_drill (mkStream (with_newlines bl ++ s_rest g) false) u v = Wrong /\
  read_note (mkStream (with_newlines bl ++ s_rest g) false) u = Wrong.
Proof.
  intros F Z E. unfold read_drill, read_note, with_newlines.
  destruct (read_line_comment bl raw g f' F Z E) as [->|(l & ->)]; split; reflexivity.
Qed.

Lemma blanks_skipped bl raw l g f' : blank_lines bl -> s_eof g = false -> ends_line raw g f' ->
  (forall r, raw <> hash :: r) -> trimmed_of raw l -> l <> [] ->
  read_line (mkStream (with_newlines bl ++ s_rest g) false) = Some (l, false, f').
Proof. intros B Z E H T N. exact (read_line_blanks bl raw l g f' B Z E H T N). Qed.

Lemma drills_section u l rest : u <> Tnm -> Forall (drill_ok u) l ->
  exists l', read_drills u V3 (mkStream (write_drills u l ++ rest) false) =
    Some (l', mkStream (nl :: rest) false) /\ drills_back u l l' /\
    (Forall (drill_short u) l -> Forall2 drill_same l l').
Proof.
  intros U F. destruct (drills_again u l rest U F) as (l' & R & P). exists l'. split; [exact R|].
  unfold drills_back. clear R F. induction P as [|d d' l l' (A & B) P (IH1 & IH2)].
  - split; constructor.
  - split; [constructor; assumption|]. intros H. inversion H; subst. constructor; auto.
Qed.
