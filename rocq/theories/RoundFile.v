(** Whole files: what [Write] produces is read back. *)

From Coq Require Import Lia ZifyBool ZifyNat ZifyN QArith Qabs.
From Verif Require Import Base Num Spec NumFacts IoModel FieldFacts LineFacts TokenFacts RecordFacts StreamFacts BuildFacts
  PdModel PdFacts EntModel EntModel2 EntModel3 EntSpec DeModel DeFacts DeSpec DeProps HeaderModel HeaderFacts PayloadModel GlobalModel GlobSpec GlobBack GlobRead
  FileModel LayoutFacts FileSpec FileFacts TailFacts RoundLines RoundSpec RoundEnt.
Open Scope Z_scope.

Lemma ReadIGESRecord_safe f : ReadIGESRecord f <> PCrash.
Proof.
  unfold ReadIGESRecord. destruct (s_eof f); [discriminate|]. destruct (getline f) as [l f'].
  unfold parse_record. destruct (negb _); [discriminate|]. destruct (negb _); [discriminate|].
  unfold DEItemToInt. destruct (_ || _); [discriminate|]. destruct (_ <? _); [discriminate|].
  destruct (first_nonblank _); [|discriminate]. destruct (strtol _) as [[v r]|]; [|discriminate].
  destruct r as [|c r]; cbn [pbind]; [destruct (_ <=? _); discriminate|].
  destruct (Ascii.eqb c nul); [|discriminate]. cbn [pbind]. destruct (_ <=? _); discriminate.
Qed.

(** *** Directory Entries *)

Definition dirs_from (fuel : nat) (maxgrad : Z) (pos f : stream) : pres (list (Z * dirin) * irec * stream) :=
  do (rec, f1) <- ReadIGESRecord f; read_dirs fuel maxgrad rec f1 pos.

Lemma one_dir d out rest : writeDE d = Some out -> 1 <= d_seq d -> length out = 162%nat /\
  exists rec f1, ReadIGESRecord (mkStream (out ++ rest) false) = POk (rec, f1) /\ r_sec rec = "D"%char /\ r_idx rec = d_seq d /\
    length (s_rest f1) = (81 + length rest)%nat /\ DEItemToInt (r_data rec) 0 None = POk (d_type d).
Proof.
  intros W S1. destruct (writeDE_lines _ _ W) as (_ & fs1 & fs2 & sf & l1 & l2 & -> & F1 & L1 & F2 & CS & L2).
  assert (E1 : length l1 = 81%nat).
  { destruct L1 as (A & c & -> & [C _]). rewrite !app_length. cbn [length]. rewrite app_length. cbn [length]. lia. }
  assert (E2 : length l2 = 81%nat).
  { destruct L2 as (A & c & -> & [C _]). rewrite !app_length. cbn [length]. rewrite app_length. cbn [length]. lia. }
  split; [rewrite app_length; lia|]. rewrite <- app_assoc.
  rewrite (sec_line_read "D" (d_seq d) (concat fs1) l1 (l2 ++ rest)); [|exact L1|unfold section_letter; auto|lia|exact (columns8_no_nl _ _ F1)].
  do 2 eexists. split; [reflexivity|]. cbn [r_sec r_idx r_data s_rest]. split; [reflexivity|]. split; [reflexivity|].
  split; [rewrite app_length; lia|].
  destruct (F2_nth _ _ _ F1 0%nat _ eq_refl) as (x & Hx & C).
  apply (field_read fs1 0 x (d_type d) None); [|exact Hx|lia|exact C].
  clear - F1. induction F1 as [|a b l m [L _] F IH]; constructor; assumption.
Qed.

Definition dir_fine (d : dir) : Prop := dir_readable d /\ form_accepted (d_type d) (d_form d).

Lemma dirs_read maxgrad l : forall d, put_dirs l = (true, d) ->
  Forall (fun x => dir_sane (fst x) /\ dir_fine (fst x)) l ->
  length d = (162 * length l)%nat /\
  exists ds, Forall2 (fun x i => fst i = d_type (fst x) /\ kept_by_type maxgrad (fst x) (snd i)) l ds /\
    forall rest fuel pos, dirs_from (length l + fuel) maxgrad pos (mkStream (d ++ rest) false) =
      do (m, r, p) <- dirs_from fuel maxgrad (match l with [] => pos | _ => mkStream rest false end) (mkStream rest false);
      POk (ds ++ m, r, p).
Proof.
  induction l as [|[x pr] l IH]; intros d P F; cbn [put_dirs] in P.
  - apply pair_inj in P. destruct P as [_ <-]. split; [reflexivity|]. exists []. split; [constructor|].
    intros rest fuel pos. cbn [app length Nat.add]. destruct (dirs_from _ _ _ _) as [| |[[m r] p]]; reflexivity.
  - destruct (writeDE x) as [out|] eqn:W; [|discriminate]. destruct (put_dirs l) as [ok t] eqn:PL.
    apply pair_inj in P. destruct P as [-> <-]. inversion F as [|? ? [S [R A]] F']. subst. cbn [fst] in *.
    destruct (IH t eq_refl F') as (LT & ds & F2 & RD).
    assert (S1 : 1 <= d_seq x) by (destruct R; lia).
    destruct (dir_type_round x maxgrad out S S1 W) as [Y _]. destruct (Y (conj R A)) as (i & K & RI).
    split; [rewrite app_length, LT; destruct (one_dir x out [] W S1) as [-> _]; cbn [length]; lia|].
    exists ((d_type x, i) :: ds). split; [constructor; [cbn [fst snd]; auto|exact F2]|].
    intros rest fuel pos. destruct (one_dir x out (t ++ rest) W S1) as (_ & rec & f1 & RR & SC & IX & _ & TY).
    specialize (RI (t ++ rest)). unfold read_dir in RI. rewrite RR in RI. cbn [pbind] in RI.
    unfold dirs_from at 1. rewrite <- app_assoc, RR. cbn [pbind length Nat.add read_dirs].
    rewrite SC, TY. cbn [pbind]. change (Ascii.eqb "D" "D") with true. cbn match. rewrite RI. cbn [pbind].
    specialize (RD rest fuel (mkStream (t ++ rest) false)). unfold dirs_from at 1 in RD.
    destruct (ReadIGESRecord (mkStream (t ++ rest) false)) as [| |[rec' f2]] eqn:R2; cbn [pbind] in RD |- *.
    + destruct (ReadIGESRecord_safe _ R2).
    + destruct l as [|x' l'].
      * cbn [put_dirs] in PL. apply pair_inj in PL. destruct PL as [_ <-]. cbn [app] in *. unfold dirs_from in RD |- *. rewrite R2 in RD |- *. reflexivity.
      * destruct (dirs_from fuel maxgrad (mkStream rest false) (mkStream rest false)) as [| |[[m r] p]]; cbn [pbind] in RD |- *; congruence.
    + rewrite RD. destruct l as [|x' l'].
      * cbn [put_dirs] in PL. apply pair_inj in PL. destruct PL as [_ <-]. cbn [app].
        destruct (dirs_from fuel maxgrad (mkStream rest false) (mkStream rest false)) as [| |[[m r] p]]; reflexivity.
      * destruct (dirs_from fuel maxgrad (mkStream rest false) (mkStream rest false)) as [| |[[m r] p]]; reflexivity.
Qed.

Lemma dir_fine_dec x : dir_fine x \/ ~ dir_fine x.
Proof.
  destruct (Z_le_dec 0 (d_form x)) as [A6|]; [|right; intros [[_ _ _ _ _ A _ _] _]; lia].
  unfold dir_fine. destruct (form_ok (d_type x) (d_form x)) eqn:EF; [|right; intros [_ B]; apply (form_ok_iff _ _ A6) in B; congruence].
  apply (form_ok_iff _ _ A6) in EF.
  destruct (Z_le_dec 1 (d_seq x)) as [A0|]; [|right; intros [[A _ _ _ _ _ _ _] _]; lia].
  destruct (Z_le_dec (d_seq x) 9999996) as [A1|]; [|right; intros [[A _ _ _ _ _ _ _] _]; lia].
  destruct (Z.Even_or_Odd (d_seq x)) as [EV|A2]; [right; intros [[_ A _ _ _ _ _ _] _]; apply (Z.Even_Odd_False _ EV A)|].
  destruct (Z_le_dec 0 (d_pdata x)) as [A3|]; [|right; intros [[_ _ A _ _ _ _ _] _]; lia].
  destruct (d_plevel x) as [q|] eqn:A4; [right; intros [[_ _ _ A _ _ _ _] _]; congruence|].
  destruct (Z_le_dec 0 (d_weight x)) as [A7|]; [|right; intros [[_ _ _ _ _ _ A _] _]; lia].
  destruct (Z_le_dec 0 (d_sub x)) as [A8|]; [|right; intros [[_ _ _ _ _ _ _ A] _]; lia].
  assert (A5 : (1 <= d_count x \/ (d_count x = 0 /\ d_type x = 0)) \/ ~ (1 <= d_count x \/ (d_count x = 0 /\ d_type x = 0))) by lia.
  destruct A5 as [A5|A5]; [|right; intros [[_ _ _ _ A _ _ _] _]; auto].
  left. split; [|exact EF]. constructor; auto; lia.
Qed.

(** The first unfit Directory Entry stops the reader. *)
Lemma dirs_fail maxgrad l : forall d, put_dirs l = (true, d) ->
  Forall (fun x => dir_sane (fst x) /\ 1 <= d_seq (fst x)) l -> ~ Forall (fun x => dir_fine (fst x)) l ->
  forall rest fuel pos, (length l <= fuel)%nat -> dirs_from fuel maxgrad pos (mkStream (d ++ rest) false) = PFail.
Proof.
  induction l as [|[x pr] l IH]; intros d P F NF rest fuel pos FL; cbn [put_dirs] in P; [destruct NF; constructor|].
  destruct (writeDE x) as [out|] eqn:W; [|discriminate]. destruct (put_dirs l) as [ok t] eqn:PL.
  apply pair_inj in P. destruct P as [-> <-]. inversion F as [|? ? [S S1] F']. subst. cbn [fst] in *.
  destruct (one_dir x out (t ++ rest) W S1) as (_ & rec & f1 & RR & SC & IX & _ & TY).
  destruct (dir_type_round x maxgrad out S S1 W) as [Y N].
  unfold dirs_from. rewrite <- app_assoc, RR. cbn [pbind]. cbn [length] in FL. destruct fuel as [|fuel]; [lia|].
  cbn [read_dirs]. rewrite SC, TY. cbn [pbind]. change (Ascii.eqb "D" "D") with true. cbn match.
  destruct (dir_fine_dec x) as [D|D].
  - destruct (Y D) as (i & K & RI). specialize (RI (t ++ rest)). unfold read_dir in RI. rewrite RR in RI. cbn [pbind] in RI.
    rewrite RI. cbn [pbind].
    assert (NF' : ~ Forall (fun x => dir_fine (fst x)) l) by (intros B; apply NF; constructor; assumption).
    specialize (IH t eq_refl F' NF' rest fuel (mkStream (t ++ rest) false) ltac:(lia)). unfold dirs_from in IH.
    destruct (ReadIGESRecord (mkStream (t ++ rest) false)) as [| |[rec' f2]]; cbn [pbind] in IH |- *; try congruence.
    rewrite IH. reflexivity.
  - specialize (N D (t ++ rest)). unfold read_dir in N. rewrite RR in N. cbn [pbind] in N. rewrite N. reflexivity.
Qed.

(** *** Entities *)

Lemma ent_lines_pos e : 6 <= ent_lines e.
Proof.
  unfold ent_lines. assert (0 <= items (e_data e)).
  { destruct (e_data e); cbn [items]; try lia; unfold ncurve_size, nsurf_size; lia. }
  assert (0 <= text_lines (e_data e)) by (destruct (e_data e); cbn [text_lines]; unfold str_cost; lia). lia.
Qed.

Lemma all_lines_len es : 6 * Z.of_nat (length es) <= all_lines es.
Proof. induction es as [|e es IH]; cbn [all_lines length]; [lia|]. pose proof (ent_lines_pos e). lia. Qed.

Lemma all_lines_app a b : all_lines (a ++ b) = all_lines a + all_lines b.
Proof. induction a as [|e a IH]; cbn [all_lines app]; lia. Qed.

Lemma known_type (p : payload (Q * Q * Q)) : mem (type_no p) known_types = true.
Proof. destruct p; reflexivity. Qed.

(** Reading a record begins with a line of the Parameter Data Section. *)
Definition first_P {A} (F : stream -> pres (A * stream)) : Prop :=
  forall f a g, F f = POk (a, g) -> exists rec f', ReadIGESRecord f = POk (rec, f') /\ r_sec rec = "P"%char.

Lemma first_frame {A} (parse : str -> nat -> pres (A * nat * bool)) etype seq k n pd rd : 1 <= k -> 1 <= n ->
  first_P (readPD_frame parse etype seq k n pd rd).
Proof.
  intros K N f a g H. unfold readPD_frame, readPD_base in H. apply pbind_ok in H. destruct H as ([data f1] & H & _).
  destruct (_ && _) eqn:E in H; [lia|]. destruct (_ || _) in H; [discriminate|]. destruct (_ || _) in H; [discriminate|].
  destruct (Z.to_nat n) as [|n'] eqn:EN; [lia|]. cbn [pd_lines] in H.
  apply pbind_ok in H. destruct H as ([r f2] & R & H). apply guard_ok in H. destruct H as [G _].
  exists r, f2. split; [exact R|]. apply Ascii.eqb_eq, G.
Qed.

Lemma first_lift {A} (c : A -> payload direction) (F : stream -> pres (A * list Z * list str * stream)) : first_P F -> first_P (fun f => lift c (F f)).
Proof.
  intros L f a g H. unfold lift in H. apply pbind_ok in H. destruct H as ([[[x p] cs] f1] & H1 & H2). eapply L, H1.
Qed.

Lemma first_100 seq k n pd rd u : 1 <= k -> 1 <= n -> first_P (readPD100 seq k n pd rd u).
Proof.
  intros K N f a g H. unfold readPD100 in *. apply pbind_ok in H. destruct H as ([[[x p] cs] f1] & H1 & H2).
  eapply first_frame; [exact K|exact N|exact H1].
Qed.

Lemma first_payload t0 seq k n pd rd u : 1 <= k -> 1 <= n -> first_P (read_payload t0 seq k n pd rd u).
Proof.
  intros K N f a g H.
  assert (L : forall (F : stream -> pres (payload direction * list Z * list str * stream)), first_P F -> F f = POk (a, g) ->
    exists rec f', ReadIGESRecord f = POk (rec, f') /\ r_sec rec = "P"%char) by (intros F L; apply L).
  unfold read_payload in *.
  repeat match type of H with
  | match ?z with _ => _ end = POk _ => destruct z; try discriminate H
  end;
  first [eapply (L _ (first_lift _ _ (first_100 _ _ _ _ _ _ K N)) H) | eapply (L _ (first_lift _ _ (first_frame _ _ _ _ _ _ _ K N)) H)].
Qed.

Lemma ent_written u' u pd rd k seq e : delims pd rd -> (0 < u)%Q -> ent_ok u' u e -> 1 <= seq <= 9999999 -> 1 <= k ->
  k + ent_lines e <= 9999999 ->
  exists r, format_ent u pd rd k seq e = POk r /\ writePD r = Some (p_out r) /\ 1 <= p_count r <= ent_lines e /\
    p_next r = k + p_count r /\
    exists p, data_close u (e_data e) p /\ forall rest,
      read_payload (type_no (e_data e)) seq k (p_count r) pd rd u' (mkStream (p_out r ++ rest) false) =
        POk (p, extras_ptrs (e_extras e), [], mkStream rest false).
Proof.
  intros D U (DO & PO & EO & CO) S K B.
  destruct (payload_round u' u pd rd k seq e) as (r & ds & F & N & NE & C & X & p & G & RD); auto.
  { split; [exact D|]. split; [exact S|]. split; [exact K|exact EO]. }
  exists r. split; [exact F|].
  pose proof (ent_up _ _ _ _ _ _ _ _ PO CO F) as UP.
  destruct (numbered_len_pd _ _ _ _ N) as [LN _].
  assert (1 <= length ds)%nat by (destruct ds; [congruence|cbn [length]; lia]).
  split.
  { unfold writePD. destruct (p_out r) as [|c s] eqn:E; [cbn [length] in LN; lia|].
    rewrite LN, Nat.mul_comm, Nat.mod_mul by lia. reflexivity. }
  split; [lia|]. split; [exact X|]. exists p; auto.
Qed.

Lemma filed_sane seq k n e : dir_sane (e_dir e) -> dir_sane (filed seq k n e).
Proof. destruct e as [d p ex cs]. destruct d. intros []. constructor; assumption. Qed.

Lemma filed_fine seq k n e : dir_ok (type_no (e_data e)) (e_dir e) -> 1 <= seq <= 9999996 -> Z.Odd seq -> 1 <= k -> 1 <= n ->
  dir_fine (filed seq k n e).
Proof.
  intros (S & L & F & A & W & SB & LV) SQ O K N. split; [|exact A].
  constructor; cbn [filed d_seq d_pdata d_plevel d_count d_form d_weight d_sub]; auto; lia.
Qed.

Lemma filed_written seq k n e : dir_ok (type_no (e_data e)) (e_dir e) -> 1 <= seq <= 9999998 -> 1 <= k -> 1 <= n -> k + n <= 10000000 ->
  exists out, writeDE (filed seq k n e) = Some out.
Proof.
  intros (S & L & F & A & W & SB & LV) SQ K N B.
  apply writeDE_iff; [apply filed_sane, S|cbn [filed d_seq]; lia|].
  cbn [filed d_seq d_pdata d_plevel d_count d_form d_weight d_sub d_type d_level].
  split; [lia|]. split; [lia|]. split; [|intros _; lia].
  assert (100 <= type_no (e_data e) <= 600) by (destruct (e_data e); cbn [type_no]; lia).
  repeat (apply Forall_cons; [lia|]). constructor.
Qed.

(** All entities are written. *)
Lemma all_written u' u pd rd es : delims pd rd -> (0 < u)%Q -> Forall (ent_ok u' u) es -> forall seq k, Z.Odd seq -> 1 <= seq -> 1 <= k ->
  seq + 2 * Z.of_nat (length es) <= 9999998 -> k + all_lines es <= 9999999 ->
  exists l next d p, format_all u pd rd seq k es = POk (l, next) /\ length l = length es /\ k <= next <= k + all_lines es /\
    put_dirs l = (true, d) /\ put_records l = (true, p) /\ Forall (fun x => dir_sane (fst x) /\ dir_fine (fst x)) l.
Proof.
  intros D U. induction 1 as [|e es OK F IH]; intros seq k O S K BS B; cbn [all_lines length] in *.
  - exists [], k, [], []. repeat split; try lia. constructor.
  - pose proof (ent_lines_pos e). pose proof (all_lines_len es).
    destruct (ent_written u' u pd rd k seq e) as (r & E & WP & C & NX & _); auto; try lia.
    destruct (IH (seq + 2) (p_next r)) as (l & next & d & p & FA & LL & NB & PD & PR & FF); try lia.
    { destruct O as [x ->]. exists (x + 1). lia. }
    destruct OK as (DO & _). destruct (filed_written seq k (p_count r) e DO) as (out & WD); try lia.
    exists ((filed seq k (p_count r) e, r) :: l), next, (out ++ d), (p_out r ++ p).
    cbn [format_all put_dirs put_records]. rewrite E. cbn [pbind]. rewrite FA. cbn [pbind]. rewrite WD, WP, PD, PR.
    repeat split; try (cbn [length]; lia).
    constructor; [|exact FF]. cbn [fst]. split; [apply filed_sane, DO|apply filed_fine; auto; lia].
Qed.

(** The records of the entities [es], in front of anything else, are read. *)
Lemma records_read u' u pd rd maxgrad es : delims pd rd -> (0 < u)%Q -> Forall (ent_ok u' u) es -> forall seq k l next p ds, 1 <= seq -> 1 <= k ->
  seq + 2 * Z.of_nat (length es) <= 9999998 -> k + all_lines es <= 9999999 ->
  format_all u pd rd seq k es = POk (l, next) -> put_records l = (true, p) ->
  Forall2 (fun x i => fst i = d_type (fst x) /\ kept_by_type maxgrad (fst x) (snd i)) l ds ->
  exists ns, all_read_as u maxgrad seq k es ns /\
    (es <> [] -> forall rest, exists rec f, ReadIGESRecord (mkStream (p ++ rest) false) = POk (rec, f) /\ r_sec rec = "P"%char) /\
    forall m rest, read_records pd rd u' (ds ++ m) (mkStream (p ++ rest) false) =
      do (a, f) <- read_records pd rd u' m (mkStream rest false); POk (ns ++ a, f).
Proof.
  intros D U. induction 1 as [|e es OK F IH]; intros seq k l next p ds S K BS B FA PR F2; cbn [all_lines length format_all] in *.
  - apply pok_inj in FA. apply pair_inj in FA. destruct FA as [<- <-]. cbn [put_records] in PR. apply pair_inj in PR. destruct PR as [_ <-].
    inversion F2. subst. exists []. split; [constructor|]. split; [congruence|]. intros m rest. cbn [app].
    destruct (read_records _ _ _ _ _) as [| |[a f]]; reflexivity.
  - pose proof (ent_lines_pos e). pose proof (all_lines_len es).
    destruct (ent_written u' u pd rd k seq e) as (r & E & WP & C & NX & x & DC & RD); auto; try lia.
    rewrite E in FA. cbn [pbind] in FA. apply pbind_ok in FA. destruct FA as ([l0 k0] & FA & H').
    apply pok_inj in H'. apply pair_inj in H'. destruct H' as [<- <-]. cbn [put_records] in PR. rewrite WP in PR.
    destruct (put_records l0) as [ok t] eqn:PR0. apply pair_inj in PR. destruct PR as [-> <-].
    inversion F2 as [|? [ty i] ? ds0 [TY KT] F20]. subst. cbn [fst snd] in *.
    destruct (IH (seq + 2) (p_next r) l0 k0 t ds0) as (ns & AR & _ & RR); try lia; auto.
    exists (mkRent ty i (Some x) (extras_ptrs (e_extras e)) [] :: ns). split.
    + eapply ra_cons with (count := p_count r); [lia| |rewrite NX in AR; exact AR].
      unfold read_as. cbn [n_type n_dir n_data n_ptrs n_comments]. split; [exact TY|]. split; [exact KT|]. split; [eauto|auto].
    + split; [intros _ rest; rewrite <- app_assoc; eapply first_payload; [| |apply RD]; lia|].
      intros m rest. cbn [app read_records]. unfold read_record. rewrite TY. cbn [filed d_type]. rewrite known_type.
      assert (KE : i_seq i = seq /\ i_pdata i = k /\ i_count i = p_count r).
      { destruct KT as (i0 & fl & KD & _ & _ & -> & -> & -> & _). destruct KD as [-> -> -> _ _ _ _ _ _ _ _ _ _ _ _ _ _]. auto. }
      destruct KE as (-> & -> & ->). rewrite <- app_assoc, RD. cbn [pbind]. rewrite RR.
      destruct (read_records pd rd u' m (mkStream rest false)) as [| |[a f]]; reflexivity.
Qed.

(** *** Start and Global Section *)

Lemma padr_nl n s : ~ In nl s -> ~ In nl (padr n s).
Proof.
  unfold padr. intros N I. apply in_app_or in I. destruct I as [I|I]; [auto|]. apply repeat_spec in I. discriminate.
Qed.
Lemma padr_len s : (length s <= 72)%nat -> length (padr 72 s) = 72%nat.
Proof. intros L. unfold padr. rewrite app_length, repeat_length. lia. Qed.

Definition start_lines_of (l : list str) : list str := match l with [] => [start_default] | _ => l end.

Lemma start_written l : start_ok l -> exists lines so, fix_lines (start_lines_of l) = Some lines /\ put_lines 1 lines = Some so /\
  numbered (sec_line "S") 1 lines so /\ 1 <= Z.of_nat (length lines) <= 9999999 /\ Forall (fun x => ~ In nl x) lines /\ start_read l lines.
Proof.
  intros [F B]. set (m := start_lines_of l).
  assert (FM : Forall (fun s => (length s <= 72)%nat /\ ~ In nl s) m).
  { unfold m, start_lines_of. destruct l; [|exact F]. constructor; [|constructor]. split; [vm_compute; lia|].
    intros I. vm_compute in I. repeat (destruct I as [I|I]; [discriminate|]). contradiction. }
  assert (LM : 1 <= Z.of_nat (length m) <= 9999999) by (unfold m, start_lines_of; destruct l; cbn [length] in *; lia).
  exists (map (padr 72) m).
  destruct (put_lines_ok (map (padr 72) m) 1) as (so & PL & NB).
  { apply Forall_forall. intros x I. apply in_map_iff in I. destruct I as (y & <- & I). rewrite Forall_forall in FM. apply padr_len, FM, I. }
  { lia. } { rewrite map_length. lia. }
  exists so. split; [apply fix_short; eapply Forall_impl; [|exact FM]; intros a [H _]; exact H|].
  split; [exact PL|]. split; [exact NB|]. split; [rewrite map_length; lia|]. split.
  { apply Forall_forall. intros x I. apply in_map_iff in I. destruct I as (y & <- & I). rewrite Forall_forall in FM. apply padr_nl, FM, I. }
  unfold start_read, m, start_lines_of. destruct l as [|a l]; [reflexivity|]. clear - F.
  assert (P : forall x, (length x <= 72)%nat -> length (padr 72 x) = 72%nat /\ exists b, padr 72 x = x ++ b /\ blanks b).
  { intros x L. split; [apply padr_len, L|]. unfold padr. eexists. split; [reflexivity|].
    apply Forall_forall. intros y I. apply repeat_spec in I. exact I. }
  revert F. generalize (a :: l). intros z F. induction F as [|y z' [L _] F IH]; cbn [map]; constructor; auto.
Qed.

Lemma head_back d name ver now rest nxt f2 : head_ok d name ver now ->
  ReadIGESRecord (mkStream rest false) = POk (nxt, f2) -> r_sec nxt = "D"%char ->
  exists lines so gs ng g' rec f1, fix_lines (start_lines_of (d_start d)) = Some lines /\ put_lines 1 lines = Some so /\
    writeGlobals (with_name (d_glob d) name) ver now = POk (gs, ng) /\
    1 <= Z.of_nat (length lines) <= 9999999 /\ 0 <= ng <= 9999998 /\ start_read (d_start d) lines /\
    reads_back (with_name (d_glob d) name) ver now g' /\
    read_start [] (mkStream (so ++ gs ++ rest) false) = POk (lines, rec, f1) /\
    readGlobals rec 0 init_globals f1 = POk (g', ng, nxt, f2).
Proof.
  intros (SO & GO & DR & MR) RR SD.
  destruct (start_written _ SO) as (lines & so & FL & PL & NB & LB & NN & SR).
  destruct (globals_written_back _ ver now rest nxt f2 GO DR) as (gs & ng & g' & WG & RS & RB); auto.
  { destruct MR as [[_ MR]|MR]; auto. } { rewrite SD. discriminate. }
  destruct (writeGlobals_text _ ver now GO) as (gs' & ng' & ? & gl & ? & ? & WG' & _ & EN & BN & _).
  rewrite WG in WG'. apply pok_inj in WG'. apply pair_inj in WG'. destruct WG' as [<- <-].
  destruct (section_parse _ ver now rest nxt f2 GO RR) as (gs' & n' & ? & ? & ? & rec & f1 & WG' & RG & SG & _); [rewrite SD; discriminate|].
  rewrite WG in WG'. apply pok_inj in WG'. apply pair_inj in WG'. destruct WG' as [<- <-].
  unfold read_section in RS. rewrite RG in RS. cbn [pbind] in RS.
  exists lines, so, gs, ng, g', rec, f1. split; [exact FL|]. split; [exact PL|]. split; [exact WG|]. split; [exact LB|].
  split; [lia|]. split; [exact SR|]. split; [exact RB|]. split; [|exact RS].
  apply read_start_iff. destruct lines as [|ln lines]; [cbn [length] in LB; lia|]. exists ln, lines.
  split; [reflexivity|]. split; [|exact SG]. cbn [length].
  apply numbered_records; auto; [lia|]. rewrite SG. discriminate.
Qed.

(** *** Terminate Section *)

Lemma t_line_back ns ng nd np : 0 <= ns <= 9999999 -> 0 <= ng <= 9999999 -> 0 <= nd <= 9999999 -> 0 <= np <= 9999999 ->
  exists t, t_line ns ng nd np = Some t /\ (forall rest, readTS (mkStream (t ++ rest) false) = POk [ns; ng; nd; np]).
Proof.
  intros A B C D.
  assert (X : exists t, t_line ns ng nd np = Some t).
  { unfold t_line. rewrite !FormatDEInt_in by lia. eauto. }
  destruct X as (t & X). exists t. split; [exact X|]. intros rest.
  destruct (t_line_some ns ng nd np t A B C D X) as (cs & cg & cd & cp & L & C1 & C2 & C3 & C4).
  apply readTS_iff. do 2 eexists. split.
  - apply (sec_line_read "T" 1 _ t rest L); [unfold section_letter; auto 10|lia|].
    pose proof (column_no_nl _ _ _ C1). pose proof (column_no_nl _ _ _ C2). pose proof (column_no_nl _ _ _ C3). pose proof (column_no_nl _ _ _ C4).
    intros [I|I]; [discriminate|]. apply in_app_or in I. destruct I as [I|[I|I]]; [auto|discriminate|].
    apply in_app_or in I. destruct I as [I|[I|I]]; [auto|discriminate|].
    apply in_app_or in I. destruct I as [I|[I|I]]; [auto|discriminate|].
    apply in_app_or in I. destruct I as [I|I]; [auto|]. apply repeat_spec in I. discriminate.
  - exists cs, cg, cd, cp, (repeat sp 40). split; [reflexivity|].
    split; [apply column_seven, C1|]. split; [apply column_seven, C2|]. split; [apply column_seven, C3|].
    split; [apply column_seven, C4|apply repeat_length].
Qed.

(** *** The file *)

Lemma head_of_dirs x l d rest : put_dirs (x :: l) = (true, d) -> 1 <= d_seq (fst x) ->
  exists rec f1, ReadIGESRecord (mkStream (d ++ rest) false) = POk (rec, f1) /\ r_sec rec = "D"%char /\ r_idx rec = d_seq (fst x) /\
    (length d <= 81 + length (s_rest f1))%nat.
Proof.
  destruct x as [x pr]. cbn [put_dirs fst]. destruct (writeDE x) as [out|] eqn:W; [|discriminate].
  destruct (put_dirs l) as [ok t]. intros P S1. apply pair_inj in P. destruct P as [-> <-].
  rewrite <- app_assoc. destruct (one_dir x out (t ++ rest) W S1) as (LO & rec & f1 & RR & SC & IX & LS & _).
  exists rec, f1. split; [exact RR|]. split; [exact SC|]. split; [exact IX|]. rewrite !app_length in *. lia.
Qed.

Lemma minRes_name g name : minResolution (with_name g name) = minResolution g. Proof. reflexivity. Qed.

Lemma file_round d name ver now t over name2 : doc_ok d name ver now -> opened t over = true ->
  exists s st g' ns ng np, Write d name ver now t over = POk (true, Old s) /\
    read_file [] 0 init_globals name2 (mkStream s false) =
      POk (st, with_name g' name2, ns, [Z.of_nat (length st); ng; 2 * Z.of_nat (length (d_ents d)); np]) /\
    start_read (d_start d) st /\ reads_back (with_name (d_glob d) name) ver now g' /\
    all_read_as (minResolution (d_glob d)) (maxLinewidthGrad g') 1 1 (d_ents d) ns.
Proof.
  intros (HO & NE & AL & EO) OP. pose proof HO as (SO & GO & DR & MR). rewrite minRes_name in *.
  set (g := d_glob d) in *. set (u := minResolution g) in *.
  assert (D : delims (pdelim g) (rdelim g)) by apply GO.
  assert (U : (0 < u)%Q) by (destruct MR as [[A _]|A]; [exact A|eapply Qlt_le_trans; [|exact A]; reflexivity]).
  (* the settings can be read, whatever follows *)
  assert (G0 : exists g0, reads_back (with_name g name) ver now g0).
  { destruct (t_line_back 0 0 0 0) as (tl & _ & TR); try lia. specialize (TR []).
    assert (R : exists data f', ReadIGESRecord (mkStream (tl ++ []) false) = POk (mkRec data "T" 1, f')).
    { apply readTS_iff in TR. destruct TR as (data & f' & R & _). eauto. }
    destruct R as (data & f' & R).
    destruct (globals_written_back _ ver now _ _ _ GO DR ltac:(destruct MR as [[_ X]|X]; auto) R ltac:(discriminate)) as (_ & _ & g0 & _ & _ & RB).
    eauto. }
  destruct G0 as (g0 & RB0). pose proof (all_lines_len (d_ents d)) as LE.
  destruct (all_written _ u (pdelim g) (rdelim g) (d_ents d) D U (EO g0 RB0) 1 1) as (l & next & dd & p & FA & LL & NB & PD & PR & FF);
    [exists 0; reflexivity|lia|lia|lia|lia|].
  assert (NL : l <> []) by (intros ->; destruct (d_ents d); [congruence|discriminate LL]).
  destruct l as [|x l]; [congruence|]. clear NL.
  assert (SQ : d_seq (fst x) = 1).
  { destruct (d_ents d) as [|e es]; [congruence|]. cbn [format_all] in FA. apply pbind_ok in FA. destruct FA as (r & _ & FA).
    apply pbind_ok in FA. destruct FA as ([l0 k0] & _ & FA). apply pok_inj in FA. apply pair_inj in FA. destruct FA as [FA _].
    injection FA as <- _. reflexivity. }
  assert (TL : forall ns ng, 0 <= ns <= 9999999 -> 0 <= ng <= 9999998 -> exists tl,
    t_line ns ng (2 * Z.of_nat (length (x :: l))) (next - 1) = Some tl /\
    forall rest, readTS (mkStream (tl ++ rest) false) = POk [ns; ng; 2 * Z.of_nat (length (x :: l)); next - 1]).
  { intros ns ng A B. apply t_line_back; lia. }
  (* lengths of the sections do not depend on what follows *)
  destruct (start_written _ SO) as (lines & so & FL & PL & _ & LB & _ & _).
  destruct (writeGlobals_text _ ver now GO) as (gs & ng & ? & gl & ? & ? & WG & _ & EN & BN & _).
  destruct (TL (Z.of_nat (length lines)) ng ltac:(lia) ltac:(lia)) as (tl & ET & RT).
  set (rest := dd ++ p ++ tl).
  destruct (head_of_dirs x l dd (p ++ tl) PD ltac:(lia)) as (rec1 & f2 & R1 & SD & IX & LS). rewrite SQ in IX.
  destruct (head_back d name ver now rest rec1 f2 HO R1 SD) as (lines' & so' & gs' & ng' & g' & rec & f1 & FL' & PL' & WG' & _ & _ & SR & RB & RST & RGL).
  rewrite FL in FL'. apply some_inj in FL'. subst lines'. rewrite PL in PL'. apply some_inj in PL'. subst so'.
  fold g in WG'. rewrite WG in WG'. apply pok_inj in WG'. apply pair_inj in WG'. destruct WG' as [<- <-].
  exists (so ++ gs ++ rest), lines, g'.
  destruct (dirs_read (maxLinewidthGrad g') (x :: l) dd PD FF) as (LD & ds & F2 & RD).
  destruct (records_read (minResolution g') u (pdelim g) (rdelim g) (maxLinewidthGrad g') (d_ents d) D U (EO g' RB) 1 1 (x :: l) next p ds)
    as (ns & AR & RP & RR); try lia; auto.
  exists ns, ng, (next - 1). split.
  { unfold Write. destruct (d_ents d) as [|e es] eqn:EE; [congruence|]. fold g. cbv zeta. fold u. rewrite FA, OP.
    unfold put_file. fold (start_lines_of (d_start d)). rewrite FL, PL, WG. unfold put_entities. rewrite PD, PR. cbn [negb].
    rewrite ET. reflexivity. }
  split; [|auto].
  destruct RB as (EP & ER & _). cbn [with_name pdelim rdelim] in EP, ER.
  unfold read_file. rewrite RST. cbn [pbind]. rewrite RGL. cbn [pbind]. rewrite SD, IX. change (Ascii.eqb "D" "D") with true.
  change (1 =? 1) with true. cbn [guard].
  assert (FU : exists fuel, S (length (s_rest f2)) = (length (x :: l) + fuel)%nat).
  { exists (S (length (s_rest f2)) - length (x :: l))%nat. cbn [length] in *. lia. }
  destruct FU as (fuel & FU). rewrite FU. specialize (RD (p ++ tl) fuel f2). unfold dirs_from at 1 in RD. rewrite R1 in RD. cbn [pbind] in RD.
  rewrite RD. clear RD. specialize (RR [] tl). rewrite app_nil_r in RR. cbn [read_records pbind] in RR.
  destruct (RP NE tl) as (rec2 & f3 & R2 & SP).
  unfold dirs_from. rewrite R2. cbn [pbind].
  assert (RN : read_dirs fuel (maxLinewidthGrad g') rec2 f3 (mkStream (p ++ tl) false) = POk ([], rec2, mkStream (p ++ tl) false)).
  { destruct fuel; cbn [read_dirs]; rewrite SP; reflexivity. }
  rewrite RN. cbn [pbind]. rewrite app_nil_r, SP. change (Ascii.eqb "P" "P") with true. cbn [guard].
  rewrite EP, ER. fold g. rewrite RR. cbn [pbind]. specialize (RT []). rewrite app_nil_r in RT. rewrite RT. cbn [pbind]. rewrite LL, app_nil_r. reflexivity.
Qed.
