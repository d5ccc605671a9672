(** Writing the Global Section and reading it back. *)

From Coq Require Import Lia ZifyBool ZifyNat ZifyN QArith Qabs.
From Verif Require Import Base Num Spec NumFacts IoModel FieldFacts LineFacts TokenFacts RealFacts RecordFacts
  ParamFacts PutModel BuildFacts StreamFacts PdModel PdFacts GlobalModel DateFacts GlobalFacts GlobSpec.
Open Scope Z_scope.

Ltac Zify.zify_post_hook ::= Z.div_mod_to_equations.

(** ** The parameters written *)

Definition date18 (g : globals) (now : str) : str :=
  match checkDate (creationDate g) with Some true => creationDate g | _ => now end.

Definition head_params (g : globals) (uname ver d18 : str) : list param :=
  [ PStr (or_none (productIDSS g)); PStr (fileName g); PStr (or_none (nativeSystemID g));
    PStr ver; PInt 32; PInt 38; PInt 6; PInt 308; PInt 15;
    PStr (productIDRS g); PReal (modelScale g); PInt (unitsFlag g); PStr uname;
    PInt (grad16 g); PReal (inject_Z (grad17 g)); PStr d18;
    PReal (eff_res g); PReal 0;
    PStr (author g); PStr (organization g); PInt 11; PInt (draftStandard g) ].

Definition tail_params (g : globals) (now : str) : list param :=
  match applicationNote g with [] => [PStr now] | note => [PStr now; PStr note] end.

Lemma wrote_int uir n : wrote uir (PInt n) (PInt n).
Proof. reflexivity. Qed.

Lemma wrote_zero uir : wrote uir (PReal 0) (PReal 0).
Proof.
  split; [|reflexivity]. split; [reflexivity|]. intros H. exfalso. revert H. unfold Qle. cbn. lia.
Qed.

Lemma zero_text : param_text (PReal 0) (S2 "0.0").
Proof.
  apply (real_numeral_intro false ["0"%char] ["0"%char] [] 0 0).
  - discriminate. - repeat constructor; cbn; lia. - repeat constructor; cbn; lia.
  - left; auto. - left; discriminate. - left; reflexivity. - reflexivity.
Qed.

Lemma gr_int uir n d : is_int n -> grenders uir d (GInt n d) (PInt n).
Proof.
  intros R. apply gr_item; [apply showZ_signed|apply wrote_int|reflexivity|].
  pose proof (showZ_len_int n R). lia.
Qed.

Lemma glob_acts_render g uname ver d18 now : is_int (maxLinewidthGrad g) -> is_int (draftStandard g) -> is_int (unitsFlag g) ->
  pdelim g <> rdelim g ->
  exists acts a ps p, glob_acts g uname ver d18 now = acts ++ [a] /\
    head_params g uname ver d18 ++ tail_params g now = ps ++ [p] /\
    Forall2 (grenders (eff_res g) (pdelim g)) acts ps /\ grenders (eff_res g) (rdelim g) a p.
Proof.
  intros R1 R2 R3 NE.
  assert (R4 : is_int (grad16 g)) by (unfold grad16, is_int in *; destruct (_ <? _); lia).
  assert (H : exists acts, glob_acts g uname ver d18 now = acts ++ match applicationNote g with
      [] => [GText now (rdelim g)] | note => [GText now (pdelim g); GText note (rdelim g)] end /\
      Forall2 (grenders (eff_res g) (pdelim g)) acts (head_params g uname ver d18)).
  { eexists. split.
    - unfold glob_acts. cbv zeta. f_equal. destruct (applicationNote g); [|reflexivity].
      destruct (Ascii.eqb_spec (rdelim g) (pdelim g)); [congruence|reflexivity].
    - unfold head_params.
      repeat (constructor; [first [apply gr_text|apply gr_real|apply gr_int; first [assumption|unfold is_int; lia]|
         apply gr_item; [first [apply zero_text|apply (showZ_signed 11)]|first [apply wrote_zero|apply wrote_int]|reflexivity|cbn; lia]]|]).
      constructor. }
  destruct H as (acts & E & F). unfold tail_params. destruct (applicationNote g) as [|c note].
  - exists acts, (GText now (rdelim g)), (head_params g uname ver d18), (PStr now). repeat split; auto. apply gr_text.
  - exists (acts ++ [GText now (pdelim g)]), (GText (c :: note) (rdelim g)), (head_params g uname ver d18 ++ [PStr now]), (PStr (c :: note)).
    split; [rewrite E, <- app_assoc; reflexivity|]. split; [rewrite <- app_assoc; reflexivity|].
    split; [|apply gr_text]. apply Forall2_app; [exact F|]. repeat constructor.
Qed.

(** ** Sizes *)

Lemma eff_res_pos g : (1 # 1000000000000 <= eff_res g)%Q.
Proof.
  unfold eff_res, Qltb. destruct (Qle_bool (1 # 1000000000000) (minResolution g)) eqn:E; cbn [negb].
  - apply Qle_bool_iff, E.
  - unfold Qle. cbn. lia.
Qed.

Lemma eff_res_resolution g : resolution g (eff_res g).
Proof.
  unfold resolution, eff_res, Qltb. destruct (Qle_bool (1 # 1000000000000) (minResolution g)) eqn:E; cbn [negb].
  - right. split; [apply Qle_bool_iff, E|reflexivity].
  - left. split; [apply Qle_bool_false, E|reflexivity].
Qed.

Lemma eff_res_big g : (minResolution g <= T 300)%Q -> (Qabs (eff_res g) <= T 300)%Q.
Proof.
  intros H. rewrite Qabs_pos by (eapply Qle_trans; [|apply eff_res_pos]; discriminate).
  unfold eff_res. destruct (Qltb _ _); [|exact H].
  apply Qle_bool_iff. vm_compute. reflexivity.
Qed.

Lemma or_none_len s : (length (or_none s) <= length s + 4)%nat.
Proof. destruct s; cbn; lia. Qed.

Lemma int_T300 n : is_int n -> (Qabs (inject_Z n) <= T 300)%Q.
Proof.
  intros R. apply Qle_trans with (inject_Z 10000000000).
  - unfold is_int in R. unfold Qle, Qabs, inject_Z. cbn. lia.
  - apply Qle_bool_iff. vm_compute. reflexivity.
Qed.

Lemma costs_texts g uname ver d18 now : (length uname <= 4)%nat -> (length d18 <= 15 + length (creationDate g))%nat -> (length now <= 15)%nat ->
  texts_length g ver <= 600000000 ->
  costs (head_params g uname ver d18 ++ tail_params g now) <= 9999990.
Proof.
  intros U D N T. unfold texts_length in T. pose proof (or_none_len (productIDSS g)). pose proof (or_none_len (nativeSystemID g)).
  rewrite costs_app. unfold head_params, tail_params.
  assert (C : costs (match applicationNote g with [] => [PStr now] | a :: l => [PStr now; PStr (a :: l)] end)
              <= str_cost now + str_cost (applicationNote g)).
  { pose proof (cost_pos (PStr (applicationNote g))) as P. cbn [cost] in P.
    destruct (applicationNote g); rewrite !costs_cons; change (costs []) with 0; cbn [cost]; lia. }
  rewrite !costs_cons. change (costs []) with 0. cbn [cost]. unfold str_cost in *. lia.
Qed.

(** ** Writing *)

Lemma calendar_len d : calendar_date d -> length d = 13%nat \/ length d = 15%nat.
Proof.
  intros (y & m & dd & h & mi & s & vy & vm & vd & vh & vi & vs & -> & Hy & Hm & Hd & Hh & Hmi & Hs & _).
  rewrite !app_length. cbn [length]. rewrite !app_length. lia.
Qed.

Lemma unit_name_abbrev u : 1 <= u <= 11 -> unit_name u = Some (S2 (unit_abbrev u)).
Proof.
  intros H. assert (C : u = 1 \/ u = 2 \/ u = 3 \/ u = 4 \/ u = 5 \/ u = 6 \/ u = 7 \/ u = 8 \/ u = 9 \/ u = 10 \/ u = 11) by lia.
  repeat destruct C as [-> | C]; try reflexivity. subst. reflexivity.
Qed.

Lemma unit_abbrev_ok u : 1 <= u <= 11 -> (1 <= length (S2 (unit_abbrev u)) <= 4)%nat /\ ~ In nl (S2 (unit_abbrev u)).
Proof.
  intros H. assert (C : u = 1 \/ u = 2 \/ u = 3 \/ u = 4 \/ u = 5 \/ u = 6 \/ u = 7 \/ u = 8 \/ u = 9 \/ u = 10 \/ u = 11) by lia.
  repeat destruct C as [-> | C]; try subst u; (split; [cbn; lia|cbn; intros I; repeat destruct I as [I|I]; try discriminate; exact I]).
Qed.

Lemma unit_mm_ratio u : 1 <= u <= 11 -> unit_mm u = Some (mm_per_unit u).
Proof.
  intros H. assert (C : u = 1 \/ u = 2 \/ u = 3 \/ u = 4 \/ u = 5 \/ u = 6 \/ u = 7 \/ u = 8 \/ u = 9 \/ u = 10 \/ u = 11) by lia.
  repeat destruct C as [-> | C]; try reflexivity. subst. reflexivity.
Qed.

Lemma digits_no_nl s v : numeral s v -> ~ In nl s.
Proof. intros (_ & F & _) I. rewrite Forall_forall in F. apply F in I. unfold isdig in I. cbn in I. lia. Qed.

Lemma calendar_one_line d : calendar_date d -> ~ In nl d.
Proof.
  intros (y & m & dd & h & mi & s & vy & vm & vd & vh & vi & vs & -> & Hy & Hm & Hd & Hh & Hmi & Hs &
      Py & Pm & Bm & Pd & Bd & Ph & Bh & Pi & Bi & Ps & Bs) I.
  assert (N : forall s v, numeral s v -> In nl s -> False) by (intros s0 v0 N; apply (digits_no_nl _ _ N)).
  apply in_app_or in I; destruct I as [I|I]; [exact (N _ _ Py I)|].
  apply in_app_or in I; destruct I as [I|I]; [exact (N _ _ Pm I)|].
  apply in_app_or in I; destruct I as [I|I]; [exact (N _ _ Pd I)|].
  destruct I as [I|I]; [discriminate|].
  apply in_app_or in I; destruct I as [I|I]; [exact (N _ _ Ph I)|].
  apply in_app_or in I; destruct I as [I|I]; [exact (N _ _ Pi I)|exact (N _ _ Ps I)].
Qed.

(** ** Reading *)

Lemma glob_head_no_nl pd rd : delims pd rd -> ~ In nl (glob_head pd rd).
Proof.
  intros (D1 & D2 & _) I. apply delim_not_nl in D1, D2. unfold glob_head in I.
  destruct (Ascii.eqb pd ","), (Ascii.eqb rd ";"); cbn [In app S2 list_ascii_of_string] in I;
    decompose [or] I; try discriminate; congruence || contradiction.
Qed.

Lemma good_delim c : delim_char c -> c <> ";"%char -> bad_delim c = false.
Proof.
  intros (R & ND & N1 & N2 & N3 & N4 & N5 & N6) NS. unfold bad_delim, isdig in *.
  assert (E : forall x, c <> x -> Ascii.eqb c x = false) by (intros; apply Ascii.eqb_neq; auto).
  rewrite !E by auto. lia.
Qed.

Lemma read_delims_head pd rd rest : delims pd rd -> (pd = ","%char /\ rd = ";"%char \/ pd <> ","%char /\ pd <> ";"%char) ->
  read_delims (glob_head pd rd ++ rest) "," ";" = POk (pd, rd, length (glob_head pd rd)).
Proof.
  intros (D1 & D2 & NE) H. unfold glob_head, read_delims. destruct H as [[-> ->]|[H1 H2]].
  - reflexivity.
  - assert (E1 : Ascii.eqb pd "," = false) by (apply Ascii.eqb_neq; auto).
    assert (E3 : Ascii.eqb "1" pd = false).
    { apply Ascii.eqb_neq. intros <-. destruct D1 as (_ & ND & _). apply ND. unfold isdig. cbn. lia. }
    assert (E0 : Ascii.eqb "1" "," = false) by reflexivity.
    assert (G := good_delim _ D1 H2).
    rewrite E1. destruct (Ascii.eqb_spec rd ";") as [->|N]; cbn -[bad_delim Ascii.eqb];
      repeat (first [rewrite E0|rewrite G|rewrite E3|rewrite Ascii.eqb_refl]; cbn -[bad_delim Ascii.eqb]); reflexivity.
Qed.

(** A delimiter other than the default one for records only. *)
Lemma read_delims_bad rd rest : rd <> ";"%char -> read_delims (glob_head "," rd ++ rest) "," ";" = PFail.
Proof.
  intros N. unfold glob_head, read_delims. destruct (Ascii.eqb_spec rd ";"); [congruence|]. reflexivity.
Qed.

Section Steps.
Variables (pd rd : ascii) (data : str) (n : nat).
Hypothesis D : delims pd rd.
Notation cur := (cursor pd rd data n).

Lemma s_text idx eor s ps : cur idx eor (PStr s :: ps) -> s <> [] ->
  exists i e, text_req data idx eor pd rd = POk (s, i, e) /\ cur i e ps.
Proof using D.
  intros C N. destruct (step_str pd rd D _ _ _ _ _ _ C) as (i & e & P & C'). exists i, e. split; [|exact C'].
  unfold text_req. rewrite P. cbn [pbind]. destruct s; [congruence|reflexivity].
Qed.

Lemma s_int_in lo hi idx eor k ps : cur idx eor (PInt k :: ps) -> is_int k -> lo <= k <= hi ->
  exists i e, int_in lo hi data idx eor pd rd = POk (k, i, e) /\ cur i e ps.
Proof using D.
  intros C R B. destruct (step_int pd rd D _ _ _ _ _ _ None C R) as (i & e & P & C'). exists i, e. split; [|exact C'].
  unfold int_in. rewrite P. cbn [pbind]. replace ((lo <=? k) && (k <=? hi)) with true by lia. reflexivity.
Qed.

Lemma read_a_ok idx ss fn ns pv rs ps :
  cur idx false (PStr ss :: PStr fn :: PStr ns :: PStr pv :: PInt 32 :: PInt 38 :: PInt 6 :: PInt 308 :: PInt 15 :: PStr rs :: ps) ->
  ss <> [] -> fn <> [] -> ns <> [] ->
  exists i e, read_a data idx pd rd = POk (mkA ss fn ns pv 32 38 6 308 15 rs, i, e) /\ cur i e ps.
Proof using D.
  intros C N1 N2 N3. unfold read_a.
  destruct (s_text _ _ _ _ C N1) as (i1 & e1 & P & C1). rewrite P. cbn [pbind]. clear P C.
  destruct (s_text _ _ _ _ C1 N2) as (i2 & e2 & P & C2). rewrite P. cbn [pbind]. clear P C1.
  destruct (s_text _ _ _ _ C2 N3) as (i3 & e3 & P & C3). rewrite P. cbn [pbind]. clear P C2.
  destruct (step_str pd rd D _ _ _ _ _ _ C3) as (i4 & e4 & P & C4). rewrite P. cbn [pbind]. clear P C3.
  destruct (s_int_in 8 32 _ _ _ _ C4 ltac:(unfold is_int; lia) ltac:(lia)) as (i5 & e5 & P & C5). rewrite P. cbn [pbind]. clear P C4.
  destruct (s_int_in 4 308 _ _ _ _ C5 ltac:(unfold is_int; lia) ltac:(lia)) as (i6 & e6 & P & C6). rewrite P. cbn [pbind]. clear P C5.
  destruct (s_int_in 3 16 _ _ _ _ C6 ltac:(unfold is_int; lia) ltac:(lia)) as (i7 & e7 & P & C7). rewrite P. cbn [pbind]. clear P C6.
  destruct (s_int_in 4 308 _ _ _ _ C7 ltac:(unfold is_int; lia) ltac:(lia)) as (i8 & e8 & P & C8). rewrite P. cbn [pbind]. clear P C7.
  destruct (s_int_in 3 16 _ _ _ _ C8 ltac:(unfold is_int; lia) ltac:(lia)) as (i9 & e9 & P & C9). rewrite P. cbn [pbind]. clear P C8.
  destruct (step_str pd rd D _ _ _ _ _ _ C9) as (i10 & e10 & P & C10). rewrite P. cbn [pbind]. clear P C9.
  eauto.
Qed.

Lemma read_b_ok idx eor ms uf un lg lw cd mr ps :
  cur idx eor (PReal ms :: PInt uf :: PStr un :: PInt lg :: PReal lw :: PStr cd :: PReal mr :: ps) ->
  in_double_range ms = true -> 1 <= uf <= 11 -> un = S2 (unit_abbrev uf) -> is_int lg -> 1 <= lg ->
  in_double_range lw = true -> (0 <= lw)%Q -> accepted_date cd -> in_double_range mr = true -> (0 < mr)%Q ->
  exists b i e, read_b data idx eor pd rd = POk (b, i, e) /\ cur i e ps /\
    (b_ms b == ms)%Q /\ b_uf b = uf /\ b_un b = un /\ b_lg b = lg /\ (b_lw b == lw)%Q /\ b_cd b = cd /\ (b_mr b == mr)%Q.
Proof using D.
  intros C R1 U EU R2 L R3 W A R4 M. unfold read_b.
  destruct (step_real pd rd D _ _ _ _ _ _ (Some (1 # 1)%Q) C R1) as (ms' & i1 & e1 & Q1 & P & C1). rewrite P. cbn [pbind]. clear P C.
  destruct (step_int pd rd D _ _ _ _ _ _ (Some 1) C1 ltac:(lia)) as (i2 & e2 & P & C2). rewrite P. cbn [pbind]. clear P C1.
  replace ((1 <=? uf) && (uf <=? 11)) with true by lia. cbn [guard].
  destruct (step_str pd rd D _ _ _ _ _ _ C2) as (i3 & e3 & P & C3). rewrite P. cbn [pbind]. clear P C2.
  assert (RU : read_unit_name uf un = POk un).
  { unfold read_unit_name. destruct (unit_abbrev_ok _ U) as [UL _]. rewrite <- EU in UL.
    rewrite (unit_name_abbrev _ U), <- EU. destruct un; [cbn in UL; lia|]. destruct (uf =? 3); reflexivity. }
  rewrite RU. cbn [pbind].
  destruct (step_int pd rd D _ _ _ _ _ _ (Some 1) C3 R2) as (i4 & e4 & P & C4). rewrite P. cbn [pbind]. clear P C3.
  replace (1 <=? lg) with true by lia. cbn [guard].
  destruct (step_real pd rd D _ _ _ _ _ _ None C4 R3) as (lw' & i5 & e5 & Q5 & P & C5). rewrite P. cbn [pbind]. clear P C4.
  replace (Qle_bool 0 lw') with true by (symmetry; apply Qle_bool_iff; rewrite Q5; exact W). cbn [guard].
  assert (NC : cd <> []).
  { intros ->. destruct A as (y & m & dd & h & mi & s & vy & vm & vd & vh & vi & vs & E & _).
    apply (f_equal (@length ascii)) in E. rewrite !app_length in E. cbn in E. lia. }
  destruct (s_text _ _ _ _ C5 NC) as (i6 & e6 & P & C6). rewrite P. cbn [pbind]. clear P C5.
  unfold date_ok. rewrite (proj2 (checkDate_iff cd) A). cbn [pbind].
  destruct (step_real pd rd D _ _ _ _ _ _ None C6 R4) as (mr' & i7 & e7 & Q7 & P & C7). rewrite P. cbn [pbind]. clear P C6.
  assert (QM : Qle_bool mr' 0 = false).
  { destruct (Qle_bool mr' 0) eqn:E; [|reflexivity]. apply Qle_bool_iff in E. rewrite Q7 in E. exfalso. apply (Qlt_not_le _ _ M E). }
  rewrite QM. cbn [negb guard].
  eexists. exists i7, e7. split; [reflexivity|]. cbn [b_ms b_uf b_un b_lg b_lw b_cd b_mr]. auto 10.
Qed.

Lemma read_c_ok idx eor mc au og dr md tail :
  cur idx eor (PReal mc :: PStr au :: PStr og :: PInt 11 :: PInt dr :: PStr md :: tail) ->
  in_double_range mc = true -> (0 <= mc)%Q -> is_int dr -> accepted_date md ->
  match tail with [] => True | [PStr _] => True | _ => False end ->
  exists c, read_c data idx eor pd rd = POk c /\
    (c_mc c == mc)%Q /\ c_au c = au /\ c_og c = og /\ c_iv c = 11 /\ c_dr c = dr /\ c_md c = md /\
    c_an c = match tail with [PStr s] => s | _ => [] end /\
    c_full c = match tail with [] => false | _ => true end.
Proof using D.
  intros C R1 M RD A TL. pose proof (cursor_open _ _ _ _ _ _ _ _ C) as ->. unfold read_c. cbn [unless_eor].
  unfold real_nonneg.
  destruct (step_real pd rd D _ _ _ _ _ _ (Some (0 # 1)%Q) C R1) as (mc' & i1 & e1 & Q1 & P & C1). rewrite P. cbn [pbind]. clear P C.
  replace (Qle_bool 0 mc') with true by (symmetry; apply Qle_bool_iff; rewrite Q1; exact M). cbn [guard pbind].
  pose proof (cursor_open _ _ _ _ _ _ _ _ C1) as ->. cbn [unless_eor].
  destruct (step_str pd rd D _ _ _ _ _ _ C1) as (i2 & e2 & P & C2). rewrite P. cbn [pbind]. clear P C1.
  pose proof (cursor_open _ _ _ _ _ _ _ _ C2) as ->. cbn [unless_eor].
  destruct (step_str pd rd D _ _ _ _ _ _ C2) as (i3 & e3 & P & C3). rewrite P. cbn [pbind]. clear P C2.
  pose proof (cursor_open _ _ _ _ _ _ _ _ C3) as ->. cbn [unless_eor]. unfold version.
  destruct (step_int pd rd D _ _ _ _ _ _ (Some 11) C3 ltac:(lia)) as (i4 & e4 & P & C4). rewrite P. cbn [pbind]. clear P C3.
  pose proof (cursor_open _ _ _ _ _ _ _ _ C4) as ->. cbn [unless_eor].
  destruct (step_int pd rd D _ _ _ _ _ _ (Some 0) C4 RD) as (i5 & e5 & P & C5). rewrite P. cbn [pbind]. clear P C4.
  pose proof (cursor_open _ _ _ _ _ _ _ _ C5) as ->. cbn [unless_eor]. unfold date_req.
  destruct (step_str pd rd D _ _ _ _ _ _ C5) as (i6 & e6 & P & C6). rewrite P. cbn [pbind]. clear P C5.
  unfold date_ok. rewrite (proj2 (checkDate_iff md) A). cbn [pbind].
  destruct tail as [|t tl].
  - destruct (cursor_end _ _ _ _ _ _ C6) as [-> _]. eexists. split; [reflexivity|]. cbn. auto 10.
  - destruct t as [|an|]; [destruct TL| |destruct TL]. destruct tl; [|destruct TL].
    pose proof (cursor_open _ _ _ _ _ _ _ _ C6) as ->.
    destruct (step_str pd rd D _ _ _ _ _ _ C6) as (i7 & e7 & P & C7). rewrite P. cbn [pbind]. clear P C6.
    destruct (cursor_end _ _ _ _ _ _ C7) as [-> _]. cbn [guard]. eexists. split; [reflexivity|]. cbn. auto 10.
Qed.

Lemma read_b_zero idx eor ms uf un lg lw cd mr ps :
  cur idx eor (PReal ms :: PInt uf :: PStr un :: PInt lg :: PReal lw :: PStr cd :: PReal mr :: ps) ->
  in_double_range ms = true -> 1 <= uf <= 11 -> un = S2 (unit_abbrev uf) -> is_int lg -> 1 <= lg ->
  in_double_range lw = true -> (0 <= lw)%Q -> accepted_date cd -> in_double_range mr = true -> (mr == 0)%Q ->
  read_b data idx eor pd rd = PFail.
Proof using D.
  intros C R1 U EU R2 L R3 W A R4 M. unfold read_b.
  destruct (step_real pd rd D _ _ _ _ _ _ (Some (1 # 1)%Q) C R1) as (ms' & i1 & e1 & Q1 & P & C1). rewrite P. cbn [pbind]. clear P C.
  destruct (step_int pd rd D _ _ _ _ _ _ (Some 1) C1 ltac:(lia)) as (i2 & e2 & P & C2). rewrite P. cbn [pbind]. clear P C1.
  replace ((1 <=? uf) && (uf <=? 11)) with true by lia. cbn [guard].
  destruct (step_str pd rd D _ _ _ _ _ _ C2) as (i3 & e3 & P & C3). rewrite P. cbn [pbind]. clear P C2.
  assert (RU : read_unit_name uf un = POk un).
  { unfold read_unit_name. destruct (unit_abbrev_ok _ U) as [UL _]. rewrite <- EU in UL.
    rewrite (unit_name_abbrev _ U), <- EU. destruct un; [cbn in UL; lia|]. destruct (uf =? 3); reflexivity. }
  rewrite RU. cbn [pbind].
  destruct (step_int pd rd D _ _ _ _ _ _ (Some 1) C3 R2) as (i4 & e4 & P & C4). rewrite P. cbn [pbind]. clear P C3.
  replace (1 <=? lg) with true by lia. cbn [guard].
  destruct (step_real pd rd D _ _ _ _ _ _ None C4 R3) as (lw' & i5 & e5 & Q5 & P & C5). rewrite P. cbn [pbind]. clear P C4.
  replace (Qle_bool 0 lw') with true by (symmetry; apply Qle_bool_iff; rewrite Q5; exact W). cbn [guard].
  assert (NC : cd <> []).
  { intros ->. destruct A as (y & m & dd & h & mi & s & vy & vm & vd & vh & vi & vs & E & _).
    apply (f_equal (@length ascii)) in E. rewrite !app_length in E. cbn in E. lia. }
  destruct (s_text _ _ _ _ C5 NC) as (i6 & e6 & P & C6). rewrite P. cbn [pbind]. clear P C5.
  unfold date_ok. rewrite (proj2 (checkDate_iff cd) A). cbn [pbind].
  destruct (step_real pd rd D _ _ _ _ _ _ None C6 R4) as (mr' & i7 & e7 & Q7 & P & C7). rewrite P. cbn [pbind]. clear P C6.
  replace (Qle_bool mr' 0) with true by (symmetry; apply Qle_bool_iff; rewrite Q7, M; apply Qle_refl). reflexivity.
Qed.
End Steps.

(** ** Collecting the lines *)

Lemma section_lines ds out rest nxt f2 : numbered (sec_line "G") 1 ds out -> ds <> [] -> ~ In nl (concat ds) ->
  ReadIGESRecord (mkStream rest false) = POk (nxt, f2) -> r_sec nxt <> "G"%char ->
  exists rec f1, ReadIGESRecord (mkStream (out ++ rest) false) = POk (rec, f1) /\ r_sec rec = "G"%char /\
    glob_lines (S (length (s_rest f1))) rec 0 f1 = POk (concat ds, Z.of_nat (length ds), nxt, f2).
Proof.
  intros N NE NN RR NG. inversion N as [|k d ds' l out' P N']; subst; [congruence|]. cbn [concat] in NN.
  assert (N1 : ~ In nl d) by (intros I; apply NN, in_or_app; auto).
  assert (N2 : ~ In nl (concat ds')) by (intros I; apply NN, in_or_app; auto).
  exists (mkRec d "G" 1), (mkStream (out' ++ rest) false). rewrite <- app_assoc.
  split; [apply sec_line_read; auto; [unfold section_letter; tauto|lia]|]. split; [reflexivity|].
  cbn [s_rest].
  rewrite (glob_lines_read 2 ds' out' N' ltac:(lia) N2 d rest nxt f2 _ NG ltac:(apply P) RR).
  - cbn [concat length]. do 4 f_equal. lia.
  - destruct (numbered_len_g _ _ _ N') as [L _]. rewrite app_length. lia.
Qed.

(** ** Normalisation *)

Lemma Qltb_iff a b : Qltb a b = true <-> (a < b)%Q.
Proof.
  unfold Qltb. split.
  - intros H. apply Qle_bool_false. destruct (Qle_bool b a); [discriminate|reflexivity].
  - intros H. destruct (Qle_bool b a) eqn:E; [|reflexivity]. apply Qle_bool_iff in E. exfalso. apply (Qlt_not_le _ _ H E).
Qed.

Lemma unit_scale_test s : Qltb s (9999998 # 10000000) || Qltb (1000001 # 1000000) s = false <-> unit_scale s.
Proof.
  unfold unit_scale. rewrite orb_false_iff. split.
  - intros [A B]. split; apply Qnot_lt_le; intros H; apply Qltb_iff in H; congruence.
  - intros [A B]. split; [destruct (Qltb s (9999998 # 10000000)) eqn:E|destruct (Qltb (1000001 # 1000000) s) eqn:E]; auto;
      apply Qltb_iff in E; exfalso; apply (Qlt_not_le _ _ E); assumption.
Qed.

Lemma unit_scale_wd a b : (a == b)%Q -> unit_scale a <-> unit_scale b.
Proof. intros E. unfold unit_scale. rewrite E. tauto. Qed.

(** Fields not touched by the normalisation. *)
Definition same_texts (a b : globals) : Prop :=
  pdelim a = pdelim b /\ rdelim a = rdelim b /\ productIDSS a = productIDSS b /\ fileName a = fileName b /\
  nativeSystemID a = nativeSystemID b /\ preprocessorVersion a = preprocessorVersion b /\
  nIntegerBits a = nIntegerBits b /\ floatMaxExp a = floatMaxExp b /\ floatMaxSig a = floatMaxSig b /\
  doubleMaxExp a = doubleMaxExp b /\ doubleMaxSig a = doubleMaxSig b /\ productIDRS a = productIDRS b /\
  unitsName a = unitsName b /\ maxLinewidthGrad a = maxLinewidthGrad b /\ maxLinewidth a = maxLinewidth b /\
  creationDate a = creationDate b /\ maxCoordinateValue a = maxCoordinateValue b /\ author a = author b /\
  organization a = organization b /\ igesVersion a = igesVersion b /\ draftStandard a = draftStandard b /\
  modificationDate a = modificationDate b /\ applicationNote a = applicationNote b.

Lemma normalise_ok g : 1 <= unitsFlag g <= 11 -> (cf g == 1)%Q -> convert g = false ->
  exists g', normalise g = POk g' /\ normalised (modelScale g) (unitsFlag g) (minResolution g) g' /\ same_texts g' g.
Proof.
  intros U CF CV. unfold normalise.
  pose proof (unit_scale_test (modelScale g)) as US.
  destruct (Qltb (modelScale g) (9999998 # 10000000) || Qltb (1000001 # 1000000) (modelScale g)) eqn:E;
    cbn [unitsFlag].
  - assert (NU : ~ unit_scale (modelScale g)) by (intros H; apply US in H; discriminate).
    destruct (Z.eqb_spec (unitsFlag g) 2) as [E2|E2].
    + eexists. split; [reflexivity|]. split; [|repeat split].
      unfold normalised. cbn [unitsFlag modelScale minResolution convert cf]. split; [exact E2|].
      split; [tauto|]. intros _. rewrite E2. cbn [mm_per_unit].
      repeat split; try reflexivity; ring.
    + rewrite (unit_mm_ratio _ U). eexists. split; [reflexivity|]. split; [|repeat split].
      unfold normalised. cbn [unitsFlag modelScale minResolution convert cf]. split; [reflexivity|].
      split; [tauto|]. intros _. repeat split; try reflexivity. unfold Qdiv. ring.
  - assert (NU : unit_scale (modelScale g)) by (apply US; reflexivity).
    destruct (Z.eqb_spec (unitsFlag g) 2) as [E2|E2].
    + eexists. split; [reflexivity|]. split; [|repeat split].
      unfold normalised. split; [exact E2|]. split; [|tauto]. intros _. rewrite E2. cbn [mm_per_unit].
      split; [reflexivity|]. split; [ring|]. split; [rewrite CV; split; [discriminate|lia]|]. rewrite CF. reflexivity.
    + rewrite (unit_mm_ratio _ U). eexists. split; [reflexivity|]. split; [|repeat split].
      unfold normalised. cbn [unitsFlag modelScale minResolution convert cf]. split; [reflexivity|].
      split; [|tauto]. intros _. split; [reflexivity|]. split; [reflexivity|]. split; [split; auto|]. rewrite CF. ring.
Qed.

Lemma close_pos r v q : real_close r v q -> (1 # 100000000 <= v)%Q -> (0 < q)%Q.
Proof.
  intros [_ H] P. assert (PV : (0 < v)%Q) by (eapply Qlt_le_trans; [|exact P]; reflexivity).
  assert (AV : (Qabs v == v)%Q) by (apply Qabs_pos, Qlt_le_weak, PV).
  destruct H as (_ & R & _); [rewrite AV; exact P|]. rewrite AV in R.
  apply Qabs_Qle_condition in R. destruct R as [R _].
  assert (X : ((999995 # 1000000) * v <= q)%Q).
  { apply (Qplus_le_l _ _ (- v)). eapply Qle_trans; [|exact R]. apply Qle_lteq. right. ring. }
  eapply Qlt_le_trans; [|exact X]. apply Qmult_lt_0_compat; [reflexivity|exact PV].
Qed.

Lemma close_wd r v q q' : (q == q')%Q -> real_close r v q -> real_close r v q'.
Proof.
  intros E [H1 H2]. split.
  - intros L. rewrite <- E. auto.
  - intros L. destruct (H2 L) as (A & B & C).
    assert (EA : (Qabs (q' - v) == Qabs (q - v))%Q) by (rewrite E; reflexivity).
    split; [rewrite EA; exact A|]. split; [rewrite EA; exact B|]. intros n k Hv Hn. rewrite <- E. eapply C; eauto.
Qed.

Section Back.
Variables (g : globals) (ver now : str).
Hypothesis OK : settings_ok g ver now.

Let pd := pdelim g.
Let rd := rdelim g.
Let d18 := date18 g now.
Let uname := S2 (unit_abbrev (unitsFlag g)).
Let params := head_params g uname ver d18 ++ tail_params g now.

Lemma date18_cases :
  (accepted_date (creationDate g) -> d18 = creationDate g) /\ (~ accepted_date (creationDate g) -> d18 = now) /\
  accepted_date d18 /\ (d18 = creationDate g \/ d18 = now).
Proof.
  destruct OK as (_ & _ & _ & _ & _ & _ & _ & MO & CN & _). unfold d18, date18.
  pose proof (checkDate_iff (creationDate g)) as CI.
  destruct (checkDate (creationDate g)) as [[|]|] eqn:E.
  - assert (A : accepted_date (creationDate g)) by (apply CI; reflexivity). tauto.
  - assert (A : ~ accepted_date (creationDate g)) by (intros A; apply CI in A; discriminate).
    pose proof (calendar_accepted _ CN). tauto.
  - exfalso. apply MO, checkDate_crash, E.
Qed.

Lemma one_line_cases x : Forall one_line [productIDSS g; fileName g; nativeSystemID g; ver; productIDRS g;
  creationDate g; author g; organization g; applicationNote g] -> In x [productIDSS g; fileName g; nativeSystemID g; ver; productIDRS g;
  creationDate g; author g; organization g; applicationNote g] -> ~ In nl x.
Proof. intros F I. rewrite Forall_forall in F. exact (F x I). Qed.

Lemma or_none_one_line s : ~ In nl s -> ~ In nl (or_none s).
Proof. destruct s; [|auto]. intros _ I. cbn in I. repeat destruct I as [I|I]; try discriminate. exact I. Qed.

Lemma params_no_nl : Forall no_nl params.
Proof.
  destruct OK as (_ & _ & U & _ & _ & _ & _ & MO & CN & OL & _).
  destruct date18_cases as (_ & _ & _ & DC). destruct (unit_abbrev_ok _ U) as [_ UN].
  assert (N18 : ~ In nl d18).
  { destruct DC as [-> | ->]; [apply (one_line_cases _ OL); cbn; tauto|apply calendar_one_line, CN]. }
  unfold params. apply Forall_app. split.
  - unfold head_params. repeat (constructor; [first [exact I|cbn; assumption|cbn; apply or_none_one_line; apply (one_line_cases _ OL); cbn; tauto|
      cbn; apply (one_line_cases _ OL); cbn; tauto]|]). constructor.
  - pose proof (calendar_one_line _ CN) as CL. assert (NA : ~ In nl (applicationNote g)) by (apply (one_line_cases _ OL); cbn; tauto).
    unfold tail_params. destruct (applicationNote g); repeat (constructor; [cbn; assumption|]); constructor.
Qed.

Lemma writeGlobals_text :
  exists out n ps' ds body tl, writeGlobals g ver now = POk (out, n) /\
    numbered (sec_line "G") 1 ds out /\ n = Z.of_nat (length ds) /\ n <= 9999998 /\
    concat ds = glob_head pd rd ++ body ++ tl /\ Forall2 (wrote (eff_res g)) params ps' /\
    spaced pd rd ps' body /\ blanks tl.
Proof.
  destruct OK as (D & FN & U & [S1 S2] & MR & I1 & I2 & MO & CN & OL & TL).
  destruct date18_cases as (_ & _ & _ & DC). destruct (unit_abbrev_ok _ U) as [UL UN].
  pose proof (calendar_len _ CN) as CL.
  unfold writeGlobals. destruct (fileName g) as [|fc fr] eqn:EF; [congruence|].
  rewrite (unit_name_abbrev _ U).
  destruct (checkDate (creationDate g)) as [ok|] eqn:CD; [|exfalso; apply MO, checkDate_crash, CD].
  assert (E18 : (if ok then creationDate g else now) = d18) by (unfold d18, date18; rewrite CD; destruct ok; reflexivity).
  cbv zeta. rewrite E18. fold uname.
  destruct (glob_acts_render g uname ver d18 now I1 I2) as (acts & a & ps & p & EA & EP & F & R).
  { unfold is_int. lia. } { apply D. }
  rewrite EA. fold params in EP.
  assert (CO : costs params <= 9999990).
  { apply costs_texts; auto; [apply UL|destruct DC as [-> | ->]; lia|lia]. }
  assert (PO : Forall param_ok params).
  { assert (IM : 600000100 <= int_max) by (unfold int_max; lia). unfold texts_length in TL.
    pose proof (or_none_len (productIDSS g)). pose proof (or_none_len (nativeSystemID g)).
    assert (DL : (length d18 <= 15 + length (creationDate g))%nat) by (destruct DC as [-> | ->]; lia).
    assert (UU : (length uname <= 4)%nat) by apply UL. rewrite EF in TL.
    unfold params. apply Forall_app. split.
    - unfold head_params. rewrite EF.
      assert (G17 : is_int (grad17 g)).
      { unfold grad17, grad16, is_int in *. destruct (Qltb _ _); [lia|]. destruct (_ <? _); lia. }
      repeat (constructor; [first [exact I|cbn [param_ok param_len]; lia|exact S2|apply int_T300, G17|apply eff_res_big, MR|
        cbn [param_ok]; unfold grad16, is_int in *; try destruct (_ <? _); lia|apply int_T300; unfold is_int; lia]|]). constructor.
    - unfold tail_params. destruct (applicationNote g); repeat (constructor; [cbn [param_ok param_len]; cbn [length] in *; lia|]); constructor. }
  rewrite EP in CO, PO.
  assert (HL : (length (glob_head (pdelim g) (rdelim g)) <= 8)%nat).
  { unfold glob_head. destruct (Ascii.eqb (pdelim g) ","), (Ascii.eqb (rdelim g) ";"); cbn; lia. }
  destruct (emit_g_close (eff_res g) (pdelim g) (rdelim g)) with (acts := acts) (ps := ps) (a := a) (p := p)
    (st := mkLst (glob_head (pdelim g) (rdelim g)) [] 1) as (st' & ps' & body & tl & EM & W & EX & SP & TB & CU & IX); auto.
  { eapply Qlt_le_trans; [|apply eff_res_pos]. reflexivity. }
  { cbn. lia. } { cbn [l_idx]. lia. } { cbn [l_cur]. lia. }
  rewrite EM. destruct EX as (ds & out & NU & O & IX2 & CC). cbn [l_idx l_out l_cur] in *. rewrite CU, app_nil_r in CC. cbn in O.
  exists (l_out st'), (l_idx st' - 1), ps', ds, body, tl. rewrite O.
  split; [reflexivity|]. split; [exact NU|]. split; [lia|]. split; [lia|]. split; [exact CC|].
  split; [rewrite EP; exact W|]. split; [exact SP|exact TB].
Qed.

(** What the parser meets. *)
Lemma params_met ps' : Forall2 (wrote (eff_res g)) params ps' ->
  exists s w m z, ps' =
   PStr (or_none (productIDSS g)) :: PStr (fileName g) :: PStr (or_none (nativeSystemID g)) :: PStr ver ::
   PInt 32 :: PInt 38 :: PInt 6 :: PInt 308 :: PInt 15 :: PStr (productIDRS g) ::
   PReal s :: PInt (unitsFlag g) :: PStr uname :: PInt (grad16 g) :: PReal w :: PStr d18 :: PReal m ::
   PReal z :: PStr (author g) :: PStr (organization g) :: PInt 11 :: PInt (draftStandard g) :: PStr now ::
   match applicationNote g with [] => [] | note => [PStr note] end /\
   wrote (eff_res g) (PReal (modelScale g)) (PReal s) /\
   wrote (eff_res g) (PReal (inject_Z (grad17 g))) (PReal w) /\
   wrote (eff_res g) (PReal (eff_res g)) (PReal m) /\ wrote (eff_res g) (PReal 0) (PReal z).
Proof.
  clear OK.
  intros F. unfold params, head_params, tail_params in F. destruct (applicationNote g) as [|c note]; cbn [app] in F;
    repeat match goal with
    | H : Forall2 _ (_ :: _) _ |- _ => inversion H; clear H; subst
    | H : Forall2 _ [] _ |- _ => inversion H; clear H; subst
    | H : wrote _ (PStr _) ?p |- _ => destruct p; cbn in H; try contradiction; subst
    | H : wrote _ (PInt _) ?p |- _ => destruct p; cbn in H; try contradiction; subst
    | H : wrote _ (PReal _) ?p |- _ => is_var p; destruct p; try (cbn in H; contradiction)
    end; do 4 eexists; (split; [reflexivity|]); auto.
Qed.

Lemma globals_read ps' body tl : delims_readable g ->
  Forall2 (wrote (eff_res g)) params ps' -> spaced pd rd ps' body ->
  Z.of_nat (length (glob_head pd rd ++ body ++ tl)) <= int_max ->
  ((minResolution g < 1 # 1000000000000)%Q \/ (1 # 100000000 <= minResolution g)%Q ->
   exists g1 g2 full, read_delims (glob_head pd rd ++ body ++ tl) "," ";" = POk (pd, rd, length (glob_head pd rd)) /\
    read_items (glob_head pd rd ++ body ++ tl) (length (glob_head pd rd)) pd rd init_globals = POk (g1, full) /\
    (if full : bool then normalise g1 else POk g1) = POk g2 /\ reads_back g ver now g2) /\
  ((1 # 1000000000000 <= minResolution g)%Q -> (minResolution g < 1 # 100000000)%Q ->
   read_delims (glob_head pd rd ++ body ++ tl) "," ";" = POk (pd, rd, length (glob_head pd rd)) /\
   read_items (glob_head pd rd ++ body ++ tl) (length (glob_head pd rd)) pd rd init_globals = PFail).
Proof.
  intros DR F SP L. destruct OK as (D & FN & U & [S1 S2] & MR & I1 & I2 & MO & CN & OL & TL).
  fold pd rd in D. pose proof (calendar_accepted _ CN) as AN.
  destruct date18_cases as (A1 & A2 & A18 & _).
  destruct (params_met _ F) as (s & w & m & z & E & [Ws Rs] & [Ww Rw] & [Wm Rm] & [Wz Rz]). subst ps'.
  pose proof (cursor_start pd rd _ _ tl _ SP L) as C.
  assert (Z0 : (z == 0)%Q) by (apply Wz; reflexivity).
  assert (W0 : (0 < w)%Q).
  { apply (close_pos (eff_res g) (inject_Z (grad17 g))); [exact Ww|].
    assert (1 <= grad17 g) by (unfold grad17, grad16; destruct (Qltb _ _); [lia|]; destruct (_ <? _) eqn:E; lia).
    unfold Qle, inject_Z. cbn. lia. }
  assert (ON : forall x, or_none x <> []) by (intros [|? ?]; discriminate).
  assert (G16 : is_int (grad16 g) /\ 1 <= grad16 g) by (unfold grad16, is_int in *; destruct (_ <? _) eqn:E; lia).
  assert (M16 : grad16 g = Z.max 1 (maxLinewidthGrad g)) by (unfold grad16; destruct (Z.ltb_spec (maxLinewidthGrad g) 1); lia).
  destruct (read_a_ok pd rd _ _ D _ _ _ _ _ _ _ C (ON _) FN (ON _)) as (i1 & e1 & PA & CA).
  assert (RD := read_delims_head pd rd (body ++ tl) D DR).
  split.
  - intros HR.
    assert (M0 : (0 < m)%Q).
    { apply (close_pos (eff_res g) (eff_res g)); [exact Wm|]. unfold eff_res, Qltb.
      destruct (Qle_bool (1 # 1000000000000) (minResolution g)) eqn:E; cbn [negb]; [|unfold Qle; cbn; lia].
      destruct HR as [HR|HR]; [|exact HR]. apply Qle_bool_iff in E. exfalso. apply (Qlt_not_le _ _ HR E). }
    destruct (read_b_ok pd rd _ _ D _ _ _ _ _ _ _ _ _ _ CA Rs U eq_refl (proj1 G16) (proj2 G16) Rw (Qlt_le_weak _ _ W0) A18 Rm M0)
      as (b & i2 & e2 & PB & CB & B1 & B2 & B3 & B4 & B5 & B6 & B7).
    destruct (read_c_ok pd rd _ _ D _ _ _ _ _ _ _ _ CB Rz ltac:(rewrite Z0; apply Qle_refl) I2 AN) as (c & PC & C1 & C2 & C3 & C4 & C5 & C6 & C7 & C8).
    { destruct (applicationNote g); exact I. }
    assert (EQ : read_items (glob_head pd rd ++ body ++ tl) (length (glob_head pd rd)) pd rd init_globals =
       POk (mkG pd rd (or_none (productIDSS g)) (fileName g) (or_none (nativeSystemID g)) ver 32 38 6 308 15 (productIDRS g)
         (b_ms b) (b_uf b) (b_un b) (b_lg b) (b_lw b) (b_cd b) (b_mr b)
         (c_mc c) (c_au c) (c_og c) (c_iv c) (c_dr c) (c_md c) (c_an c) 1 false, c_full c)).
    { unfold read_items. rewrite PA. cbn [pbind]. rewrite PB. cbn [pbind]. rewrite PC. reflexivity. }
    rewrite EQ. rewrite C8.
    set (g1 := mkG _ _ _ _ _ _ _ _ _ _ _ _ _ _ _ _ _ _ _ _ _ _ _ _ _ _ _ _) in *.
    assert (RB : forall g2, same_texts g2 g1 -> match applicationNote g with
        [] => not_normalised s (unitsFlag g) m g2 | _ => normalised s (unitsFlag g) m g2 end -> reads_back g ver now g2).
    { intros g2 (T1 & T2 & T3 & T4 & T5 & T6 & T7 & T8 & T9 & T10 & T11 & T12 & T13 & T14 & T15 & T16 & T17 & T18 & T19 & T20 & T21 & T22 & T23) HN.
      unfold reads_back. rewrite T1, T2, T3, T4, T5, T6, T7, T8, T9, T10, T11, T12, T13, T14, T16, T18, T19, T20, T21, T22, T23.
      unfold g1. cbn [pdelim rdelim productIDSS fileName nativeSystemID preprocessorVersion nIntegerBits floatMaxExp floatMaxSig
        doubleMaxExp doubleMaxSig productIDRS unitsName maxLinewidthGrad creationDate author organization igesVersion draftStandard
        modificationDate applicationNote]. rewrite T15, T17. unfold g1. cbn [maxLinewidth maxCoordinateValue].
      do 12 (split; [reflexivity|]). split; [exact B3|]. split; [rewrite B4; exact M16|].
      split; [intros A; rewrite B6; apply A1, A|]. split; [intros A; rewrite B6; apply A2, A|].
      split; [rewrite C1; exact Z0|]. split; [exact C2|]. split; [exact C3|]. split; [exact C4|]. split; [exact C5|]. split; [exact C6|].
      split; [rewrite C7; destruct (applicationNote g); reflexivity|].
      exists (eff_res g), s, w, m. split; [apply eff_res_resolution|]. split; [exact Ws|]. split; [exact Wm|].
      rewrite <- M16. unfold grad17, Qltb in Ww. split; [|split; [|split; [exact B5|exact HN]]].
      - intros H. destruct (Qle_bool (1 # 1000000) (maxLinewidth g)) eqn:E; [|exact Ww].
        apply Qle_bool_iff in E. exfalso. apply (Qlt_not_le _ _ H E).
      - intros H. apply Qle_bool_iff in H. rewrite H in Ww. exact Ww. }
    destruct (applicationNote g) as [|nc nr] eqn:EN.
    + exists g1, g1, false. split; [exact RD|]. split; [reflexivity|]. split; [reflexivity|].
      apply RB; [repeat split|]. unfold not_normalised, g1. cbn. auto.
    + destruct (normalise_ok g1) as (g2 & NO & NS & ST).
      { unfold g1. cbn. lia. } { reflexivity. } { reflexivity. }
      exists g1, g2, true. split; [exact RD|]. split; [reflexivity|]. split; [exact NO|]. apply RB; [exact ST|].
      revert NS. unfold normalised, g1. cbn [modelScale unitsFlag minResolution]. rewrite B2.
      rewrite (unit_scale_wd _ _ B1), B1, B7. tauto.
  - intros H1 H2. split; [exact RD|].
    assert (ME : eff_res g = minResolution g).
    { unfold eff_res, Qltb. apply Qle_bool_iff in H1. rewrite H1. reflexivity. }
    assert (M0 : (m == 0)%Q).
    { destruct Wm as [Wm _]. apply Wm. rewrite ME.
      rewrite Qabs_pos; [exact H2|]. eapply Qle_trans; [|exact H1]. discriminate. }
    unfold read_items. rewrite PA. cbn [pbind].
    rewrite (read_b_zero pd rd _ _ D _ _ _ _ _ _ _ _ _ _ CA Rs U eq_refl (proj1 G16) (proj2 G16) Rw (Qlt_le_weak _ _ W0) A18 Rm M0).
    reflexivity.
Qed.

End Back.

(** ** Writing and reading back *)

Lemma wrote_no_nl uir ps ps' : Forall2 (wrote uir) ps ps' -> Forall no_nl ps -> Forall no_nl ps'.
Proof.
  induction 1 as [|p p' ps ps' W F IH]; intros H; [constructor|]. inversion H; subst. constructor; [|auto].
  destruct p, p'; cbn in W; try contradiction; subst; auto.
Qed.

Definition read_section (f : stream) : pres (globals * Z * irec * stream) :=
  do (rec, f1) <- ReadIGESRecord f; readGlobals rec 0 init_globals f1.

Lemma section_parse g ver now rest nxt f2 : settings_ok g ver now ->
  ReadIGESRecord (mkStream rest false) = POk (nxt, f2) -> r_sec nxt <> "G"%char ->
  exists out n ps' body tl rec f1, writeGlobals g ver now = POk (out, n) /\
    ReadIGESRecord (mkStream (out ++ rest) false) = POk (rec, f1) /\ r_sec rec = "G"%char /\
    glob_lines (S (length (s_rest f1))) rec 0 f1 = POk (glob_head (pdelim g) (rdelim g) ++ body ++ tl, n, nxt, f2) /\
    Z.of_nat (length (glob_head (pdelim g) (rdelim g) ++ body ++ tl)) <= int_max /\
    Forall2 (wrote (eff_res g)) (head_params g (S2 (unit_abbrev (unitsFlag g))) ver (date18 g now) ++ tail_params g now) ps' /\
    spaced (pdelim g) (rdelim g) ps' body.
Proof.
  intros OK RR NG. destruct (writeGlobals_text g ver now OK) as (out & n & ps' & ds & body & tl & W & N & EN & BN & CD & F & SP & BT).
  assert (D : delims (pdelim g) (rdelim g)) by apply OK.
  destruct (numbered_len_g _ _ _ N) as [_ L].
  assert (NN : ~ In nl (concat ds)).
  { rewrite CD. intros I. apply in_app_or in I. destruct I as [I|I]; [exact (glob_head_no_nl _ _ D I)|].
    apply in_app_or in I. destruct I as [I|I]; [|exact (blanks_no_nl _ BT I)].
    refine (spaced_no_nl _ _ _ _ D SP _ I). eapply wrote_no_nl; [exact F|]. apply params_no_nl. exact OK. }
  assert (ND : ds <> []).
  { intros ->. cbn [concat] in CD. unfold glob_head in CD.
    destruct (Ascii.eqb (pdelim g) ","), (Ascii.eqb (rdelim g) ";"); discriminate. }
  destruct (section_lines ds out rest nxt f2 N ND NN RR NG) as (rec & f1 & R1 & RS & GL).
  exists out, n, ps', body, tl, rec, f1. rewrite <- CD.
  assert (LM : Z.of_nat (length (concat ds)) <= int_max) by (unfold int_max; rewrite L; lia).
  rewrite EN in W |- *. auto 10.
Qed.

Theorem globals_back g ver now rest nxt f2 : settings_ok g ver now ->
  ReadIGESRecord (mkStream rest false) = POk (nxt, f2) -> r_sec nxt <> "G"%char ->
  exists out n, writeGlobals g ver now = POk (out, n) /\
    (delims_readable g -> ((minResolution g < 1 # 1000000000000)%Q \/ (1 # 100000000 <= minResolution g)%Q) ->
     exists g', read_section (mkStream (out ++ rest) false) = POk (g', n, nxt, f2) /\ reads_back g ver now g') /\
    (~ delims_readable g \/ ((1 # 1000000000000 <= minResolution g)%Q /\ (minResolution g < 1 # 100000000)%Q) ->
     read_section (mkStream (out ++ rest) false) = PFail).
Proof.
  intros OK RR NG.
  destruct (section_parse g ver now rest nxt f2 OK RR NG) as (out & n & ps' & body & tl & rec & f1 & W & R1 & RS & GL & L & F & SP).
  exists out, n. split; [exact W|]. unfold read_section. rewrite R1. cbn [pbind]. unfold readGlobals. rewrite GL. cbn [pbind].
  change (pdelim init_globals) with ","%char. change (rdelim init_globals) with ";"%char.
  split.
  - intros DR HR. destruct (globals_read g ver now OK ps' body tl DR F SP L) as [H _].
    destruct (H HR) as (g1 & g2 & full & RD & RI & NO & RB). rewrite RD. cbn [pbind]. rewrite RI. cbn [pbind]. rewrite NO. cbn [pbind].
    exists g2. auto.
  - intros H.
    assert (DD : delims_readable g \/ ~ delims_readable g).
    { unfold delims_readable. destruct (ascii_dec (pdelim g) ","), (ascii_dec (rdelim g) ";"), (ascii_dec (pdelim g) ";"); try tauto; left; tauto. }
    destruct DD as [DR|DR].
    + destruct H as [H|[H1 H2]]; [contradiction|].
      destruct (globals_read g ver now OK ps' body tl DR F SP L) as [_ HF]. destruct (HF H1 H2) as [RD RI].
      rewrite RD. cbn [pbind]. rewrite RI. reflexivity.
    + assert (X : read_delims (glob_head (pdelim g) (rdelim g) ++ body ++ tl) "," ";" = PFail).
      { unfold delims_readable in DR. destruct (ascii_dec (pdelim g) ",") as [E|E].
        - rewrite E. apply read_delims_bad. tauto.
        - destruct (ascii_dec (pdelim g) ";") as [E'|E']; [rewrite E'; reflexivity|tauto]. }
      rewrite X. reflexivity.
Qed.
