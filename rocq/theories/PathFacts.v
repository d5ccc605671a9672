(** Facts about paths. *)

From Coq Require Import Lia ZifyBool ZifyNat ZifyN.
From Verif Require Import Base Num Spec NumFacts IoModel LineFacts TokenFacts RecordFacts FieldFacts GlobalModel HeaderModel PayloadModel FileModel FileSpec TailFacts PathModel PathSpec.

Lemma native_slashed p : slashed p (native p).
Proof.
  induction p as [|c p IH]; cbn; [constructor|]. destruct (Ascii.eqb_spec c backslash) as [->|N]; [apply sla_back, IH|apply sla_same; assumption].
Qed.
Lemma slashed_native p q : slashed p q -> q = native p.
Proof.
  induction 1 as [|p q _ IH|c p q N _ IH]; cbn; [reflexivity|rewrite IH; reflexivity|].
  destruct (Ascii.eqb_spec c backslash) as [->|_]; [exfalso; apply N; reflexivity|rewrite IH; reflexivity].
Qed.

Lemma last_index_none c s : last_index c s = None <-> ~ In c s.
Proof.
  induction s as [|x r IH]; cbn; [tauto|]. destruct (last_index c r) as [i|].
  - split; [discriminate|]. intros H. exfalso. assert (X : ~ In c r) by tauto. apply IH in X. discriminate.
  - destruct (Ascii.eqb_spec x c) as [->|N]; [split; [discriminate|tauto]|]. split; [|reflexivity].
    intros _ [->|X]; [congruence|]. exact (proj1 IH eq_refl X).
Qed.

Lemma last_index_at c a b : ~ In c b -> last_index c (a ++ c :: b) = Some (length a).
Proof.
  intros N. induction a as [|x a IH]; cbn.
  - rewrite (proj2 (last_index_none c b) N), Ascii.eqb_refl. reflexivity.
  - cbn in IH. rewrite IH. reflexivity.
Qed.

Lemma last_index_some c s i : last_index c s = Some i -> exists a b, s = a ++ c :: b /\ length a = i /\ ~ In c b.
Proof.
  revert i. induction s as [|x r IH]; intros i; cbn; [discriminate|]. destruct (last_index c r) as [j|] eqn:E.
  - intros H. apply some_inj in H. subst i. destruct (IH j eq_refl) as (a & b & -> & L & N). exists (x :: a), b. cbn. auto.
  - destruct (Ascii.eqb_spec x c) as [->|N]; [|discriminate]. intros H. apply some_inj in H. subst i.
    exists [], r. split; [reflexivity|]. split; [reflexivity|]. apply last_index_none, E.
Qed.

(** *** The parts exist and are unique *)

Lemma located_ex path : exists dir name, located path dir name.
Proof.
  destruct (last_index sl path) as [i|] eqn:E.
  - destruct (last_index_some _ _ _ E) as (a & b & -> & _ & N). exists (a ++ [sl]), b. split; [rewrite <- app_assoc; reflexivity|]. eauto.
  - apply last_index_none in E. exists [], path. split; [reflexivity|]. auto.
Qed.

Lemma extended_ex name : exists base ext, extended name base ext.
Proof.
  destruct name as [|c r]; [exists [], None; cbn; auto|]. destruct (last_index dot r) as [i|] eqn:E.
  - destruct (last_index_some _ _ _ E) as (a & b & -> & _ & N). exists (c :: a), (Some b). cbn. split; [reflexivity|]. split; [discriminate|exact N].
  - apply last_index_none in E. exists (c :: r), None. cbn. auto.
Qed.

Lemma extended_fun name b e b' e' : extended name b e -> extended name b' e' -> b = b' /\ e = e'.
Proof.
  destruct e as [e|], e' as [e'|]; cbn.
  - intros (-> & N & I) (H & N' & I'). assert (L : length b = length b').
    { pose proof (last_index_at dot b e I) as X. rewrite H, (last_index_at dot b' e' I') in X. congruence. }
    assert (X : b = b' /\ e = e').
    { clear N N' I I'. revert b' H L. induction b as [|x b IH]; intros [|y b'] H L; try discriminate; cbn in *.
      - injection H as ->. auto.
      - injection H as -> H. destruct (IH b' H ltac:(lia)) as [-> ->]. auto. }
    destruct X as [-> ->]. auto.
  - intros (-> & N & _) [_ H]. exfalso. apply H. destruct b as [|x b]; [congruence|]. cbn. apply in_or_app. right. left. reflexivity.
  - intros [_ H] (-> & N & _). exfalso. apply H. destruct b' as [|x b']; [congruence|]. cbn. apply in_or_app. right. left. reflexivity.
  - intros [-> _] [-> _]. auto.
Qed.

Lemma located_fun p d n d' n' : located p d n -> located p d' n' -> d = d' /\ n = n'.
Proof.
  intros (-> & N & D) (E & N' & D').
  assert (X : forall d n, ~ In sl n -> (d = [] \/ exists x, d = x ++ [sl]) ->
    length d = match last_index sl (d ++ n) with None => O | Some i => S i end).
  { intros d0 n0 I [->|(x & ->)].
    - cbn [app length]. rewrite (proj2 (last_index_none sl n0) I). reflexivity.
    - rewrite <- app_assoc. cbn [app]. rewrite last_index_at by exact I. rewrite app_length. cbn. lia. }
  pose proof (X d n N D) as L. pose proof (X d' n' N' D') as L'. rewrite E in L. rewrite <- L in L'.
  clear - E L'. revert d' E L'. induction d as [|x d IH]; intros [|y d'] E L; try discriminate; cbn in *; [auto|].
  injection E as -> E. destruct (IH d' E ltac:(lia)) as [-> ->]. auto.
Qed.

(** *** Queries *)

Section Queries.
Variables (full dir name base : str) (ext : option str).
Hypothesis NE : full <> [].
Hypothesis L : located full dir name.
Hypothesis X : extended name base ext.

Definition inv (p : fpath) : Prop :=
  m_full p = full /\ (m_name p = [] \/ m_name p = name) /\ (m_base p = [] \/ m_base p = base) /\
  (m_ext p = [] \/ ext = Some (m_ext p)).

Definition safe (p : fpath) : Prop := In dot full \/ name = [] \/ m_base p <> [].

Lemma sep_at p : inv p -> sep_pos p = length dir.
Proof.
  intros (E & _). unfold sep_pos. rewrite E. destruct L as (-> & N & D). change slash with sl. destruct D as [->|(d & ->)].
  - cbn [app]. rewrite (proj2 (last_index_none sl name) N). reflexivity.
  - rewrite <- app_assoc. cbn [app]. rewrite last_index_at by exact N. rewrite app_length. cbn. lia.
Qed.

Lemma dot_some e : ext = Some e -> last_index period full = Some (length dir + length base)%nat.
Proof.
  intros E. rewrite E in X. cbn in X. destruct X as (Y & _ & N). destruct L as (-> & _ & _). rewrite Y, app_assoc. change period with dot.
  rewrite last_index_at by exact N. rewrite app_length. reflexivity.
Qed.

Lemma dot_none i : ext = None -> last_index period full = Some i -> (i <= length dir)%nat.
Proof.
  intros E H. destruct (last_index_some _ _ _ H) as (a & b & Y & LA & N). rewrite E in X. cbn in X. destruct X as [_ T].
  destruct L as (Z & _ & _). rewrite Z in Y. destruct (Nat.le_gt_cases i (length dir)) as [C|C]; [exact C|]. exfalso. apply T.
  assert (K : nth_error (dir ++ name) i = Some dot) by (rewrite Y, nth_error_app2 by lia; replace (i - length a)%nat with 0%nat by lia; reflexivity).
  rewrite nth_error_app2 in K by lia. destruct name as [|c r]; [destruct (i - length dir)%nat; discriminate|].
  destruct (i - length dir)%nat eqn:Q; [lia|]. cbn in K |- *. eapply nth_error_In. exact K.
Qed.

Lemma base_none : ext = None -> base = name.
Proof. intros E. rewrite E in X. apply X. Qed.

Lemma ext_cases : (exists e, ext = Some e /\ name = base ++ dot :: e /\ base <> [] /\ ~ In dot e) \/ (ext = None /\ base = name).
Proof. revert X. destruct ext as [e|]; cbn; intros Y; [left; exists e; auto|right; tauto]. Qed.

Lemma after_dot e : name = base ++ dot :: e -> skipn (S (length dir + length base)) full = e /\ length full = (length dir + length base + 1 + length e)%nat.
Proof.
  intros Y. destruct L as (Z & _ & _). split.
  - rewrite Z, Y, app_assoc. replace ((dir ++ base) ++ dot :: e) with (((dir ++ base) ++ [dot]) ++ e) by (rewrite <- app_assoc; reflexivity).
    replace (S (length dir + length base)) with (length ((dir ++ base) ++ [dot])) by (rewrite !app_length; cbn; lia). apply skipn_mid.
  - rewrite Z, Y, !app_length. cbn [length]. lia.
Qed.

Lemma base_step p : inv p -> safe p -> exists p', GetBaseName p = (AText base, p') /\ inv p' /\ safe p'.
Proof.
  intros Iv SA0. pose proof (sep_at p Iv) as SP. pose proof Iv as (E & E1 & E2 & E3). unfold GetBaseName.
  destruct (m_full p) as [|c0 f0] eqn:FE; [congruence|]. rewrite E. clear FE c0 f0 E.
  destruct (m_base p) as [|b0 br] eqn:MB.
  2: { destruct E2 as [E2|E2]; [discriminate|]. exists p. rewrite E2. split; [reflexivity|]. auto. }
  cbv zeta. rewrite SP. destruct ext_cases as [(e & EX & Y & NB & ND)|[EX BN]].
  - rewrite (dot_some e EX).
    assert (LB : (1 <= length base)%nat) by (revert NB; destruct base; [congruence|cbn; lia]).
    replace ((length dir <? length dir + length base)%nat) with true by lia.
    destruct (after_dot e Y) as [SK LF].
    assert (SB : substr full (length dir) (length dir + length base - length dir) = base).
    { destruct L as (Z & _ & _). unfold substr. rewrite Z, skipn_mid. replace (length dir + length base - length dir)%nat with (length base) by lia.
      rewrite Y. apply firstn_mid. }
    rewrite SB. cbn [m_base]. unfold substr_from.
    replace ((S (length dir + length base) <=? length full)%nat) with true by lia.
    rewrite SK. assert (SA : forall n x, safe (mkPath full n base x)) by (intros; right; right; exact NB).
    destruct (m_ext p) as [|x xs] eqn:ME.
    + eexists. split; [reflexivity|]. split; [|apply SA]. split; [reflexivity|]. cbn. auto.
    + eexists. split; [reflexivity|]. split; [|apply SA]. split; [reflexivity|]. cbn. auto.
  - destruct (last_index period full) as [i|] eqn:LI.
    + pose proof (dot_none i EX LI) as LE. replace ((length dir <? i)%nat) with false by lia.
      assert (SK : skipn (length dir) full = base) by (destruct L as (Z & _ & _); rewrite Z, skipn_mid; auto).
      rewrite SK. eexists. split; [reflexivity|]. split.
      * split; [reflexivity|]. cbn. auto.
      * left. destruct (last_index_some _ _ _ LI) as (a & b & Q & _). rewrite Q. apply in_or_app. right. left. reflexivity.
    + apply last_index_none in LI. assert (NM : name = []) by (destruct SA0 as [SA0|[SA0|SA0]]; [destruct (LI SA0)|exact SA0|rewrite MB in SA0; congruence]).
      assert (Z : full = dir) by (destruct L as (Z & _ & _); rewrite NM, app_nil_r in Z; exact Z).
      replace ((length dir <? length full)%nat) with false by (rewrite Z; lia).
      assert (SK : skipn (length dir) full = base) by (rewrite Z, BN, NM; apply skipn_all).
      rewrite SK. eexists. split; [reflexivity|]. split.
      * split; [reflexivity|]. cbn. auto.
      * right. left. exact NM.
Qed.

Lemma ext_step p : inv p -> exists p', GetExtension p = (match ext with None => ANull | Some e => AText e end, p') /\ inv p' /\ m_base p' = m_base p.
Proof.
  intros Iv. pose proof (sep_at p Iv) as SP. pose proof Iv as (E & E1 & E2 & E3). unfold GetExtension.
  destruct (m_full p) as [|c0 f0] eqn:FE; [congruence|]. rewrite E. clear FE c0 f0 E.
  destruct (m_ext p) as [|x xs] eqn:ME.
  - destruct ext_cases as [(e & EX & Y & NB & ND)|[EX BN]].
    + rewrite (dot_some e EX), SP.
      assert (LB : (1 <= length base)%nat) by (revert NB; destruct base; [congruence|cbn; lia]).
      replace ((length dir + length base <=? length dir)%nat) with false by lia.
      destruct (after_dot e Y) as [SK LF]. cbv zeta. rewrite SK, EX. eexists. split; [reflexivity|]. split; [|reflexivity]. split; [reflexivity|]. cbn. auto.
    + rewrite EX. destruct (last_index period full) as [i|] eqn:LI.
      * pose proof (dot_none i EX LI) as LE. rewrite SP. replace ((i <=? length dir)%nat) with true by lia. eauto.
      * eauto.
  - destruct E3 as [E3|E3]; [discriminate|]. rewrite E3. exists p. split; [reflexivity|]. split; [|reflexivity]. exact Iv.
Qed.

Lemma name_step p : inv p -> safe p -> exists p', GetFileName p = (AText name, p') /\ inv p' /\ safe p'.
Proof.
  intros Iv SA0. unfold GetFileName. pose proof Iv as (E & E1 & E2 & E3).
  destruct (m_full p) as [|c0 f0] eqn:FE; [congruence|]. clear FE c0 f0 E.
  destruct (m_name p) as [|n0 nr] eqn:MN.
  - destruct (base_step p Iv SA0) as (p1 & B & I1 & S1). rewrite B. destruct (ext_step p1 I1) as (p2 & EE & I2 & MB). rewrite EE.
    destruct I2 as (F & F1 & F2 & F3).
    assert (SN : forall q, m_base q = m_base p2 -> safe q) by (intros q Q; unfold safe in *; rewrite Q, MB; exact S1).
    destruct ext_cases as [(e & EX & Y & NB & ND)|[EX BN]]; rewrite EX.
    + change period with dot. cbv zeta. rewrite <- Y. eexists. split; [reflexivity|]. split; [|apply SN; reflexivity].
      split; [exact F|]. cbn. auto.
    + rewrite <- BN. eexists. split; [reflexivity|]. split; [|apply SN; reflexivity].
      split; [exact F|]. cbn. auto.
  - destruct E1 as [E1|E1]; [discriminate|]. rewrite E1. exists p. split; [reflexivity|]. auto.
Qed.

Lemma ask_step q p : inv p -> safe p -> exists p', ask q p = (right_answer full name base ext q, p') /\ inv p' /\ safe p'.
Proof.
  intros Iv SA0. destruct q; cbn [ask right_answer].
  - exists p. split; [|auto]. unfold GetFullPath. destruct Iv as (-> & _). revert NE. destruct full; [congruence|reflexivity].
  - apply name_step; assumption.
  - apply base_step; assumption.
  - destruct (ext_step p Iv) as (p' & E & I' & MB). exists p'. split; [exact E|]. split; [exact I'|]. unfold safe in *. rewrite MB. exact SA0.
Qed.

Lemma all_right qs : forall p, inv p -> safe p -> answers qs p = map (right_answer full name base ext) qs /\ inv (asked qs p) /\ safe (asked qs p).
Proof.
  induction qs as [|q qs IH]; intros p Iv SA0; cbn [answers asked map]; [auto|].
  destruct (ask_step q p Iv SA0) as (p' & -> & I' & S'). cbn [fst snd]. destruct (IH p' I' S') as (-> & K). auto.
Qed.

(** Questions which do not need the base name. *)
Lemma light_step q p : inv p -> q = QFull \/ q = QExt -> exists p', ask q p = (right_answer full name base ext q, p') /\ inv p' /\ m_base p' = m_base p /\ m_name p' = m_name p.
Proof.
  intros Iv [->| ->]; cbn [ask right_answer].
  - exists p. split; [|auto]. unfold GetFullPath. destruct Iv as (-> & _). revert NE. destruct full; [congruence|reflexivity].
  - destruct (ext_step p Iv) as (p' & E & I' & MB). exists p'. split; [exact E|]. split; [exact I'|]. split; [exact MB|].
    unfold GetExtension in E. destruct (m_full p); [injection E as _ <-; reflexivity|]. destruct (m_ext p); [|injection E as _ <-; reflexivity].
    destruct (last_index _ _); [|injection E as _ <-; reflexivity]. destruct (_ <=? _)%nat; injection E as _ <-; reflexivity.
Qed.

Lemma throw_step q p : inv p -> ~ In dot full -> name <> [] -> m_base p = [] -> m_name p = [] -> q = QName \/ q = QBase ->
  exists p', ask q p = (AThrow, p') /\ inv p' /\ safe p'.
Proof.
  intros Iv ND NN MB MN Q. pose proof (sep_at p Iv) as SP. pose proof Iv as (E & E1 & E2 & E3).
  assert (EN : ext = None).
  { destruct ext_cases as [(e & EX & Y & _)|[EX _]]; [|exact EX]. exfalso. apply ND. destruct L as (-> & _). rewrite Y.
    apply in_or_app. right. apply in_or_app. right. left. reflexivity. }
  assert (ME : m_ext p = []) by (destruct E3 as [E3|E3]; [exact E3|congruence]).
  assert (B : exists p', GetBaseName p = (AThrow, p') /\ inv p' /\ safe p').
  { unfold GetBaseName. rewrite MB, ME. destruct (m_full p) as [|c0 f0] eqn:FE; [congruence|]. rewrite E.
    cbv zeta. rewrite SP. rewrite (proj2 (last_index_none period full) ND). destruct L as (Z & _ & _).
    assert (LN : (1 <= length name)%nat) by (revert NN; clear; destruct name; [congruence|cbn; lia]).
    assert (LF : length full = (length dir + length name)%nat) by (rewrite Z, app_length; reflexivity).
    replace ((length dir <? length full)%nat) with true by lia. unfold substr_from. replace ((S (length full) <=? length full)%nat) with false by lia.
    assert (SB : substr full (length dir) (length full - length dir) = name).
    { unfold substr. rewrite LF. replace (length dir + length name - length dir)%nat with (length name) by lia. rewrite Z, skipn_mid. apply firstn_all. }
    rewrite SB. eexists. split; [reflexivity|]. split.
    - split; [reflexivity|]. cbn. split; [exact E1|]. split; [right; symmetry; apply base_none, EN|auto].
    - right. right. cbn. exact NN. }
  destruct Q as [->| ->]; cbn [ask]; [|exact B]. unfold GetFileName. rewrite MN. destruct B as (p' & -> & K).
  destruct (m_full p) eqn:FE; [congruence|]. eauto.
Qed.
End Queries.

Lemma inv_set full name base ext path : full = native path -> inv full name base ext (SetPath path).
Proof. intros ->. split; [reflexivity|]. cbn. auto. Qed.

Lemma path_parts path full dir name base ext qs : slashed path full -> full <> [] -> located full dir name -> extended name base ext ->
  In dot full \/ name = [] -> answers qs (SetPath path) = map (right_answer full name base ext) qs.
Proof.
  intros S NE L X D. apply (all_right full dir name base ext NE L X qs (SetPath path)).
  - apply inv_set, slashed_native, S.
  - unfold safe. tauto.
Qed.

Lemma path_throws path full dir name qs q qs' : slashed path full -> full <> [] -> located full dir name ->
  ~ In dot full -> name <> [] -> Forall (fun q => q = QFull \/ q = QExt) qs -> q = QName \/ q = QBase ->
  answers (qs ++ q :: qs') (SetPath path) =
    map (right_answer full name name None) qs ++ AThrow :: map (right_answer full name name None) qs'.
Proof.
  intros S NE L ND NN F Q.
  assert (X : extended name name None).
  { cbn. split; [reflexivity|]. intros Y. apply ND. destruct L as (-> & _). apply in_or_app. right. destruct name; [destruct Y|right; exact Y]. }
  assert (I0 : inv full name name None (SetPath path)) by (apply inv_set, slashed_native, S).
  assert (K : m_base (SetPath path) = [] /\ m_name (SetPath path) = []) by (split; reflexivity).
  revert I0 K. generalize (SetPath path). induction F as [|q0 qs Q0 _ IH]; intros p I0 [K1 K2]; cbn [app answers map].
  - destruct (throw_step full dir name name None NE L X q p I0 ND NN K1 K2 Q) as (p' & -> & I' & S'). cbn [fst snd]. f_equal.
    apply (all_right full dir name name None NE L X qs' p' I' S').
  - destruct (light_step full dir name name None NE L X q0 p I0 Q0) as (p' & -> & I' & M1 & M2). cbn [fst snd]. f_equal.
    apply IH; [exact I'|]. split; congruence.
Qed.

Lemma path_empty qs : answers qs (SetPath []) = map (fun _ => ANull) qs.
Proof. induction qs as [|q qs IH]; [reflexivity|]. destruct q; cbn [answers map ask]; cbn [GetFileName GetBaseName GetExtension GetFullPath SetPath native map m_full fst snd] in *; rewrite <- IH; reflexivity. Qed.

(** *** Changing the path *)

Section Cached.
Variables (full dir name base x : str).
Hypothesis NE : full <> [].
Hypothesis L : located full dir name.
Hypothesis X : extended name base (Some x).
Hypothesis NX : x <> [].

Let NB : base <> [] := proj1 (proj2 X).
Let Y : name = base ++ dot :: x := proj1 X.

Lemma name_some : name <> [].
Proof. rewrite Y. destruct base; discriminate. Qed.

(** With an extension the members are always one of these. *)
Definition stage (i : nat) : fpath :=
  match i with
  | O => mkPath full [] [] []
  | 1%nat => mkPath full [] [] x
  | 2%nat => mkPath full [] base x
  | _ => mkPath full name base x
  end.

Lemma stage_base i : GetBaseName (stage i) = (AText base, stage (Nat.max i 2)).
Proof.
  unfold GetBaseName. assert (F : m_full (stage i) = full) by (destruct i as [|[|[|i]]]; reflexivity). rewrite F.
  destruct full as [|c f] eqn:FE; [congruence|]. rewrite <- FE in *. clear FE.
  assert (SP : sep_pos (stage i) = length dir).
  { unfold sep_pos. rewrite F. destruct L as (-> & N & D). change slash with sl. destruct D as [->|(d & ->)].
    - cbn [app]. rewrite (proj2 (last_index_none sl name) N). reflexivity.
    - rewrite <- app_assoc. cbn [app]. rewrite last_index_at by exact N. rewrite app_length. cbn. lia. }
  assert (DT : last_index period full = Some (length dir + length base)%nat).
  { destruct L as (-> & _ & _). rewrite Y, app_assoc. change period with dot. rewrite last_index_at by apply X. rewrite app_length. reflexivity. }
  assert (SK : skipn (S (length dir + length base)) full = x /\ length full = (length dir + length base + 1 + length x)%nat).
  { apply (after_dot full dir name base L x Y). }
  assert (LB : (1 <= length base)%nat) by (revert NB; clear; destruct base; [congruence|cbn; lia]).
  assert (SB : substr full (length dir) (length dir + length base - length dir) = base).
  { destruct L as (Z & _ & _). unfold substr. rewrite Z, skipn_mid. replace (length dir + length base - length dir)%nat with (length base) by lia.
    rewrite Y. apply firstn_mid. }
  assert (LT : (length dir <? length dir + length base)%nat = true) by lia.
  rewrite SP, DT. cbv zeta. rewrite LT, SB. unfold substr_from. destruct SK as [SK LF].
  replace ((S (length dir + length base) <=? length full)%nat) with true by lia. rewrite SK. cbn [m_base].
  destruct i as [|[|[|i]]]; cbn [stage m_base m_ext m_name m_full Nat.max].
  - reflexivity.
  - destruct x; [congruence|reflexivity].
  - destruct base; [congruence|reflexivity].
  - replace (Nat.max i 0)%nat with i by lia. destruct base; [congruence|reflexivity].
Qed.

Lemma stage_full i : m_full (stage i) = full.
Proof. destruct i as [|[|[|i]]]; reflexivity. Qed.

Lemma stage_ext i : GetExtension (stage i) = (AText x, stage (Nat.max i 1)).
Proof.
  assert (Iv : inv full name base (Some x) (stage i)) by (destruct i as [|[|[|i]]]; split; cbn; auto 10).
  destruct (ext_step full dir name base (Some x) NE L X _ Iv) as (p' & E & _). rewrite E. f_equal.
  unfold GetExtension in E. rewrite stage_full in E. destruct full as [|c f] eqn:FE; [congruence|]. rewrite <- FE in *. clear FE.
  destruct i as [|[|[|i]]]; cbn [stage m_base m_ext m_name m_full Nat.max] in *.
  - destruct (last_index _ _); [|discriminate]. destruct (_ <=? _)%nat; [discriminate|]. apply pair_inj in E. destruct E as [E1 <-].
    match type of E1 with AText ?a = _ => assert (Q : a = x) by congruence; rewrite Q end. reflexivity.
  - destruct x; [congruence|]. apply pair_inj in E. symmetry. apply E.
  - destruct x; [congruence|]. apply pair_inj in E. symmetry. apply E.
  - replace (Nat.max i 0)%nat with i by lia. destruct x; [congruence|]. apply pair_inj in E. symmetry. apply E.
Qed.

Lemma stage_name i : GetFileName (stage i) = (AText name, stage (Nat.max i 3)).
Proof.
  unfold GetFileName. rewrite stage_full. destruct full as [|c f] eqn:FE; [congruence|]. rewrite <- FE in *. clear FE.
  destruct i as [|[|[|i]]].
  4: { replace (Nat.max (S (S (S i))) 3)%nat with (S (S (S i))) by lia. cbn [stage m_name]. pose proof name_some as NN.
       destruct name; [congruence|reflexivity]. }
  all: match goal with |- context [m_name (stage ?k)] => change (m_name (stage k)) with (@nil ascii) end; rewrite stage_base; rewrite stage_ext; change period with dot; cbv zeta; rewrite <- Y; reflexivity.
Qed.

Definition reach (q : query) : nat := match q with QFull => 0 | QExt => 1 | QBase => 2 | QName => 3 end.

Lemma stage_asked qs : forall i, asked qs (stage i) = stage (fold_left Nat.max (map reach qs) i).
Proof.
  induction qs as [|q qs IH]; intros i; cbn [asked map fold_left]; [reflexivity|].
  destruct q; cbn [ask snd reach]; [rewrite Nat.max_0_r; apply IH|rewrite stage_name|rewrite stage_base|rewrite stage_ext]; apply IH.
Qed.

Lemma fold_max l : forall i, (i <= fold_left Nat.max l i)%nat /\ (forall k, In k l -> (k <= fold_left Nat.max l i)%nat).
Proof.
  induction l as [|a l IH]; intros i; cbn; [split; [lia|tauto]|]. destruct (IH (Nat.max i a)) as [A B]. split; [lia|].
  intros k [->|H]; [lia|apply B, H].
Qed.

Lemma stage_set e i : e <> [] -> hd_error e <> Some dot -> (1 <= i)%nat ->
  SetExtension e (stage i) = (true, mkPath (full ++ dot :: e) [] (if (2 <=? i)%nat then base else []) e).
Proof.
  intros N H G. unfold SetExtension. rewrite stage_full. destruct full as [|c f] eqn:FE; [congruence|]. rewrite <- FE in *. clear FE.
  destruct e as [|c0 e]; [congruence|]. destruct (Ascii.eqb_spec c0 period) as [->|_]; [exfalso; apply H; reflexivity|].
  destruct x as [|x0 xr] eqn:EX; [congruence|]. rewrite <- EX in *.
  destruct i as [|[|[|i]]]; [lia| | |]; cbn [stage m_ext m_base Nat.leb]; rewrite EX; reflexivity.
Qed.
End Cached.

Lemma set_after_asking path full dir name base x qs e : slashed path full -> located full dir name -> extended name base (Some x) ->
  x <> [] -> e <> [] -> hd_error e <> Some dot -> In QName qs \/ In QBase qs ->
  exists p, SetExtension e (asked qs (SetPath path)) = (true, p) /\
    answers [QFull; QName; QBase; QExt] p = [AText (full ++ dot :: e); AText (base ++ dot :: e); AText base; AText e].
Proof.
  intros S L X NX NEe HD Q. assert (NE : full <> []).
  { destruct L as (-> & _). destruct X as (-> & NB & _). destruct dir; [destruct base; [congruence|discriminate]|discriminate]. }
  assert (E0 : SetPath path = stage full name base x 0) by (unfold SetPath; rewrite <- (slashed_native _ _ S); reflexivity).
  rewrite E0, (stage_asked full dir name base x NE L X NX qs 0%nat). set (i := fold_left Nat.max (map reach qs) 0%nat).
  assert (G : (2 <= i)%nat).
  { unfold i. destruct (fold_max (map reach qs) 0%nat) as [_ B].
    destruct Q as [Q|Q]; apply (in_map reach) in Q; apply B in Q; cbn [reach] in Q; lia. }
  rewrite (stage_set full dir name base x NE L X NX e i NEe HD) by lia. replace (2 <=? i)%nat with true by lia.
  eexists. split; [reflexivity|]. destruct X as (_ & NB & _). clear - NB NEe NE.
  destruct full as [|f0 fr]; [congruence|]. destruct base as [|b0 br]; [congruence|]. destruct e as [|e0 er]; [congruence|]. reflexivity.
Qed.

Lemma set_after_ext path full dir name base x qs e : slashed path full -> located full dir name -> extended name base (Some x) ->
  x <> [] -> e <> [] -> hd_error e <> Some dot -> In QExt qs ->
  exists p, SetExtension e (asked qs (SetPath path)) = (true, p) /\ GetFullPath p = AText (full ++ dot :: e).
Proof.
  intros S L X NX NEe HD Q. assert (NE : full <> []).
  { destruct L as (-> & _). destruct X as (-> & NB & _). destruct dir; [destruct base; [congruence|discriminate]|discriminate]. }
  assert (E0 : SetPath path = stage full name base x 0) by (unfold SetPath; rewrite <- (slashed_native _ _ S); reflexivity).
  rewrite E0, (stage_asked full dir name base x NE L X NX qs 0%nat). set (i := fold_left Nat.max (map reach qs) 0%nat).
  assert (G : (1 <= i)%nat).
  { unfold i. destruct (fold_max (map reach qs) 0%nat) as [_ B]. apply (in_map reach) in Q; apply B in Q; cbn [reach] in Q; lia. }
  rewrite (stage_set full dir name base x NE L X NX e i NEe HD) by lia. eexists. split; [reflexivity|].
  unfold GetFullPath. cbn [m_full]. destruct full; reflexivity.
Qed.

Lemma fresh_root path full dir name base ext : slashed path full -> full <> [] -> located full dir name -> extended name base ext ->
  match GetExtension (SetPath path) with
  | (AText y, _) => firstn (length full - length y - 1) full
  | _ => full
  end = dir ++ base.
Proof.
  intros S NE L X. destruct (ext_step full dir name base ext NE L X (SetPath path) (inv_set _ _ _ _ _ (slashed_native _ _ S))) as (p' & -> & _).
  destruct L as (Z & _). destruct ext as [y|]; cbn in X.
  - destruct X as (Y & _). assert (LF : length full = (length dir + length base + 1 + length y)%nat) by (rewrite Z, Y, !app_length; cbn [length]; lia).
    replace (length full - length y - 1)%nat with (length (dir ++ base)) by (rewrite app_length; lia). rewrite Z, Y, app_assoc. apply firstn_mid.
  - destruct X as [-> _]. exact Z.
Qed.

Lemma set_fresh path full dir name base ext e : slashed path full -> full <> [] -> located full dir name -> extended name base ext ->
  e <> [] -> hd_error e <> Some dot ->
  exists p, SetExtension e (SetPath path) = (true, p) /\ GetFullPath p = AText (dir ++ base ++ dot :: e) /\
    (base <> [] -> ~ In dot e -> ~ In sl e -> forall qs,
     answers qs p = map (right_answer (dir ++ base ++ dot :: e) (base ++ dot :: e) base (Some e)) qs).
Proof.
  intros S NE L X N H. pose proof (fresh_root _ _ _ _ _ _ S NE L X) as FR. unfold SetExtension.
  assert (F : m_full (SetPath path) = full) by (symmetry; apply slashed_native, S). rewrite F.
  change (m_ext (SetPath path)) with (@nil ascii). rewrite FR. clear FR.
  destruct full as [|c f] eqn:FE; [congruence|]. rewrite <- FE in *. clear FE.
  destruct e as [|c0 e]; [congruence|]. destruct (Ascii.eqb_spec c0 period) as [->|_]; [exfalso; apply H; reflexivity|].
  change (m_base (SetPath path)) with (@nil ascii).
  eexists. split; [reflexivity|]. split.
  { unfold GetFullPath. cbn [m_full]. rewrite <- app_assoc. destruct (dir ++ base ++ _) eqn:Q; [|reflexivity].
    apply app_eq_nil in Q. destruct Q as [_ Q]. destruct base; discriminate. }
  intros NB ND NS qs. rewrite <- app_assoc. change period with dot.
  apply (all_right (dir ++ base ++ dot :: c0 :: e) dir (base ++ dot :: c0 :: e) base (Some (c0 :: e))).
  - destruct dir; [destruct base; discriminate|discriminate].
  - destruct L as (Z & NL & D). split; [reflexivity|]. split; [|exact D]. intros I. apply in_app_or in I. destruct I as [I|[I|I]].
    + apply NL. destruct ext as [y|]; cbn in X; [destruct X as (-> & _)|destruct X as [<- _]; exact I]. apply in_or_app. left. exact I.
    + discriminate I.
    + exact (NS I).
  - cbn. auto.
  - split; [reflexivity|]. cbn. auto.
  - left. apply in_or_app. right. apply in_or_app. right. left. reflexivity.
Qed.

Lemma set_with_period path full dir name base ext r : slashed path full -> full <> [] -> located full dir name -> extended name base ext -> r <> [] ->
  exists p, SetExtension (dot :: r) (SetPath path) = (true, p) /\ GetFullPath p = AText (dir ++ base ++ r).
Proof.
  intros S NE L X N. pose proof (fresh_root _ _ _ _ _ _ S NE L X) as FR. unfold SetExtension.
  assert (F : m_full (SetPath path) = full) by (symmetry; apply slashed_native, S). rewrite F.
  change (m_ext (SetPath path)) with (@nil ascii). rewrite FR. clear FR.
  destruct full as [|c f] eqn:FE; [congruence|]. rewrite <- FE in *. clear FE.
  change (Ascii.eqb dot period) with true. cbv iota. destruct r as [|r0 r]; [congruence|]. eexists. split; [reflexivity|].
  unfold GetFullPath. cbn [m_full]. rewrite <- app_assoc. destruct (dir ++ base ++ _) eqn:Q; [|reflexivity].
  apply app_eq_nil in Q. destruct Q as [_ Q]. destruct base; discriminate.
Qed.

Lemma native_native p q : slashed p q -> native q = q.
Proof. intros S. symmetry. apply slashed_native. induction S; constructor; auto; discriminate. Qed.

Lemma append_any s q p : slashed s q -> s <> [] -> q <> [sl] -> native (m_full p) = m_full p ->
  Append s p = (false, SetPath (m_full p ++ sl :: q)).
Proof.
  intros S N Q M. unfold Append, SetPath. rewrite <- (slashed_native _ _ S). unfold native. rewrite map_app. fold (native (m_full p)).
  rewrite M. cbn [map]. change (Ascii.eqb sl backslash) with false. cbv iota. fold (native q). rewrite (native_native _ _ S).
  destruct s as [|s0 sr]; [congruence|]. destruct q as [|c [|c' q']]; try reflexivity. destruct (Ascii.eqb_spec c slash) as [->|_]; [exfalso; apply Q; reflexivity|reflexivity].
Qed.

(** *** Writing and reading under such names *)

Lemma no_name path full dir name : slashed path full -> full <> [] -> located full dir name -> ~ In dot full -> name <> [] ->
  fst (GetFileName (SetPath path)) = AThrow.
Proof.
  intros S NE L ND NN. pose proof (path_throws path full dir name [] QName [] S NE L ND NN (Forall_nil _) (or_introl eq_refl)) as H.
  cbn [app answers map ask] in H. injection H. auto.
Qed.

Lemma some_name path full dir name : slashed path full -> full <> [] -> located full dir name -> In dot full \/ name = [] ->
  fst (GetFileName (SetPath path)) = AText name.
Proof.
  intros S NE L D. destruct (extended_ex name) as (b & e & X).
  pose proof (path_parts path full dir name b e [QName] S NE L X D) as H. cbn [answers map ask right_answer] in H. injection H. auto.
Qed.

Lemma write_named path full dir name d ver now t over : slashed path full -> full <> [] -> located full dir name -> In dot full \/ name = [] ->
  write_to d path ver now t over = match Write d name ver now t over with POk (b, t') => Wrote b t' | _ => WCrash end.
Proof. intros S NE L D. unfold write_to. rewrite (some_name _ _ _ _ S NE L D). reflexivity. Qed.

Lemma write_throws path full dir name d other ver now b s : slashed path full -> full <> [] -> located full dir name -> ~ In dot full -> name <> [] ->
  Write d other ver now Free false = POk (b, Old s) ->
  forall t over, (can_open t over -> write_to d path ver now t over = WThrow (Old [])) /\
                 (~ can_open t over -> write_to d path ver now t over = Wrote false t).
Proof.
  intros S NE L ND NN H t over. unfold write_to. rewrite (no_name _ _ _ _ S NE L ND NN). cbv zeta. unfold Write in *.
  destruct (d_ents d) as [|e es]; [discriminate|]. cbv zeta in *.
  destruct (format_all _ _ _ 1 1 (e :: es)) as [| |[l next]]; try discriminate.
  destruct (opened t over) eqn:O; split; intros C; try reflexivity.
  - exfalso. apply C. apply opened_iff, O.
  - apply opened_iff in C. congruence.
Qed.

Lemma read_named path full dir name lines n g0 f : slashed path full -> full <> [] -> located full dir name -> In dot full \/ name = [] ->
  read_from lines n g0 path f = Some (read_file lines n g0 name f).
Proof. intros S NE L D. unfold read_from. rewrite (some_name _ _ _ _ S NE L D). reflexivity. Qed.

Lemma read_throws path full dir name lines n g0 other f x : slashed path full -> full <> [] -> located full dir name -> ~ In dot full -> name <> [] ->
  read_file lines n g0 other f = POk x -> read_from lines n g0 path f = None.
Proof.
  intros S NE L ND NN H. unfold read_from. rewrite (no_name _ _ _ _ S NE L ND NN). unfold read_file in H.
  apply pbind_ok in H. destruct H as ([[st rec] f1] & -> & H). cbn [pbind]. apply pbind_ok in H. destruct H as ([[[g m] r] f2] & -> & _). reflexivity.
Qed.

Lemma append_path p0 s q p : slashed s q -> s <> [] -> q <> [sl] -> slashed p0 (m_full p) ->
  Append s p = (false, SetPath (m_full p ++ sl :: q)).
Proof. intros S N Q M. apply append_any; auto. eapply native_native. exact M. Qed.

Lemma parts_unique path : exists full, slashed path full /\ (forall full', slashed path full' -> full' = full) /\
  exists dir name, located full dir name /\ (forall dir' name', located full dir' name' -> dir' = dir /\ name' = name) /\
  exists base ext, extended name base ext /\ (forall base' ext', extended name base' ext' -> base' = base /\ ext' = ext).
Proof.
  exists (native path). split; [apply native_slashed|]. split; [intros; apply slashed_native; assumption|].
  destruct (located_ex (native path)) as (dir & name & L). exists dir, name. split; [exact L|].
  split; [intros; eapply located_fun; eassumption|]. destruct (extended_ex name) as (b & e & X). exists b, e. split; [exact X|].
  intros; eapply extended_fun; eassumption.
Qed.
