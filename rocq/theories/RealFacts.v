(** Facts about printing and reading real numbers. *)

From Coq Require Import Lia ZifyBool ZifyNat ZifyN QArith Qabs Qpower Lqa.
From Verif Require Import Base Num Spec NumFacts IoModel FieldFacts TokenFacts.
Open Scope Z_scope.

Ltac Zify.zify_post_hook ::= Z.div_mod_to_equations.

(** ** Powers of ten in Q *)

Definition T (k : Z) : Q := ((10 # 1) ^ k)%Q.

Lemma ten_nz : ~ (10 # 1 == 0)%Q.
Proof. discriminate. Qed.

Lemma T_plus a b : (T (a + b) == T a * T b)%Q.
Proof. unfold T. apply Qpower_plus, ten_nz. Qed.

Lemma T_pos k : (0 < T k)%Q.
Proof. unfold T. apply Qpower_0_lt. reflexivity. Qed.

Lemma T_nonneg_Z k : 0 <= k -> (T k == inject_Z (10 ^ k))%Q.
Proof.
  intros H. unfold T. rewrite <- (Z2Nat.id k) by auto. generalize (Z.to_nat k). clear.
  induction n as [|n IH].
  - reflexivity.
  - rewrite Nat2Z.inj_succ. unfold Z.succ. rewrite Qpower_plus by apply ten_nz. rewrite IH.
    rewrite Z.pow_add_r by lia. rewrite inject_Z_mult. reflexivity.
Qed.

Lemma T_0 : (T 0 == 1)%Q. Proof. reflexivity. Qed.
Lemma T_1 : (T 1 == 10)%Q. Proof. reflexivity. Qed.

Lemma T_opp k : (T k * T (- k) == 1)%Q.
Proof. rewrite <- T_plus. replace (k + - k) with 0 by lia. reflexivity. Qed.

Lemma T_neg_Z k : 0 <= k -> (T (- k) == / inject_Z (10 ^ k))%Q.
Proof.
  intros H. pose proof (T_opp k) as E. rewrite (T_nonneg_Z k H) in E.
  assert (P : (0 < 10 ^ k)) by (apply Z.pow_pos_nonneg; lia).
  assert (NZ : ~ (inject_Z (10 ^ k) == 0)%Q).
  { intros X. unfold Qeq in X. cbn in X. lia. }
  rewrite <- (Qmult_1_l (/ inject_Z (10 ^ k))), <- E. field. exact NZ.
Qed.

Lemma dec2Q_T m e : (dec2Q m e == inject_Z m * T e)%Q.
Proof.
  unfold dec2Q. destruct (0 <=? e) eqn:E.
  - rewrite T_nonneg_Z by lia. rewrite inject_Z_mult. reflexivity.
  - assert (R : e = - (- e)) by lia. rewrite R at 2. rewrite T_neg_Z by lia.
    assert (P : (0 < 10 ^ (- e))) by (apply Z.pow_pos_nonneg; lia).
    unfold Qeq, Qmult, Qinv, inject_Z. cbn [Qnum Qden].
    destruct (10 ^ (- e)) as [|p|p] eqn:Z; try lia. cbn. lia.
Qed.

(** ** Rounding *)

Lemma round_half_even_spec n d : 0 < d -> 0 <= n ->
  2 * Z.abs (n - round_half_even n d * d) <= d.
Proof.
  intros Hd Hn. unfold round_half_even.
  pose proof (Z.div_mod n d ltac:(lia)) as E. pose proof (Z.mod_pos_bound n d Hd) as B.
  set (q := n / d) in *. set (r := n mod d) in *. clearbody q r.
  destruct (2 * r <? d) eqn:E1; [nia|]. destruct (d <? 2 * r) eqn:E2; [nia|].
  destruct (Z.even q); nia.
Qed.

Lemma Qmake_inject n d : (Qmake n d == inject_Z n / inject_Z (Zpos d))%Q.
Proof. rewrite <- Qmake_Qdiv. reflexivity. Qed.

Lemma scale_round_spec n d s : 0 < n ->
  (Qabs (inject_Z (scale_round n (Zpos d) s) - (n # d) * T s) <= 1 # 2)%Q.
Proof.
  intros Hn. unfold scale_round. destruct (0 <=? s) eqn:Es.
  - rewrite T_nonneg_Z by lia. set (k := 10 ^ s).
    assert (K : 0 < k) by (apply Z.pow_pos_nonneg; lia).
    pose proof (round_half_even_spec (n * k) (Zpos d) ltac:(lia) ltac:(nia)) as R.
    set (m := round_half_even (n * k) (Zpos d)) in *. clearbody m k.
    apply Qabs_Qle_condition. unfold Qle, Qminus, Qplus, Qopp, Qmult, inject_Z. cbn [Qnum Qden].
    split; nia.
  - assert (R0 : s = - (- s)) by lia. rewrite R0 at 2. rewrite T_neg_Z by lia.
    set (k := 10 ^ (- s)). assert (K : 0 < k) by (apply Z.pow_pos_nonneg; lia).
    pose proof (round_half_even_spec n (Zpos d * k) ltac:(nia) ltac:(lia)) as R.
    set (m := round_half_even n (Zpos d * k)) in *. clearbody m.
    destruct k as [|k|k]; try lia.
    apply Qabs_Qle_condition. unfold Qle, Qminus, Qplus, Qopp, Qmult, Qinv, inject_Z. cbn [Qnum Qden].
    rewrite !Pos2Z.inj_mul.
    split; nia.
Qed.

Lemma ndigits_spec n : 0 < n -> 1 <= ndigits n /\ 10 ^ (ndigits n - 1) <= n < 10 ^ ndigits n.
Proof.
  intros H. unfold ndigits. replace (n <=? 0) with false by lia.
  destruct (showN_full n ltac:(lia)) as ((N1 & N2 & N3) & L1 & L2 & L3 & _).
  assert (P : (0 < length (showN n))%nat) by (destruct (showN n); [congruence|cbn; lia]).
  split; [lia|]. split.
  - destruct L3 as (c & d' & E & NZ); [lia|]. rewrite E in *. cbn [length].
    replace (Z.of_nat (S (length d')) - 1) with (Z.of_nat (length d')) by lia.
    rewrite dval_cons in N3. inversion N2; subst. pose proof (dval_bound d' H3). unfold isdig in H2.
    pose proof (Z.pow_pos_nonneg 10 (Z.of_nat (length d')) ltac:(lia) ltac:(lia)). nia.
  - rewrite <- N3 at 1. apply dval_bound, N2.
Qed.

(** Lower and upper power of ten of a positive rational. *)
Lemma flog10_spec n d : 0 < n ->
  (T (flog10 n (Zpos d)) <= n # d)%Q /\ (n # d < T (flog10 n (Zpos d) + 1))%Q.
Proof.
  intros Hn. unfold flog10. destruct (Zpos d <=? n) eqn:E.
  - assert (Q1 : 0 < n / Zpos d) by lia.
    destruct (ndigits_spec _ Q1) as (N1 & N2 & N3). set (k := ndigits (n / Zpos d)) in *. clearbody k.
    rewrite Z.sub_add. rewrite !T_nonneg_Z by lia.
    set (a := 10 ^ (k - 1)) in *. set (b := 10 ^ k) in *. clearbody a b.
    unfold Qle, Qlt, inject_Z. cbn [Qnum Qden]. split; nia.
  - assert (C : 0 < (Zpos d + n - 1) / n - 1 \/ (Zpos d + n - 1) / n - 1 = 0) by nia.
    destruct C as [C|C].
    2: { exfalso. assert (1 < (Zpos d + n - 1) / n); [|lia]. nia. }
    destruct (ndigits_spec _ C) as (N1 & N2 & N3).
    set (k := ndigits ((Zpos d + n - 1) / n - 1)) in *. clearbody k.
    set (c := (Zpos d + n - 1) / n) in *.
    assert (D1 : Zpos d <= c * n) by (unfold c; nia).
    assert (D2 : (c - 1) * n < Zpos d) by (unfold c; nia).
    clearbody c.
    assert (R1 : - k + 1 = - (k - 1)) by lia. rewrite R1. rewrite !T_neg_Z by lia.
    assert (P1 : 0 < 10 ^ k) by (apply Z.pow_pos_nonneg; lia).
    assert (P2 : 0 < 10 ^ (k - 1)) by (apply Z.pow_pos_nonneg; lia).
    destruct (10 ^ k) as [|a|a]; try lia. destruct (10 ^ (k - 1)) as [|b|b]; try lia.
    unfold Qle, Qlt, Qinv, inject_Z. cbn [Qnum Qden]. split; nia.
Qed.

(** Mantissa and exponent of a printed number. *)
Lemma sci_parts_spec p n d m x : 1 <= p -> 0 < n -> sci_parts p n (Zpos d) = (m, x) ->
  let e := flog10 n (Zpos d) in
  10 ^ (p - 1) <= m < 10 ^ p /\ e <= x <= e + 1 /\
  (Qabs (inject_Z m * T (x - p + 1) - (n # d)) <= (1 # 2) * T (e - p + 1))%Q.
Proof.
  intros Hp Hn. unfold sci_parts. cbv zeta.
  destruct (flog10_spec n d Hn) as [F1 F2]. set (e := flog10 n (Zpos d)) in *. clearbody e.
  set (s := p - 1 - e).
  pose proof (scale_round_spec n d s Hn) as SR. set (m0 := scale_round n (Zpos d) s) in *. clearbody m0.
  assert (B : 10 ^ (p - 1) <= m0 <= 10 ^ p).
  { assert (Lo : (T (p - 1) <= (n # d) * T s)%Q).
    { replace (p - 1) with (e + s) by (unfold s; lia). rewrite T_plus.
      apply Qmult_le_compat_r; [exact F1|apply Qlt_le_weak, T_pos]. }
    assert (Hi : ((n # d) * T s < T p)%Q).
    { replace p with (e + 1 + s) at 1 by (unfold s; lia). rewrite T_plus.
      apply Qmult_lt_compat_r; [apply T_pos|exact F2]. }
    rewrite (T_nonneg_Z (p - 1)) in Lo by lia. rewrite (T_nonneg_Z p) in Hi by lia.
    apply Qabs_Qle_condition in SR. destruct SR as [S1 S2].
    set (y := ((n # d) * T s)%Q) in *. clearbody y.
    set (a := 10 ^ (p - 1)) in *. set (b := 10 ^ p) in *. clearbody a b.
    assert (A1 : (inject_Z a - (1 # 2) <= inject_Z m0)%Q) by lra.
    assert (A2 : (inject_Z m0 < inject_Z b + 1)%Q) by lra.
    unfold Qle, Qlt, Qminus, Qplus, Qopp, inject_Z in A1, A2. cbn [Qnum Qden] in A1, A2. lia. }
  assert (ERR : (Qabs (inject_Z m0 * T (e - p + 1) - (n # d)) <= (1 # 2) * T (e - p + 1))%Q).
  { assert (EQ : (inject_Z m0 * T (e - p + 1) - (n # d) ==
                 (inject_Z m0 - (n # d) * T s) * T (e - p + 1))%Q).
    { assert (TS : (T s * T (e - p + 1) == 1)%Q).
      { replace (e - p + 1) with (- s) by (unfold s; lia). apply T_opp. }
      setoid_replace ((inject_Z m0 - (n # d) * T s) * T (e - p + 1))%Q
        with (inject_Z m0 * T (e - p + 1) - (n # d) * (T s * T (e - p + 1)))%Q by ring.
      rewrite TS. ring. }
    rewrite EQ, Qabs_Qmult, (Qabs_pos (T (e - p + 1))) by apply Qlt_le_weak, T_pos.
    apply Qmult_le_compat_r; [exact SR|apply Qlt_le_weak, T_pos]. }
  destruct (m0 =? 10 ^ p) eqn:EM; intros H; injection H as <- <-.
  - assert (PP : 10 ^ p = 10 * 10 ^ (p - 1)).
    { replace p with (Z.succ (p - 1)) at 1 by lia. rewrite Z.pow_succ_r; lia. }
    assert (0 < 10 ^ (p - 1)) by (apply Z.pow_pos_nonneg; lia).
    split; [lia|]. split; [lia|].
    assert (EQ : (inject_Z (10 ^ (p - 1)) * T (e + 1 - p + 1) == inject_Z m0 * T (e - p + 1))%Q).
    { replace (e + 1 - p + 1) with (1 + (e - p + 1)) by lia. rewrite T_plus, T_1.
      replace m0 with (10 * 10 ^ (p - 1)) by lia. rewrite inject_Z_mult. change (inject_Z 10) with 10%Q. ring. }
    rewrite EQ. exact ERR.
  - split; [lia|]. split; [lia|]. exact ERR.
Qed.

(** ** Trailing zeros *)

Definition zeros (k : nat) : str := repeat "0"%char k.

Lemma strip0_rev_split r : exists k, r = zeros k ++ strip0_rev r /\
  match strip0_rev r with [] => True | c :: _ => c <> "0"%char end.
Proof.
  induction r as [|c r (k & E & H)].
  - exists O. cbn. auto.
  - cbn. destruct (Ascii.eqb_spec c "0") as [->|N].
    + exists (S k). cbn. rewrite E at 1. auto.
    + exists O. cbn. auto.
Qed.

Lemma rev_zeros k : rev (zeros k) = zeros k.
Proof.
  unfold zeros. induction k; [reflexivity|]. cbn. rewrite IHk.
  clear. induction k; [reflexivity|]. cbn. now rewrite IHk.
Qed.

Lemma strip0_split s : exists k, s = strip0 s ++ zeros k /\
  forall f, strip0 s <> f ++ ["0"%char].
Proof.
  destruct (strip0_rev_split (rev s)) as (k & E & H). exists k. split.
  - rewrite <- (rev_involutive s) at 1. rewrite E, rev_app_distr, rev_zeros. reflexivity.
  - intros f F. unfold strip0 in F. apply (f_equal (@rev ascii)) in F.
    rewrite rev_involutive, rev_app_distr in F. cbn in F. rewrite F in H. congruence.
Qed.

Lemma strip0_fix s : (forall f, s <> f ++ ["0"%char]) -> strip0 s = s.
Proof.
  intros H. destruct (strip0_split s) as (k & E & _). destruct k.
  - cbn in E. rewrite app_nil_r in E. auto.
  - exfalso. apply (H (strip0 s ++ zeros k)). rewrite E at 1. unfold zeros.
    rewrite <- app_assoc. f_equal. clear. induction k; [reflexivity|]. cbn. f_equal. exact IHk.
Qed.

Lemma strip0_digits s : Forall isdig s -> Forall isdig (strip0 s).
Proof.
  intros H. destruct (strip0_split s) as (k & E & _). rewrite E in H. apply Forall_app in H. tauto.
Qed.

Lemma zeros_digits k : Forall isdig (zeros k).
Proof. unfold zeros. induction k; cbn; constructor; auto. unfold isdig. cbn. lia. Qed.

Lemma dval_zeros k : dval (zeros k) = 0.
Proof. induction k; [reflexivity|]. cbn [zeros repeat]. rewrite dval_cons. fold (zeros k). rewrite IHk. cbn. lia. Qed.

Lemma zeros_len k : length (zeros k) = k.
Proof. apply repeat_length. Qed.

(** The fraction after trimming: at least one digit. *)
Definition fz (fr : str) : str := match strip0 fr with [] => ["0"%char] | _ => strip0 fr end.

Lemma fz_nonnil fr : fz fr <> [].
Proof. unfold fz. destruct (strip0 fr); discriminate. Qed.

Lemma fz_clean fr : fz fr = ["0"%char] \/ forall f, fz fr <> f ++ ["0"%char].
Proof.
  unfold fz. destruct (strip0_split fr) as (k & E & H). destruct (strip0 fr); [left; reflexivity|right; exact H].
Qed.

Lemma fz_digits fr : Forall isdig fr -> Forall isdig (fz fr).
Proof.
  intros H. apply strip0_digits in H. unfold fz. destruct (strip0 fr); [|exact H].
  repeat constructor; cbn; lia.
Qed.

(** Value of digits with a point and an exponent. *)
Definition V (ip fr : str) (x : Z) : Q := (inject_Z (dval (ip ++ fr)) * T (x - Z.of_nat (length fr)))%Q.

Lemma V_zeros ip fr k x : (V ip (fr ++ zeros k) x == V ip fr x)%Q.
Proof.
  unfold V. rewrite app_assoc, dval_app, dval_zeros, app_length, zeros_len.
  rewrite Z.add_0_r, inject_Z_mult, <- T_nonneg_Z by lia. rewrite <- Qmult_assoc, <- T_plus.
  replace (Z.of_nat k + (x - Z.of_nat (length fr + k))) with (x - Z.of_nat (length fr)) by lia.
  reflexivity.
Qed.

Lemma V_strip0 ip fr x : (V ip (strip0 fr) x == V ip fr x)%Q.
Proof. destruct (strip0_split fr) as (k & E & _). rewrite E at 2. now rewrite V_zeros. Qed.

Lemma V_fz ip fr x : (V ip (fz fr) x == V ip fr x)%Q.
Proof.
  rewrite <- V_strip0 with (fr := fr). unfold fz. destruct (strip0 fr) eqn:E; [|reflexivity].
  apply (V_zeros ip [] 1 x).
Qed.

Lemma V_move ip a fr x : (V (ip ++ a) fr x == V ip (a ++ fr) (x + Z.of_nat (length a)))%Q.
Proof.
  unfold V. rewrite <- app_assoc, app_length.
  replace (x + Z.of_nat (length a) - Z.of_nat (length a + length fr)) with (x - Z.of_nat (length fr)) by lia.
  reflexivity.
Qed.

(** ** The trimming step *)

Definition plain (s : str) : Prop := Forall (fun c => isdig c \/ c = "-"%char) s.

Lemma plain_no_dot s : plain s -> ~ In "."%char s.
Proof.
  intros H I. apply (proj1 (Forall_forall _ _) H) in I. destruct I as [I|I]; [|discriminate].
  unfold isdig in I. cbn in I. lia.
Qed.

Lemma plain_digits s : Forall isdig s -> plain s.
Proof. intros H. eapply Forall_impl; [|exact H]. cbn. auto. Qed.

Lemma plain_app a b : plain a -> plain b -> plain (a ++ b).
Proof. intros. apply Forall_app; auto. Qed.

Lemma find_exp_plain a b : plain a -> find_exp (a ++ b) = option_map (fun k => (length a + k)%nat) (find_exp b).
Proof.
  induction 1 as [|c a H F IH]; cbn.
  - destruct (find_exp b); reflexivity.
  - assert (E : Ascii.eqb c "e" || Ascii.eqb c "E" = false).
    { rewrite !eqb_code. destruct H as [H| ->]; [|reflexivity]. unfold isdig in H.
      change (code "e") with 101. change (code "E") with 69. lia. }
    rewrite E, IH. destruct (find_exp b); reflexivity.
Qed.

Lemma find_exp_dot b : find_exp ("."%char :: b) = option_map S (find_exp b).
Proof. reflexivity. Qed.

Lemma at_zero_run X c k Y : forall j, (j < k)%nat ->
  at_ (X ++ c :: zeros k ++ Y) (length X + 1 + j) = "0"%char.
Proof.
  intros j H. unfold at_. rewrite app_nth2 by lia. replace (length X + 1 + j - length X)%nat with (S j) by lia.
  cbn [nth]. rewrite app_nth1 by (rewrite zeros_len; lia). unfold zeros.
  revert j H. induction k; intros j H; [lia|]. destruct j; [reflexivity|]. cbn. apply IHk. lia.
Qed.

Lemma back0_zeros X c k Y : c <> "0"%char ->
  back0 (X ++ c :: zeros k ++ Y) (length X + k) = length X.
Proof.
  intros N. set (s := X ++ c :: zeros k ++ Y).
  assert (G : forall j, (j <= k)%nat -> back0 s (length X + j) = length X).
  { induction j; intros H.
    - rewrite Nat.add_0_r. assert (A : at_ s (length X) = c) by apply at_mid.
      destruct (length X); cbn [back0]; rewrite A; destruct (Ascii.eqb_spec c "0"); congruence.
    - replace (length X + S j)%nat with (S (length X + j)) by lia. cbn [back0].
      replace (S (length X + j)) with (length X + 1 + j)%nat at 1 by lia.
      unfold s at 1. rewrite at_zero_run by lia. cbn. apply IHj. lia. }
  apply G. lia.
Qed.

Lemma last_split (s : str) : s <> [] -> exists f c, s = f ++ [c].
Proof. intros H. destruct (exists_last H) as (f & c & E). eauto. Qed.


Lemma back0_frac A fr Y : plain A -> Forall isdig fr -> fr <> [] ->
  let t := A ++ "."%char :: fr ++ Y in
  let p1 := back0 t (length A + length fr) in
  let p := if Ascii.eqb (at_ t p1) "." then S p1 else p1 in
  p = (length A + length (fz fr))%nat /\ firstn (S p) t = A ++ "."%char :: fz fr.
Proof.
  intros HA Hd Hn t p1 p. destruct (strip0_split fr) as (k & E & H).
  unfold fz in *. destruct (strip0 fr) as [|c0 f0] eqn:S0.
  - (* only zeros *)
    cbn [app] in E. assert (K : (0 < k)%nat) by (destruct k; [subst; cbn in Hn; congruence|lia]).
    assert (P1 : p1 = length A).
    { unfold p1, t. rewrite E, zeros_len. apply back0_zeros. discriminate. }
    assert (Pp : p = S (length A)).
    { unfold p. rewrite P1. unfold t. rewrite at_mid. reflexivity. }
    rewrite Pp. split; [cbn; lia|].
    unfold t. rewrite E. destruct k; [lia|]. cbn [zeros repeat].
    replace (A ++ "."%char :: ("0"%char :: repeat "0"%char k) ++ Y)
      with ((A ++ ["."; "0"]%char) ++ repeat "0"%char k ++ Y) by (rewrite <- app_assoc; reflexivity).
    replace (S (S (length A))) with (length (A ++ ["."; "0"]%char)) by (rewrite app_length; cbn; lia).
    rewrite firstn_mid. reflexivity.
  - destruct (last_split (c0 :: f0) ltac:(discriminate)) as (f & c & F). rewrite F in *.
    assert (C : c <> "0"%char) by (intros ->; eapply H; eauto).
    assert (T1 : t = (A ++ "."%char :: f) ++ c :: zeros k ++ Y).
    { unfold t. rewrite E. rewrite <- !app_assoc. reflexivity. }
    assert (P1 : p1 = length (A ++ "."%char :: f)).
    { unfold p1. rewrite T1. rewrite E.
      replace (length A + length ((f ++ [c]) ++ zeros k))%nat with (length (A ++ "."%char :: f) + k)%nat
        by (rewrite !app_length, zeros_len; cbn; lia).
      apply back0_zeros, C. }
    assert (Pp : p = p1).
    { unfold p. rewrite P1, T1, at_mid. destruct (Ascii.eqb_spec c ".") as [->|]; [|reflexivity].
      exfalso. rewrite E in Hd. apply Forall_app in Hd. destruct Hd as [Hd _]. apply Forall_app in Hd.
      destruct Hd as [_ Hd]. inversion Hd as [|? ? Q _]. unfold isdig in Q. cbn in Q. lia. }
    rewrite Pp, P1. split; [rewrite !app_length; cbn; lia|].
    rewrite T1. replace ((A ++ "."%char :: f) ++ c :: zeros k ++ Y)
      with ((A ++ "."%char :: f ++ [c]) ++ zeros k ++ Y) by (repeat (rewrite <- app_assoc; cbn [app]); reflexivity).
    replace (S (length (A ++ "."%char :: f))) with (length (A ++ "."%char :: f ++ [c]))
      by (rewrite !app_length; cbn; rewrite app_length; cbn; lia).
    apply firstn_mid.
Qed.

Lemma set_at_mid a c d b : set_at (a ++ c :: b) (length a) d = a ++ d :: b.
Proof.
  unfold set_at. rewrite firstn_mid. f_equal. f_equal.
  replace (S (length a)) with (length (a ++ [c])) by (rewrite app_length; cbn; lia).
  replace (a ++ c :: b) with ((a ++ [c]) ++ b) by (rewrite <- app_assoc; reflexivity).
  apply skipn_mid.
Qed.

Lemma find_char_dot A Y : plain A -> find_char "."%char (A ++ "."%char :: Y) = Some (length A).
Proof. intros. apply find_char_mid, plain_no_dot, H. Qed.

Lemma trim_dot_exp nc A fr y : plain A -> Forall isdig fr -> fr <> [] ->
  trim_real nc (A ++ "."%char :: fr ++ "e"%char :: y) = A ++ "."%char :: fz fr ++ "E"%char :: y.
Proof.
  intros HA Hf Hn. set (t := A ++ "."%char :: fr ++ "e"%char :: y).
  assert (FD : find_char "."%char t = Some (length A)) by (apply find_char_dot, HA).
  assert (FE : find_exp t = Some (length A + 1 + length fr)%nat).
  { unfold t. rewrite find_exp_plain by exact HA. rewrite find_exp_dot, find_exp_plain by (apply plain_digits; auto).
    cbn. f_equal. lia. }
  unfold trim_real. rewrite FD, FE. cbv zeta.
  replace (length A + 1 + length fr - 1)%nat with (length A + length fr)%nat by lia.
  destruct (back0_frac A fr ("e"%char :: y) HA Hf Hn) as [P F]. fold t in P, F.
  set (p := if Ascii.eqb (at_ t _) "." then _ else _) in *. clearbody p.
  assert (ST : set_at t (length A + 1 + length fr) "E" = A ++ "."%char :: fr ++ "E"%char :: y).
  { unfold t. replace (A ++ "."%char :: fr ++ "e"%char :: y) with ((A ++ "."%char :: fr) ++ "e"%char :: y)
      by (rewrite <- app_assoc; reflexivity).
    replace (length A + 1 + length fr)%nat with (length (A ++ "."%char :: fr)) by (rewrite app_length; cbn; lia).
    rewrite set_at_mid, <- app_assoc. reflexivity. }
  rewrite ST.
  destruct (back0_frac A fr ("E"%char :: y) HA Hf Hn) as [P' F'].
  set (p' := if Ascii.eqb (at_ (A ++ "."%char :: fr ++ "E"%char :: y) _) "." then _ else _) in *. clearbody p'.
  rewrite P' in F'. rewrite P, F'.
  rewrite <- app_assoc. cbn [app]. f_equal. f_equal. f_equal.
  replace (A ++ "."%char :: fr ++ "E"%char :: y) with ((A ++ "."%char :: fr) ++ "E"%char :: y)
      by (rewrite <- app_assoc; reflexivity).
  replace (length A + 1 + length fr)%nat with (length (A ++ "."%char :: fr)) by (rewrite app_length; cbn; lia).
  apply skipn_mid.
Qed.

Lemma trim_dot_plain nc A fr : plain A -> Forall isdig fr -> fr <> [] ->
  trim_real nc (A ++ "."%char :: fr) = A ++ "."%char :: fz fr.
Proof.
  intros HA Hf Hn. set (t := A ++ "."%char :: fr).
  assert (FD : find_char "."%char t = Some (length A)) by (apply find_char_dot, HA).
  assert (FE : find_exp t = None).
  { unfold t. rewrite find_exp_plain by exact HA. rewrite find_exp_dot.
    rewrite <- (app_nil_r fr), find_exp_plain by (apply plain_digits; auto). reflexivity. }
  unfold trim_real. rewrite FD, FE. cbv zeta.
  replace (length t - 1)%nat with (length A + length fr)%nat by (unfold t; rewrite app_length; cbn; lia).
  destruct (back0_frac A fr [] HA Hf Hn) as [P F]. rewrite app_nil_r in P, F. fold t in P, F. exact F.
Qed.

Lemma trim_nodot_exp nc A y : plain A -> ~ In "."%char y ->
  trim_real nc (A ++ "e"%char :: y) = A ++ (if 7 <? nc then "D"%char else "E"%char) :: y.
Proof.
  intros HA Hy. unfold trim_real.
  assert (FD : find_char "."%char (A ++ "e"%char :: y) = None).
  { apply find_char_none. intros I. apply in_app_or in I. destruct I as [I|[I|I]].
    - apply (plain_no_dot _ HA I). - discriminate. - auto. }
  rewrite FD, find_exp_plain by exact HA. cbn [find_exp Ascii.eqb orb]. cbn. rewrite Nat.add_0_r.
  apply set_at_mid.
Qed.

Lemma trim_nodot nc A : plain A -> trim_real nc A = A ++ S2 ".0".
Proof.
  intros HA. unfold trim_real.
  assert (FD : find_char "."%char A = None) by (apply find_char_none, plain_no_dot, HA).
  rewrite FD. rewrite <- (app_nil_r A) at 1. rewrite find_exp_plain by exact HA. reflexivity.
Qed.

(** ** The whole formatted text *)

Lemma show_exp_form x : exists sg d, show_exp x = "e"%char :: sg :: d /\
  ((sg = "+"%char /\ numeral d x) \/ (sg = "-"%char /\ numeral d (- x))) /\ ~ In "."%char (sg :: d).
Proof.
  unfold show_exp. destruct (showN_numeral (Z.abs x) ltac:(lia)) as (N1 & N2 & N3).
  set (d := if Z.abs x <? 10 then "0"%char :: showN (Z.abs x) else showN (Z.abs x)).
  assert (ND : numeral d (Z.abs x)).
  { unfold d. destruct (Z.abs x <? 10); [|split; auto].
    split; [discriminate|]. split; [constructor; [unfold isdig; cbn; lia|exact N2]|].
    rewrite dval_cons, N3. cbn. lia. }
  exists (if x <? 0 then "-"%char else "+"%char), d. split; [reflexivity|]. split.
  - destruct (x <? 0) eqn:E; [right|left]; (split; [reflexivity|]).
    + replace (- x) with (Z.abs x) by lia. exact ND.
    + replace x with (Z.abs x) by lia. exact ND.
  - intros [I|I]; [destruct (x <? 0); discriminate|].
    destruct ND as (_ & F & _). apply (plain_no_dot d (plain_digits _ F) I).
Qed.

Definition sgn_str (neg : bool) : str := if neg then ["-"%char] else [].
Definition sgn_q (neg : bool) (q : Q) : Q := if neg then (- q)%Q else q.

Lemma sgn_plain neg : plain (sgn_str neg).
Proof. destruct neg; cbn; constructor; [right; reflexivity|constructor]. Qed.

Lemma real_numeral_intro neg ip fr ex x q :
  ip <> [] -> Forall isdig ip -> Forall isdig fr -> exponent ex x -> (fr <> [] \/ ex <> []) ->
  (fr = ["0"%char] \/ forall f, fr <> f ++ ["0"%char]) -> (q == sgn_q neg (V ip fr x))%Q ->
  real_numeral (sgn_str neg ++ ip ++ dot_frac fr ++ ex) q.
Proof.
  intros H1 H2 H3 H4 H5 H6 H7.
  exists (sgn_str neg), ip, fr, ex, (if neg then - dval (ip ++ fr) else dval (ip ++ fr)), x.
  split; [reflexivity|]. split; [destruct neg; auto|]. do 6 (split; [assumption|]).
  rewrite H7. unfold V, T, sgn_q. destruct neg; [|reflexivity].
  rewrite inject_Z_opp. ring.
Qed.

Lemma exponent_E x sg d : (sg = "+"%char /\ numeral d x) \/ (sg = "-"%char /\ numeral d (- x)) ->
  forall mk, mk = "E"%char \/ mk = "D"%char -> exponent (mk :: sg :: d) x.
Proof. intros H mk M. right. exists mk, sg, d. auto. Qed.

(** Digits of the mantissa. *)
Lemma showN_width p m : 1 <= p -> 10 ^ (p - 1) <= m < 10 ^ p ->
  Z.of_nat (length (showN m)) = p /\ Forall isdig (showN m) /\ dval (showN m) = m /\ 0 < m.
Proof.
  intros Hp H. assert (0 < 10 ^ (p - 1)) by (apply Z.pow_pos_nonneg; lia).
  assert (L1 := showN_len m (Z.to_nat p) ltac:(lia) ltac:(lia)).
  rewrite Z2Nat.id in L1 by lia.
  assert (L2 := showN_len_ge m (Z.to_nat (p - 1))). rewrite Z2Nat.id in L2 by lia.
  pose proof (showN_digits m ltac:(lia)). pose proof (showN_dval m ltac:(lia)).
  repeat split; auto; lia.
Qed.

Lemma dot_frac_cons fr : fr <> [] -> dot_frac fr = "."%char :: fr.
Proof. destruct fr; [congruence|reflexivity]. Qed.

(** Text in exponent form, from [print_e] and [print_g]. *)
Lemma trim_sci nc neg ip fr x : ip <> [] -> Forall isdig ip -> Forall isdig fr ->
  exists t, trim_real nc (sgn_str neg ++ ip ++ dot_frac fr ++ show_exp x) = t /\
  (forall q, (q == sgn_q neg (V ip fr x))%Q -> real_numeral t q).
Proof.
  intros Hn Hi Hf. destruct (show_exp_form x) as (sg & d & -> & SG & ND).
  eexists. split; [reflexivity|]. intros q Hq. destruct fr as [|c fr].
  - cbn [dot_frac app]. rewrite app_assoc, trim_nodot_exp.
    2: { apply plain_app; [apply sgn_plain|apply plain_digits, Hi]. } 2: exact ND.
    set (mk := if 7 <? nc then "D"%char else "E"%char).
    assert (M : mk = "E"%char \/ mk = "D"%char) by (unfold mk; destruct (7 <? nc); auto).
    rewrite <- app_assoc. apply (real_numeral_intro neg ip [] (mk :: sg :: d) x q); auto.
    + apply exponent_E; auto.
    + right. discriminate.
    + right. intros f E. destruct f; discriminate.
  - rewrite dot_frac_cons by discriminate. rewrite app_assoc.
    change (("."%char :: c :: fr) ++ "e"%char :: sg :: d) with ("."%char :: (c :: fr) ++ "e"%char :: sg :: d).
    rewrite trim_dot_exp; auto; [|apply plain_app; [apply sgn_plain|apply plain_digits, Hi]|discriminate].
    rewrite <- app_assoc.
    change ("."%char :: fz (c :: fr) ++ "E"%char :: sg :: d) with (("."%char :: fz (c :: fr)) ++ "E"%char :: sg :: d).
    rewrite <- dot_frac_cons by apply fz_nonnil.
    apply (real_numeral_intro neg ip (fz (c :: fr)) ("E"%char :: sg :: d) x q); auto.
    + apply fz_digits, Hf. + apply exponent_E; auto. + right; discriminate. + apply fz_clean.
    + rewrite Hq. unfold sgn_q. destruct neg; rewrite V_fz; reflexivity.
Qed.

(** Text in fixed form, from [print_g]. *)
Lemma trim_fix nc neg ip fr : ip <> [] -> Forall isdig ip -> Forall isdig fr ->
  exists t, trim_real nc (sgn_str neg ++ ip ++ dot_frac fr) = t /\
  (forall q, (q == sgn_q neg (V ip fr 0))%Q -> real_numeral t q).
Proof.
  intros Hn Hi Hf. eexists. split; [reflexivity|]. intros q Hq. destruct fr as [|c fr].
  - cbn [dot_frac]. rewrite app_nil_r, trim_nodot.
    2: { apply plain_app; [apply sgn_plain|apply plain_digits, Hi]. }
    rewrite <- app_assoc. change (S2 ".0") with (dot_frac ["0"%char]).
    rewrite <- (app_nil_r (dot_frac _)).
    apply (real_numeral_intro neg ip ["0"%char] [] 0 q); auto.
    + repeat constructor; cbn; lia. + left; auto. + left; discriminate.
    + rewrite Hq. unfold sgn_q. pose proof (V_zeros ip [] 1 0) as Z. cbn [app zeros repeat] in Z.
      destruct neg; rewrite Z; reflexivity.
  - rewrite dot_frac_cons by discriminate. rewrite app_assoc.
    rewrite trim_dot_plain; auto; [|apply plain_app; [apply sgn_plain|apply plain_digits, Hi]|discriminate].
    rewrite <- app_assoc. rewrite <- dot_frac_cons by apply fz_nonnil.
    rewrite <- (app_nil_r (dot_frac _)).
    apply (real_numeral_intro neg ip (fz (c :: fr)) [] 0 q); auto.
    + apply fz_digits, Hf. + left; auto. + left. apply fz_nonnil. + apply fz_clean.
    + rewrite Hq. unfold sgn_q. destruct neg; rewrite V_fz; reflexivity.
Qed.

Lemma V_mant ip fr x m p : dval (ip ++ fr) = m -> Z.of_nat (length fr) = p -> (V ip fr x == inject_Z m * T (x - p))%Q.
Proof. intros <- <-. reflexivity. Qed.

Lemma split_digits k ds : Forall isdig ds -> (0 < k <= length ds)%nat ->
  firstn k ds <> [] /\ Forall isdig (firstn k ds) /\ Forall isdig (skipn k ds) /\
  Z.of_nat (length (skipn k ds)) = Z.of_nat (length ds) - Z.of_nat k.
Proof.
  intros H K. rewrite <- (firstn_skipn k ds) in H. apply Forall_app in H. destruct H as [H1 H2].
  repeat split; auto.
  - intros E. apply (f_equal (@length ascii)) in E. rewrite firstn_length in E. cbn in E. lia.
  - rewrite skipn_length. lia.
Qed.

Definition is_neg (v : Q) : bool := Qnum v <? 0.

Lemma print_e_spec nc v p : Qnum v <> 0 -> 1 <= p ->
  exists t m x, trim_real nc (print_e p v) = t /\
    sci_parts (p + 1) (Z.abs (Qnum v)) (Zpos (Qden v)) = (m, x) /\
    forall q, (q == sgn_q (is_neg v) (inject_Z m * T (x - (p + 1) + 1)))%Q -> real_numeral t q.
Proof.
  intros Hn Hp. unfold print_e. replace (Qnum v =? 0) with false by lia.
  destruct (sci_parts (p + 1) (Z.abs (Qnum v)) (Zpos (Qden v))) as [m x] eqn:SP.
  destruct (sci_parts_spec (p + 1) (Z.abs (Qnum v)) (Qden v) m x ltac:(lia) ltac:(lia) SP) as (B & _).
  destruct (showN_width (p + 1) m ltac:(lia) B) as (L & D & DV & _).
  destruct (split_digits 1 (showN m) D ltac:(lia)) as (N1 & D1 & D2 & L2).
  destruct (trim_sci nc (is_neg v) (firstn 1 (showN m)) (skipn 1 (showN m)) x N1 D1 D2) as (t & Et & Q).
  exists t, m, x. split; [exact Et|]. split; [reflexivity|]. intros q Hq. apply Q. rewrite Hq.
  assert (E : (V (firstn 1 (showN m)) (skipn 1 (showN m)) x == inject_Z m * T (x - (p + 1) + 1))%Q).
  { rewrite (V_mant _ _ x m p). 2: rewrite firstn_skipn; exact DV. 2: lia.
    replace (x - (p + 1) + 1) with (x - p) by lia. reflexivity. }
  unfold sgn_q. destruct (is_neg v); rewrite E; reflexivity.
Qed.

Lemma strip0_nonnil ds : 0 < dval ds -> strip0 ds <> [].
Proof.
  intros H E. destruct (strip0_split ds) as (k & S & _). rewrite E in S. cbn in S. rewrite S, dval_zeros in H. lia.
Qed.

Lemma print_g_spec nc v p : Qnum v <> 0 -> 1 <= p ->
  exists t m x, trim_real nc (print_g p v) = t /\
    sci_parts p (Z.abs (Qnum v)) (Zpos (Qden v)) = (m, x) /\
    forall q, (q == sgn_q (is_neg v) (inject_Z m * T (x - p + 1)))%Q -> real_numeral t q.
Proof.
  intros Hn Hp. unfold print_g. replace (Qnum v =? 0) with false by lia.
  destruct (sci_parts p (Z.abs (Qnum v)) (Zpos (Qden v))) as [m x] eqn:SP.
  destruct (sci_parts_spec p (Z.abs (Qnum v)) (Qden v) m x ltac:(lia) ltac:(lia) SP) as (B & _).
  destruct (showN_width p m ltac:(lia) B) as (L & D & DV & M0).
  destruct ((x <? -4) || (p <=? x)) eqn:C1; [|destruct (0 <=? x) eqn:C2].
  - destruct (split_digits 1 (showN m) D ltac:(lia)) as (N1 & D1 & D2 & L2).
    destruct (trim_sci nc (is_neg v) (firstn 1 (showN m)) (strip0 (skipn 1 (showN m))) x N1 D1 (strip0_digits _ D2)) as (t & Et & Q).
    exists t, m, x. split; [exact Et|]. split; [reflexivity|]. intros q Hq. apply Q. rewrite Hq.
    assert (E : (V (firstn 1 (showN m)) (strip0 (skipn 1 (showN m))) x == inject_Z m * T (x - p + 1))%Q).
    { rewrite V_strip0. rewrite (V_mant _ _ x m (p - 1)). 2: rewrite firstn_skipn; exact DV. 2: lia.
      replace (x - (p - 1)) with (x - p + 1) by lia. reflexivity. }
    unfold sgn_q. destruct (is_neg v); rewrite E; reflexivity.
  - cbv zeta. set (k := Z.to_nat (x + 1)).
    destruct (split_digits k (showN m) D ltac:(lia)) as (N1 & D1 & D2 & L2).
    destruct (trim_fix nc (is_neg v) (firstn k (showN m)) (strip0 (skipn k (showN m))) N1 D1 (strip0_digits _ D2)) as (t & Et & Q).
    exists t, m, x. split; [exact Et|]. split; [reflexivity|]. intros q Hq. apply Q. rewrite Hq.
    assert (E : (V (firstn k (showN m)) (strip0 (skipn k (showN m))) 0 == inject_Z m * T (x - p + 1))%Q).
    { rewrite V_strip0. rewrite (V_mant _ _ 0 m (p - (x + 1))). 2: rewrite firstn_skipn; exact DV. 2: lia.
      replace (0 - (p - (x + 1))) with (x - p + 1) by lia. reflexivity. }
    unfold sgn_q. destruct (is_neg v); rewrite E; reflexivity.
  - set (k := Z.to_nat (- x - 1)).
    assert (NS : strip0 (showN m) <> []) by (apply strip0_nonnil; lia).
    assert (NN : zeros k ++ strip0 (showN m) <> []) by (destruct (strip0 (showN m)); [congruence|destruct (zeros k); discriminate]).
    destruct (trim_fix nc (is_neg v) ["0"%char] (zeros k ++ strip0 (showN m))) as (t & Et & Q).
    { discriminate. } { repeat constructor; cbn; lia. }
    { apply Forall_app. split; [apply zeros_digits|apply strip0_digits, D]. }
    exists t, m, x. split; [|split; [reflexivity|]].
    + rewrite <- Et. rewrite dot_frac_cons by exact NN. reflexivity.
    + intros q Hq. apply Q. rewrite Hq.
      assert (E : (V ["0"%char] (zeros k ++ strip0 (showN m)) 0 == inject_Z m * T (x - p + 1))%Q).
      { destruct (strip0_split (showN m)) as (j & ES & _).
        rewrite <- (V_zeros _ _ j). rewrite <- app_assoc, <- ES.
        rewrite (V_mant _ _ 0 m (- x - 1 + p)).
        - replace (0 - (- x - 1 + p)) with (x - p + 1) by lia. reflexivity.
        - cbn [app]. rewrite dval_cons, dval_app, dval_zeros, DV. cbn. lia.
        - rewrite app_length, zeros_len. unfold k. lia. }
      unfold sgn_q. destruct (is_neg v); rewrite E; reflexivity.
Qed.

Lemma sgn_q_abs v : (v == sgn_q (is_neg v) (Z.abs (Qnum v) # Qden v))%Q.
Proof.
  unfold sgn_q, is_neg. destruct v as [n d]. cbn [Qnum Qden]. destruct (n <? 0) eqn:E;
    unfold Qeq, Qopp; cbn [Qnum Qden]; f_equal; lia.
Qed.

Lemma Qabs_frac v : (Qabs v == Z.abs (Qnum v) # Qden v)%Q.
Proof. destruct v. reflexivity. Qed.

Lemma Qabs_sgn b q : (Qabs (sgn_q b q) == Qabs q)%Q.
Proof. destruct b; cbn; [apply Qabs_opp|reflexivity]. Qed.

(** Rounding of a value to [p] significant digits: bounds used below. *)
Lemma rounded_bounds v p m x : Qnum v <> 0 -> 1 <= p ->
  sci_parts p (Z.abs (Qnum v)) (Zpos (Qden v)) = (m, x) ->
  let e := flog10 (Z.abs (Qnum v)) (Zpos (Qden v)) in
  let q := sgn_q (is_neg v) (inject_Z m * T (x - p + 1)) in
  (Qabs (q - v) <= (1 # 2) * T (e - p + 1))%Q /\ (T e <= Qabs q)%Q /\ (Qabs q <= T (e + 2))%Q /\
  (T e <= Qabs v)%Q /\ (Qabs v < T (e + 1))%Q /\ exists M, (q == inject_Z M * T (e - p + 1))%Q.
Proof.
  intros Hn Hp SP e q.
  destruct (sci_parts_spec p (Z.abs (Qnum v)) (Qden v) m x Hp ltac:(lia) SP) as (B & X & ERR).
  destruct (flog10_spec (Z.abs (Qnum v)) (Qden v) ltac:(lia)) as [F1 F2].
  fold e in X, ERR, F1, F2.
  assert (A : (Qabs (q - v) == Qabs (inject_Z m * T (x - p + 1) - (Z.abs (Qnum v) # Qden v)))%Q).
  { unfold q. rewrite (sgn_q_abs v) at 2. unfold sgn_q. destruct (is_neg v); [|reflexivity].
    rewrite <- Qabs_opp. apply Qabs_wd. ring. }
  split; [rewrite A; exact ERR|].
  assert (PM : (Qabs q == inject_Z m * T (x - p + 1))%Q).
  { unfold q. rewrite Qabs_sgn. apply Qabs_pos. apply Qmult_le_0_compat; [|apply Qlt_le_weak, T_pos].
    assert (0 < 10 ^ (p - 1)) by (apply Z.pow_pos_nonneg; lia).
    unfold Qle, inject_Z. cbn. lia. }
  assert (TM : forall a b, a <= b -> (T a <= T b)%Q).
  { intros a b AB. replace b with (a + (b - a)) by lia. rewrite T_plus.
    rewrite <- (Qmult_1_r (T a)) at 1. apply Qmult_le_l; [apply T_pos|].
    rewrite T_nonneg_Z by lia. assert (0 < 10 ^ (b - a)) by (apply Z.pow_pos_nonneg; lia).
    unfold Qle, inject_Z. cbn [Qnum Qden]. lia. }
  split; [|split].
  - rewrite PM. apply Qle_trans with (T x); [apply TM; lia|].
    replace x with ((p - 1) + (x - p + 1)) at 1 by lia. rewrite T_plus.
    apply Qmult_le_compat_r; [|apply Qlt_le_weak, T_pos]. rewrite T_nonneg_Z by lia.
    rewrite <- Zle_Qle. lia.
  - rewrite PM. apply Qle_trans with (T (x + 1)); [|apply TM; lia].
    replace (x + 1) with (p + (x - p + 1)) by lia. rewrite (T_plus p (x - p + 1)).
    apply Qmult_le_compat_r; [|apply Qlt_le_weak, T_pos]. rewrite T_nonneg_Z by lia.
    rewrite <- Zle_Qle. lia.
  - rewrite Qabs_frac. split; [exact F1|]. split; [exact F2|].
    assert (EQ : (inject_Z m * T (x - p + 1) == inject_Z (m * 10 ^ (x - e)) * T (e - p + 1))%Q).
    { rewrite inject_Z_mult, <- T_nonneg_Z by lia. rewrite <- Qmult_assoc, <- T_plus.
      replace (x - e + (e - p + 1)) with (x - p + 1) by lia. reflexivity. }
    unfold q, sgn_q. destruct (is_neg v).
    + exists (- (m * 10 ^ (x - e))). rewrite EQ, inject_Z_opp. ring.
    + exists (m * 10 ^ (x - e)). exact EQ.
Qed.

Lemma T_mono a b : a <= b -> (T a <= T b)%Q.
Proof.
  intros AB. replace b with (a + (b - a)) by lia. rewrite T_plus.
  rewrite <- (Qmult_1_r (T a)) at 1. apply Qmult_le_l; [apply T_pos|].
  rewrite T_nonneg_Z by lia. assert (0 < 10 ^ (b - a)) by (apply Z.pow_pos_nonneg; lia).
  unfold Qle, inject_Z. cbn [Qnum Qden]. lia.
Qed.

Lemma Qle_bool_false a b : Qle_bool a b = false -> (b < a)%Q.
Proof.
  intros H. apply Qnot_le_lt. intros L. apply Qle_bool_iff in L. congruence.
Qed.

Lemma format_real_spec nc v delim : 1 <= nc ->
  exists t q, format_real nc v delim = t ++ [delim] /\ real_numeral t q /\
    ((Qabs v < q_1em8)%Q -> (q == 0)%Q) /\
    ((q_1em8 <= Qabs v)%Q ->
      let e := flog10 (Z.abs (Qnum v)) (Zpos (Qden v)) in
      exists p, nc <= p /\
      (Qabs (q - v) <= (1 # 2) * T (e - p + 1))%Q /\ (T e <= Qabs q)%Q /\ (Qabs q <= T (e + 2))%Q /\
      (T e <= Qabs v)%Q /\ (Qabs v < T (e + 1))%Q /\ exists M, (q == inject_Z M * T (e - p + 1))%Q).
Proof.
  intros Hnc. unfold format_real. cbv zeta. destruct (Qle_bool q_1em8 (Qabs v)) eqn:E1.
  - apply Qle_bool_iff in E1.
    assert (NZ : Qnum v <> 0).
    { intros Z. rewrite Qabs_frac, Z in E1. unfold q_1em8, Qle in E1. cbn in E1. lia. }
    destruct (Qle_bool (Qabs v) q_999_9) eqn:E2.
    + destruct (print_g_spec nc v nc NZ Hnc) as (t & m & x & Et & SP & R).
      exists t, (sgn_q (is_neg v) (inject_Z m * T (x - nc + 1))). rewrite Et.
      split; [reflexivity|]. split; [apply R; reflexivity|]. split.
      * intros L. exfalso. apply (Qlt_not_le _ _ L E1).
      * intros _. exists nc. split; [lia|]. apply (rounded_bounds v nc m x NZ Hnc SP).
    + destruct (print_e_spec nc v nc NZ Hnc) as (t & m & x & Et & SP & R).
      exists t, (sgn_q (is_neg v) (inject_Z m * T (x - (nc + 1) + 1))). rewrite Et.
      split; [reflexivity|]. split; [apply R; reflexivity|]. split.
      * intros L. exfalso. apply (Qlt_not_le _ _ L E1).
      * intros _. exists (nc + 1). split; [lia|]. apply (rounded_bounds v (nc + 1) m x NZ ltac:(lia) SP).
  - apply Qle_bool_false in E1.
    exists (S2 "0.0"), 0%Q.
    assert (P0 : Qle_bool (Qabs 0) q_999_9 = true) by reflexivity. rewrite P0.
    split; [reflexivity|]. split.
    + apply (real_numeral_intro false ["0"%char] ["0"%char] [] 0 0).
      * discriminate. * repeat constructor; cbn; lia. * repeat constructor; cbn; lia.
      * left; auto. * left; discriminate. * left; reflexivity. * reflexivity.
    + split; [reflexivity|]. intros L. exfalso. apply (Qlt_not_le _ _ E1 L).
Qed.

(** ** Reading a real constant *)

Lemma d_to_e_app a b : ~ In "D"%char a -> d_to_e (a ++ b) = a ++ d_to_e b.
Proof.
  induction a as [|c a IH]; cbn; intros H; [reflexivity|].
  destruct (Ascii.eqb_spec c "D") as [->|]; [exfalso; apply H; auto|]. f_equal. apply IH. tauto.
Qed.

Lemma d_to_e_none a : ~ In "D"%char a -> d_to_e a = a.
Proof. intros H. rewrite <- (app_nil_r a) at 1. rewrite d_to_e_app by exact H. cbn. apply app_nil_r. Qed.

Lemma digits_not_in c s : ~ isdig c -> Forall isdig s -> ~ In c s.
Proof. intros H F I. apply (proj1 (Forall_forall _ _) F) in I. auto. Qed.

Lemma scan_exp_E ex x : exponent ex x -> scan_exp (d_to_e ex) = (x, []).
Proof.
  intros [[-> ->]|(mk & sg & d & -> & M & S)]; [reflexivity|].
  assert (ND : Forall isdig d) by (destruct S as [[_ (_ & F & _)]|[_ (_ & F & _)]]; exact F).
  assert (NDD : ~ In "D"%char d) by (apply digits_not_in; [unfold isdig; cbn; lia|exact ND]).
  assert (E : d_to_e (mk :: sg :: d) = "E"%char :: sg :: d).
  { destruct M as [-> | ->]; [|reflexivity].
    apply d_to_e_none. intros [I|[I|I]]; [discriminate| |auto].
    destruct S as [[-> _]|[-> _]]; discriminate. }
  rewrite E. cbn [scan_exp Ascii.eqb orb]. cbn.
  destruct S as [[-> (N1 & N2 & N3)]|[-> (N1 & N2 & N3)]]; cbn.
  - destruct d as [|c d]; [congruence|]. inversion N2; subst. unfold is_digit.
    rewrite digit_val_isdig by auto. rewrite <- (app_nil_r (c :: d)) at 1.
    rewrite scan_digits_app by (cbn; auto). reflexivity.
  - destruct d as [|c d]; [congruence|]. inversion N2; subst. unfold is_digit.
    rewrite digit_val_isdig by auto. rewrite <- (app_nil_r (c :: d)) at 1.
    rewrite scan_digits_app by (cbn; auto). unfold dvacc. fold (dval (c :: d)). f_equal. lia.
Qed.

Lemma dvacc_dval a b : dvacc (dval a) b = dval (a ++ b).
Proof. rewrite dvacc_lin, dval_app. reflexivity. Qed.

Lemma exponent_stops ex x : exponent ex x -> stops (d_to_e ex) /\
  match d_to_e ex with [] => True | c :: _ => c <> "."%char end.
Proof.
  intros [[-> ->]|(mk & sg & d & -> & M & _)]; cbn; [auto|].
  destruct M as [-> | ->]; cbn; unfold isdig; cbn; split; lia || discriminate.
Qed.

Lemma in_double_range_ext a b : (a == b)%Q -> in_double_range a = in_double_range b.
Proof.
  intros E. unfold in_double_range.
  assert (Q1 : Qeq_bool a 0 = Qeq_bool b 0).
  { destruct (Qeq_bool a 0) eqn:A, (Qeq_bool b 0) eqn:B; auto.
    - apply Qeq_bool_iff in A. rewrite E in A. apply Qeq_bool_iff in A. congruence.
    - apply Qeq_bool_iff in B. rewrite <- E in B. apply Qeq_bool_iff in B. congruence. }
  rewrite Q1. assert (EA : (Qabs a == Qabs b)%Q) by (rewrite E; reflexivity).
  assert (L : forall c, Qle_bool c (Qabs a) = Qle_bool c (Qabs b)).
  { intros c. destruct (Qle_bool c (Qabs a)) eqn:A, (Qle_bool c (Qabs b)) eqn:B; auto.
    - apply Qle_bool_iff in A. rewrite EA in A. apply Qle_bool_iff in A. congruence.
    - apply Qle_bool_iff in B. rewrite <- EA in B. apply Qle_bool_iff in B. congruence. }
  rewrite !L. reflexivity.
Qed.

Lemma real_numeral_wd t q q' : (q == q')%Q -> real_numeral t q -> real_numeral t q'.
Proof.
  intros E (sg & ip & fr & ex & m & x & H1 & H2 & H3 & H4 & H5 & H6 & H7 & H8 & H9).
  exists sg, ip, fr, ex, m, x. repeat (split; [assumption|]). rewrite <- E. exact H9.
Qed.

Lemma isspc_not_D w : Forall isspc w -> ~ In "D"%char w.
Proof.
  intros F I. apply (proj1 (Forall_forall _ _) F) in I. unfold isspc in I. cbn in I. lia.
Qed.

Lemma strtod_real w t q : Forall isspc w -> real_numeral t q -> in_double_range q = true ->
  exists q', (q' == q)%Q /\ strtod (d_to_e (w ++ t)) = Some (q', []).
Proof.
  intros W (sg & ip & fr & ex & m & x & -> & HS & N1 & D1 & D2 & HX & _ & _ & HQ) R.
  set (dot := match fr with [] => [] | _ => "."%char :: fr end).
  assert (DE : d_to_e (w ++ sg ++ ip ++ dot ++ ex) = w ++ sg ++ ip ++ dot ++ d_to_e ex).
  { assert (isD : ~ isdig "D"%char) by (unfold isdig; cbn; lia).
    rewrite d_to_e_app by (apply isspc_not_D, W). f_equal.
    rewrite d_to_e_app. 2: { destruct HS as [[-> _]|[-> _]]; cbn; [tauto|intros [I|[]]; discriminate]. } f_equal.
    rewrite d_to_e_app by (apply digits_not_in; auto). f_equal.
    rewrite d_to_e_app; [reflexivity|]. unfold dot. destruct fr as [|c fr]; [tauto|].
    intros [I|I]; [discriminate|]. revert I. apply digits_not_in; auto. }
  rewrite DE. unfold strtod. rewrite skip_space_app by exact W.
  destruct ip as [|c ip]; [congruence|]. set (IP := c :: ip) in *.
  assert (DC : isdig c) by (inversion D1; auto).
  assert (TS : take_sign (skip_space (sg ++ IP ++ dot ++ d_to_e ex)) =
               (match sg with [] => false | _ => true end, IP ++ dot ++ d_to_e ex)).
  { destruct HS as [[-> _]|[-> _]]; cbn.
    - rewrite isdig_not_space by exact DC. destruct (isdig_not_sign c DC) as [A B]. cbn. rewrite A, B. reflexivity.
    - reflexivity. }
  rewrite TS. clear TS.
  destruct (exponent_stops ex x HX) as [ST ND].
  assert (STD : stops (dot ++ d_to_e ex)).
  { unfold dot. destruct fr; [exact ST|]. cbn. unfold isdig. cbn. lia. }
  rewrite scan_digits_app by auto. change (dvacc 0 IP) with (dval IP).
  cbv beta iota zeta.
  replace (length (IP ++ dot ++ d_to_e ex) - length (dot ++ d_to_e ex))%nat with (length IP) by (rewrite app_length; lia).
  assert (MID : (match dot ++ d_to_e ex with
     | c :: r => if Ascii.eqb c "." then let '(m, r') := scan_digits r (dval IP) in (m, r', (length r - length r')%nat)
                 else (dval IP, dot ++ d_to_e ex, O)
     | [] => (dval IP, dot ++ d_to_e ex, O) end) = (dval (IP ++ fr), d_to_e ex, length fr)).
  { unfold dot. destruct fr as [|f fr].
    - cbn [app]. rewrite app_nil_r. destruct (d_to_e ex) as [|y ys]; [reflexivity|].
      destruct (Ascii.eqb_spec y "."); [congruence|reflexivity].
    - cbn [app]. rewrite Ascii.eqb_refl. change (f :: fr ++ d_to_e ex) with ((f :: fr) ++ d_to_e ex).
      rewrite scan_digits_app by auto. rewrite dvacc_dval. f_equal. rewrite app_length. lia. }
  match goal with |- context[match dot ++ d_to_e ex with [] => ?A | _ => _ end] =>
    match goal with |- context[?M] =>
      match M with match dot ++ d_to_e ex with _ => _ end =>
        replace M with (dval (IP ++ fr), d_to_e ex, length fr) by (symmetry; exact MID) end end end.
  rewrite (scan_exp_E ex x HX).
  replace (length IP + length fr =? 0)%nat with false by (unfold IP; cbn; reflexivity).
  set (mm := if match sg with [] => false | _ => true end then - dval (IP ++ fr) else dval (IP ++ fr)).
  assert (EM : mm = m) by (unfold mm; destruct HS as [[-> ->]|[-> ->]]; reflexivity).
  rewrite EM. assert (EQ : (dec2Q m (x - Z.of_nat (length fr)) == q)%Q) by (rewrite dec2Q_T, HQ; reflexivity).
  exists (dec2Q m (x - Z.of_nat (length fr))). split; [exact EQ|].
  rewrite (in_double_range_ext _ _ EQ), R. reflexivity.
Qed.

Lemma real_no_delim c t q : delim_char c -> real_numeral t q -> ~ In c t.
Proof.
  intros (R & ND & P & M & DOT & DD & EE & _) (sg & ip & fr & ex & m & x & -> & HS & _ & D1 & D2 & HX & _).
  rewrite !in_app_iff. intros [I|[I|[I|I]]].
  - destruct HS as [[-> _]|[-> _]]; cbn in I; [tauto|]. destruct I as [I|[]]; congruence.
  - revert I. apply digits_not_in; auto.
  - destruct fr as [|f fr]; [tauto|]. destruct I as [I|I]; [congruence|]. revert I. apply digits_not_in; auto.
  - destruct HX as [[-> _]|(mk & sg' & d & -> & MK & S)]; [tauto|].
    destruct I as [I|[I|I]].
    + destruct MK as [-> | ->]; congruence.
    + destruct S as [[-> _]|[-> _]]; congruence.
    + revert I. apply digits_not_in; auto. destruct S as [[_ (_ & F & _)]|[_ (_ & F & _)]]; exact F.
Qed.

Lemma real_nonnil t q : real_numeral t q -> t <> [].
Proof.
  intros (sg & ip & fr & ex & m & x & -> & HS & N & _) E.
  apply app_eq_nil in E. destruct E as [_ E]. apply app_eq_nil in E. tauto.
Qed.

Lemma ParseReal_item pre b t q d post eor pd rd dflt :
  delims pd rd -> blanks b -> real_numeral t q -> in_double_range q = true -> (d = pd \/ d = rd) ->
  exists q', (q' == q)%Q /\
  ParseReal (pre ++ b ++ t ++ d :: post) (length pre) eor pd rd dflt =
    POk (q', (length pre + length (b ++ t) + 1)%nat, eor_of d rd eor).
Proof.
  intros (Hpd & Hrd & _) Hb Ht R Hd.
  destruct (strtod_real b t q (blanks_spc _ Hb) Ht R) as (q' & E & S). exists q'. split; [exact E|].
  unfold ParseReal. rewrite (app_assoc b t).
  rewrite ParseLString_item; auto.
  - cbn [pbind]. rewrite S. destruct (b ++ t) eqn:N; [|reflexivity].
    apply app_eq_nil in N. destruct N as [_ N]. exfalso. eapply real_nonnil; eauto.
  - rewrite in_app_iff. intros [I|I]; [eapply blanks_not_in in I; eauto; apply delim_not_sp; auto|].
    eapply real_no_delim in I; eauto.
  - rewrite in_app_iff. intros [I|I]; [eapply blanks_not_in in I; eauto; apply delim_not_sp; auto|].
    eapply real_no_delim in I; eauto.
Qed.

Lemma in_double_range_ok q : (T (-300) <= Qabs q)%Q -> (Qabs q <= T 307)%Q -> in_double_range q = true.
Proof.
  intros L U. unfold in_double_range.
  assert (A : Qle_bool (1 # 2 ^ 1022) (Qabs q) = true).
  { apply Qle_bool_iff. eapply Qle_trans; [|exact L]. apply Qle_bool_iff. vm_compute. reflexivity. }
  assert (B : Qle_bool (inject_Z (2 ^ 1024 - 2 ^ 970)) (Qabs q) = false).
  { destruct (Qle_bool (inject_Z (2 ^ 1024 - 2 ^ 970)) (Qabs q)) eqn:E; [|reflexivity]. exfalso. apply Qle_bool_iff in E.
    assert (X : (inject_Z (2 ^ 1024 - 2 ^ 970) <= T 307)%Q) by (eapply Qle_trans; eauto).
    apply Qle_bool_iff in X. vm_compute in X. discriminate. }
  rewrite A, B. cbn. apply orb_true_r.
Qed.

(** ** Accuracy *)

(** Digit counts which the C++ may use for [v] at resolution [r]: enough digits
    to resolve [r]/1000, or the maximum of 16.  (See [real_digits].) *)
Definition nc_admissible (nc : Z) (v r : Q) : Prop :=
  6 <= nc <= 16 /\ (nc < 16 -> (Qabs v < T (nc - 4) * r)%Q).

Lemma T_lt_inv a b : (T a < T b)%Q -> a < b.
Proof.
  intros H. destruct (Z.lt_ge_cases a b) as [L|G]; [exact L|].
  exfalso. apply (Qlt_not_le _ _ H). apply T_mono, G.
Qed.

Lemma flog10_mono n d : (T 1 <= n # d)%Q -> 0 < n -> 1 <= flog10 n (Zpos d).
Proof.
  intros H Hn. destruct (flog10_spec n d Hn) as [_ F2].
  assert (L : (T 1 < T (flog10 n (Zpos d) + 1))%Q) by (eapply Qle_lt_trans; eauto).
  apply T_lt_inv in L. lia.
Qed.

Lemma real_digits_admissible v r : (0 < r)%Q -> nc_admissible (real_digits v r) v r.
Proof.
  intros Hr. unfold real_digits. cbv zeta.
  set (w := Qabs (v / r)). set (vl := if Qle_bool 10 w then w else 10%Q).
  assert (W10 : (10 <= vl)%Q /\ (w <= vl)%Q).
  { unfold vl. destruct (Qle_bool 10 w) eqn:E.
    - apply Qle_bool_iff in E. split; [exact E|apply Qle_refl].
    - apply Qle_bool_false in E. split; [apply Qle_refl|apply Qlt_le_weak, E]. }
  destruct W10 as [W1 W2].
  assert (VP : 0 < Qnum vl).
  { assert (P : (0 < vl)%Q) by (eapply Qlt_le_trans; [|exact W1]; reflexivity).
    unfold Qlt in P. cbn in P. lia. }
  assert (VE : (vl == Qnum vl # Qden vl)%Q) by (destruct vl; reflexivity).
  pose proof (flog10_mono (Qnum vl) (Qden vl)) as M. rewrite <- VE in M. specialize (M W1 VP).
  destruct (flog10_spec (Qnum vl) (Qden vl) VP) as [F1 F2]. rewrite <- VE in F1, F2.
  set (e := flog10 (Qnum vl) (Zpos (Qden vl))) in *. clearbody e. clearbody vl.
  split; [lia|]. intros LT. replace (Z.min 16 (e + 1 + 4) - 4) with (e + 1) by lia.
  assert (WL : (w < T (e + 1))%Q) by (eapply Qle_lt_trans; eauto).
  assert (WE : (w * r == Qabs v)%Q).
  { unfold w. rewrite <- (Qabs_pos r) at 2 by apply Qlt_le_weak, Hr. rewrite <- Qabs_Qmult.
    apply Qabs_wd. field. intros Z. rewrite Z in Hr. discriminate Hr. }
  rewrite <- WE. apply Qmult_lt_compat_r; auto.
Qed.

Lemma format_real_accuracy nc v r delim : nc_admissible nc v r -> (0 < r)%Q ->
  exists t q, format_real nc v delim = t ++ [delim] /\ real_numeral t q /\
    ((Qabs v < q_1em8)%Q -> (q == 0)%Q) /\
    ((q_1em8 <= Qabs v)%Q ->
       (nc < 16 /\ (Qabs (q - v) <= (1 # 2000) * r)%Q) \/
       (nc = 16 /\ (Qabs (q - v) <= (5 # 10000000000000000) * Qabs v)%Q)) /\
    ((q_1em8 <= Qabs v)%Q -> (Qabs (q - v) <= (5 # 1000000) * Qabs v)%Q) /\
    ((q_1em8 <= Qabs v)%Q -> forall n k, (v == inject_Z n * T k)%Q -> Z.abs n < 1000000 -> (q == v)%Q) /\
    ((Qabs v <= T 300)%Q -> in_double_range q = true).
Proof.
  intros (N1 & N2) Hr.
  destruct (format_real_spec nc v delim ltac:(lia)) as (t & q & E & R & Z & A).
  exists t, q. split; [exact E|]. split; [exact R|]. split; [exact Z|]. split; [|split; [|split]].
  - intros L. destruct (A L) as (p & Np & A1 & _ & _ & A4 & _). cbv zeta in A1, A4.
    set (e := flog10 (Z.abs (Qnum v)) (Zpos (Qden v))) in *. clearbody e.
    assert (A1' : (Qabs (q - v) <= (1 # 2) * T (e - nc + 1))%Q).
    { eapply Qle_trans; [exact A1|]. apply Qmult_le_l; [reflexivity|]. apply T_mono. lia. }
    clear A1. rename A1' into A1.
    destruct (Z.eq_dec nc 16) as [->|NE]; [right|left].
    + split; [reflexivity|]. eapply Qle_trans; [exact A1|].
      replace (e - 16 + 1) with ((-15) + e) by lia. rewrite T_plus, Qmult_assoc.
      setoid_replace ((1 # 2) * T (-15))%Q with (5 # 10000000000000000)%Q by reflexivity.
      apply Qmult_le_l; [reflexivity|exact A4].
    + split; [lia|]. specialize (N2 ltac:(lia)).
      eapply Qle_trans; [exact A1|].
      replace (e - nc + 1) with (1 - nc + e) by lia. rewrite T_plus.
      assert (B : (T (1 - nc) * T e <= T (-3) * r)%Q).
      { replace (-3) with (1 - nc + (nc - 4)) by lia. rewrite (T_plus (1 - nc) (nc - 4)), <- Qmult_assoc.
        apply Qmult_le_l; [apply T_pos|]. eapply Qle_trans; [exact A4|]. apply Qlt_le_weak, N2. }
      setoid_replace ((1 # 2000) * r)%Q with ((1 # 2) * (T (-3) * r))%Q.
      2: { change (T (-3)) with (1 # 1000)%Q. ring. }
      apply Qmult_le_l; [reflexivity|exact B].
  - intros L. destruct (A L) as (p & Np & A1 & _ & _ & A4 & _). cbv zeta in A1, A4.
    set (e := flog10 (Z.abs (Qnum v)) (Zpos (Qden v))) in *. clearbody e.
    eapply Qle_trans; [exact A1|]. eapply Qle_trans; [apply Qmult_le_l; [reflexivity|apply (T_mono _ (-5 + e)); lia]|].
    rewrite T_plus, Qmult_assoc. setoid_replace ((1 # 2) * T (-5))%Q with (5 # 1000000)%Q by reflexivity.
    apply Qmult_le_l; [reflexivity|exact A4].
  - intros L n k Hv Hn. destruct (A L) as (p & Np & A1 & _ & _ & A4 & _ & M & HM). cbv zeta in A1, A4, HM.
    set (e := flog10 (Z.abs (Qnum v)) (Zpos (Qden v))) in *. clearbody e.
    assert (K : e - p + 1 <= k).
    { assert (X : e < 6 + k); [|lia]. apply T_lt_inv. eapply Qle_lt_trans; [exact A4|].
      rewrite Hv, Qabs_Qmult, (Qabs_pos (T k)) by apply Qlt_le_weak, T_pos. rewrite T_plus.
      apply Qmult_lt_compat_r; [apply T_pos|]. rewrite T_nonneg_Z by lia. change (10 ^ 6) with 1000000.
      unfold Qlt, Qabs, inject_Z. cbn. lia. }
    assert (Hv2 : (v == inject_Z (n * 10 ^ (k - (e - p + 1))) * T (e - p + 1))%Q).
    { rewrite inject_Z_mult, <- T_nonneg_Z by lia. rewrite <- Qmult_assoc, <- T_plus.
      replace (k - (e - p + 1) + (e - p + 1)) with k by lia. exact Hv. }
    set (w := n * 10 ^ (k - (e - p + 1))) in *. clearbody w.
    assert (D0 : (Qabs (inject_Z (M - w)) <= 1 # 2)%Q).
    { apply (proj1 (Qmult_le_r _ _ _ (T_pos (e - p + 1)))). eapply Qle_trans; [|exact A1].
      rewrite <- (Qabs_pos (T (e - p + 1))) at 1 by apply Qlt_le_weak, T_pos. rewrite <- Qabs_Qmult.
      apply Qle_lteq. right. apply Qabs_wd. rewrite HM, Hv2. unfold Z.sub. rewrite inject_Z_plus, inject_Z_opp. ring. }
    assert (D1 : M = w).
    { unfold Qle, Qabs, inject_Z in D0. cbn in D0. lia. }
    rewrite HM, Hv2, D1. reflexivity.
  - intros U. destruct (Qlt_le_dec (Qabs v) q_1em8) as [L|L].
    + unfold in_double_range. specialize (Z L). apply Qeq_bool_iff in Z. rewrite Z. reflexivity.
    + destruct (A L) as (p & Np & _ & A2 & A3 & A4 & A5 & _). cbv zeta in *.
      set (e := flog10 (Z.abs (Qnum v)) (Zpos (Qden v))) in *. clearbody e.
      assert (E1 : e < 301).
      { apply T_lt_inv. eapply Qle_lt_trans; [exact A4|]. eapply Qle_lt_trans; [exact U|].
        apply (proj2 (Qlt_alt _ _)). vm_compute. reflexivity. }
      assert (E2 : -9 < e + 1).
      { apply T_lt_inv. eapply Qle_lt_trans; [|exact A5]. eapply Qle_trans; [|exact L].
        apply Qle_bool_iff. vm_compute. reflexivity. }
      apply in_double_range_ok.
      * eapply Qle_trans; [|exact A2]. apply T_mono. lia.
      * eapply Qle_trans; [exact A3|]. apply T_mono. lia.
Qed.

(** Width of the written text. *)

Lemma back0_le s p : (back0 s p <= p)%nat.
Proof. induction p as [|p IH]; cbn; destruct (Ascii.eqb _ _); lia. Qed.

Lemma find_exp_lt s e : find_exp s = Some e -> (e < length s)%nat.
Proof.
  revert e. induction s as [|c s IH]; cbn; intros e H; [discriminate|].
  destruct (_ || _); [injection H as <-; lia|]. destruct (find_exp s) as [k|]; [|discriminate].
  cbn in H. injection H as <-. specialize (IH k eq_refl). lia.
Qed.

Lemma set_at_length s e c : (e < length s)%nat -> length (set_at s e c) = length s.
Proof.
  intros H. unfold set_at. rewrite app_length, firstn_length. cbn [length]. rewrite skipn_length. lia.
Qed.

Lemma trim_real_length nc t : (length (trim_real nc t) <= length t + 2)%nat.
Proof.
  unfold trim_real. destruct (find_char "."%char t).
  - cbv zeta. destruct (find_exp t) as [e|] eqn:FE.
    + apply find_exp_lt in FE. pose proof (back0_le t (e - 1)).
      rewrite app_length, firstn_length, skipn_length, set_at_length by exact FE.
      destruct (Ascii.eqb _ _); lia.
    + rewrite firstn_length. lia.
  - destruct (find_exp t) as [e|] eqn:FE.
    + apply find_exp_lt in FE. rewrite set_at_length by exact FE. lia.
    + rewrite app_length. cbn. lia.
Qed.

Lemma strip0_length s : (length (strip0 s) <= length s)%nat.
Proof. destruct (strip0_split s) as (k & E & _). rewrite E at 2. rewrite app_length. lia. Qed.

Lemma show_exp_length x : -1000 < x < 1000 -> (length (show_exp x) <= 5)%nat.
Proof.
  intros H. unfold show_exp. cbn [length].
  pose proof (showN_len (Z.abs x) 3 ltac:(lia) ltac:(lia)). change (10 ^ Z.of_nat 3) with 1000 in H0.
  destruct (Z.abs x <? 10) eqn:E; [|lia]. cbn [length].
  pose proof (showN_len (Z.abs x) 1 ltac:(lia) ltac:(lia)). lia.
Qed.

Lemma dot_frac_length fr : (length (dot_frac fr) <= length fr + 1)%nat.
Proof. destruct fr; cbn; lia. Qed.

Lemma format_real_length nc v delim : 1 <= nc <= 16 -> (Qabs v <= T 300)%Q ->
  (length (format_real nc v delim) <= 40)%nat.
Proof.
  intros Hnc U. unfold format_real. cbv zeta. rewrite app_length. cbn [length].
  set (w := if Qle_bool q_1em8 (Qabs v) then v else 0%Q).
  match goal with |- (length (trim_real nc ?t) + 1 <= 40)%nat => pose proof (trim_real_length nc t) as TL; set (tt := t) in * end.
  assert (H : (length tt <= 36)%nat); [|lia]. clear TL. unfold tt. clear tt.
  destruct (Qle_bool q_1em8 (Qabs v)) eqn:E1.
  2: { unfold w. cbn. lia. }
  apply Qle_bool_iff in E1. unfold w. clear w.
  assert (NZ : Qnum v <> 0).
  { intros Z. rewrite Qabs_frac, Z in E1. unfold q_1em8, Qle in E1. cbn in E1. lia. }
  destruct (flog10_spec (Z.abs (Qnum v)) (Qden v) ltac:(lia)) as [F1 F2].
  rewrite <- Qabs_frac in F1, F2.
  set (e := flog10 (Z.abs (Qnum v)) (Zpos (Qden v))) in *.
  assert (EB : -9 <= e <= 300).
  { split.
    - assert (-9 < e + 1); [|lia]. apply T_lt_inv. eapply Qle_lt_trans; [|exact F2]. eapply Qle_trans; [|exact E1].
      apply Qle_bool_iff. vm_compute. reflexivity.
    - assert (e < 301); [|lia]. apply T_lt_inv. eapply Qle_lt_trans; [exact F1|]. eapply Qle_lt_trans; [exact U|].
      apply (proj2 (Qlt_alt _ _)). vm_compute. reflexivity. }
  assert (SG : (length (if (Qnum v <? 0)%Z then ["-"%char] else []) <= 1)%nat) by (destruct (Qnum v <? 0); cbn; lia).
  destruct (Qle_bool (Qabs v) q_999_9).
  - unfold print_g. replace (Qnum v =? 0) with false by lia.
    destruct (sci_parts nc (Z.abs (Qnum v)) (Zpos (Qden v))) as [m x] eqn:SP.
    destruct (sci_parts_spec nc (Z.abs (Qnum v)) (Qden v) m x ltac:(lia) ltac:(lia) SP) as (B & X & _). fold e in X.
    destruct (showN_width nc m ltac:(lia) B) as (L & _). cbv zeta.
    destruct ((x <? -4) || (nc <=? x)) eqn:C1; [|destruct (0 <=? x) eqn:C2].
    + rewrite !app_length, firstn_length.
      pose proof (show_exp_length x ltac:(lia)). pose proof (dot_frac_length (strip0 (skipn 1 (showN m)))).
      pose proof (strip0_length (skipn 1 (showN m))). rewrite skipn_length in *. lia.
    + rewrite !app_length, firstn_length. pose proof (dot_frac_length (strip0 (skipn (Z.to_nat (x + 1)) (showN m)))).
      pose proof (strip0_length (skipn (Z.to_nat (x + 1)) (showN m))). rewrite skipn_length in *. lia.
    + rewrite !app_length. rewrite repeat_length. cbn [length S2 list_ascii_of_string].
      pose proof (strip0_length (showN m)). lia.
  - unfold print_e. replace (Qnum v =? 0) with false by lia.
    destruct (sci_parts (nc + 1) (Z.abs (Qnum v)) (Zpos (Qden v))) as [m x] eqn:SP.
    destruct (sci_parts_spec (nc + 1) (Z.abs (Qnum v)) (Qden v) m x ltac:(lia) ltac:(lia) SP) as (B & X & _). fold e in X.
    destruct (showN_width (nc + 1) m ltac:(lia) B) as (L & _). cbv zeta.
    rewrite !app_length, firstn_length.
    pose proof (show_exp_length x ltac:(lia)). pose proof (dot_frac_length (skipn 1 (showN m))).
    rewrite skipn_length in *. lia.
Qed.
