(** Proofs about the numbers of an IDF file: what is written and what is read. *)

From Coq Require Import Lia Lqa.
From Verif Require Import Base Num IoModel IdfText Spec NumFacts RealFacts IdfSpec IdfFacts.
Open Scope Z_scope.

Lemma p10_pos k : 0 < 10 ^ Z.of_nat k.
Proof. apply Z.pow_pos_nonneg; lia. Qed.

(** ** Writing *)

Lemma pad0_len k s : (length s <= k)%nat -> length (pad0 k s) = k.
Proof. intros H. unfold pad0. rewrite app_length, repeat_length. lia. Qed.

Lemma pad0_digits k s : Forall isdig s -> Forall isdig (pad0 k s).
Proof. intros H. unfold pad0. apply Forall_app. split; [apply zeros_digits|exact H]. Qed.

Lemma pad0_dval k s : dval (pad0 k s) = dval s.
Proof. unfold pad0. rewrite dval_app. change (repeat "0"%char (k - length s)) with (zeros (k - length s)). rewrite dval_zeros. lia. Qed.

Definition rounded (k : nat) (q : Q) : Z :=
  let n := round_half_even (Z.abs (Qnum q) * 10 ^ Z.of_nat k) (Zpos (Qden q)) in
  if Qnum q <? 0 then - n else n.

Lemma round_nonneg n d : 0 < d -> 0 <= n -> 0 <= round_half_even n d.
Proof.
  intros D N. unfold round_half_even. pose proof (Z.div_pos n d N D).
  destruct (2 * _ <? _); [assumption|]. destruct (_ <? _); [lia|]. destruct (Z.even _); lia.
Qed.

Lemma fixed_decimal k q : (0 < k)%nat -> decimal k (fixed k q) (rounded k q).
Proof.
  intros K. unfold fixed, rounded. set (p := 10 ^ Z.of_nat k). pose proof (p10_pos k) as P. fold p in P.
  set (n := round_half_even _ _).
  assert (N : 0 <= n) by (apply round_nonneg; [lia|apply Z.mul_nonneg_nonneg; lia]). clearbody n.
  pose proof (Z.div_pos n p N P) as D. pose proof (Z.mod_pos_bound n p P) as M.
  exists (if Qnum q <? 0 then ["-"%char] else []), (showN (n / p)), (pad0 k (showN (n mod p))).
  assert (L : (length (showN (n mod p)) <= k)%nat) by (apply showN_len; [lia|exact K|apply M]).
  assert (V : dval (showN (n / p) ++ pad0 k (showN (n mod p))) = n).
  { rewrite dval_app, pad0_len by exact L. rewrite pad0_dval, !showN_dval by lia. fold p.
    rewrite (Z.div_mod n p) at 3 by lia. ring. }
  split; [reflexivity|]. split; [apply showN_nonnil; lia|]. split; [apply showN_digits; lia|].
  split; [apply pad0_digits, showN_digits; lia|]. split; [apply pad0_len, L|].
  rewrite V. destruct (Qnum q <? 0); [right|left]; split; reflexivity.
Qed.

Lemma rounded_near k q : (Qabs (inject_Z (rounded k q) - q * inject_Z (10 ^ Z.of_nat k)) <= 1 # 2)%Q.
Proof.
  unfold rounded. set (p := 10 ^ Z.of_nat k). pose proof (p10_pos k) as P. fold p in P.
  destruct q as [a d]. cbn [Qnum Qden].
  pose proof (round_half_even_spec (Z.abs a * p) (Zpos d) ltac:(lia) ltac:(nia)) as R.
  set (n := round_half_even _ _) in *. clearbody n.
  unfold Qabs, Qle, Qminus, Qopp, Qplus, Qmult, inject_Z. cbn [Qnum Qden].
  destruct (Z.ltb_spec a 0); cbn [Qnum Qden]; rewrite ?Pos2Z.inj_mul in *; nia.
Qed.

Lemma rounded_whole k q n : (q * inject_Z (10 ^ Z.of_nat k) == inject_Z n)%Q -> rounded k q = n.
Proof.
  intros E. pose proof (rounded_near k q) as R. rewrite E in R.
  unfold Qabs, Qle, Qminus, Qopp, Qplus, inject_Z in R. cbn [Qnum Qden] in R. lia.
Qed.

(** ** Reading *)

Lemma stream_num_decimal k s m r : decimal k s m -> no_more r -> (0 < k)%nat ->
  huge (dec_value k m) = false ->
  exists q, stream_num (s ++ r) = Some q /\ (q == dec_value k m)%Q.
Proof.
  intros (sg & ip & fr & -> & N & D1 & D2 & L & SG) NM K HG.
  destruct ip as [|c ip]; [congruence|]. set (IP := c :: ip) in *.
  assert (DC : isdig c) by (inversion D1; auto).
  unfold stream_num.
  assert (TS : take_sign (skip_space ((sg ++ IP ++ "."%char :: fr) ++ r)) =
               (match sg with [] => false | _ => true end, IP ++ "."%char :: fr ++ r)).
  { destruct SG as [[-> _]|[-> _]]; cbn.
    - rewrite isdig_not_space by exact DC. destruct (isdig_not_sign c DC) as [A B]. cbn. rewrite A, B.
      rewrite <- app_assoc. reflexivity.
    - rewrite <- app_assoc. reflexivity. }
  rewrite TS. clear TS.
  rewrite scan_digits_app; [|exact D1|cbn; unfold isdig; cbn; lia].
  cbv beta iota zeta. rewrite Ascii.eqb_refl.
  rewrite scan_digits_app; [|exact D2|destruct r; [exact I|apply NM]].
  cbv beta iota zeta.
  assert (NI : (length (IP ++ "."%char :: fr ++ r) - length ("."%char :: fr ++ r) +
      (length (fr ++ r) - length r) =? 0)%nat = false).
  { apply Nat.eqb_neq. rewrite !app_length. unfold IP. cbn. lia. }
  rewrite NI.
  assert (SE : scan_exp r = (0, r)).
  { destruct r as [|x r]; [reflexivity|]. destruct NM as (_ & E1 & E2). cbn.
    destruct (Ascii.eqb_spec x "e"); [congruence|]. destruct (Ascii.eqb_spec x "E"); [congruence|]. reflexivity. }
  rewrite SE.
  assert (CU : (match r with
             | c :: _ => (Ascii.eqb c "e" || Ascii.eqb c "E") && Nat.eqb (length r) (length r)
             | [] => false end) = false).
  { destruct r as [|x r]; [reflexivity|]. destruct NM as (_ & E1 & E2).
    destruct (Ascii.eqb_spec x "e"); [congruence|]. destruct (Ascii.eqb_spec x "E"); [congruence|]. reflexivity. }
  rewrite CU.
  replace (length (fr ++ r) - length r)%nat with k by (rewrite app_length; lia).
  assert (MV : (if match sg with [] => false | _ => true end then - dvacc (dvacc 0 IP) fr
                else dvacc (dvacc 0 IP) fr) = m).
  { change (dvacc 0 IP) with (dval IP). rewrite dvacc_dval.
    destruct SG as [[-> ->]|[-> ->]]; reflexivity. }
  rewrite MV.
  assert (Q : (dec2Q m (0 - Z.of_nat k) == dec_value k m)%Q).
  { rewrite dec2Q_T. replace (0 - Z.of_nat k) with (- Z.of_nat k) by lia. rewrite T_neg_Z by lia. reflexivity. }
  assert (H2 : huge (dec2Q m (0 - Z.of_nat k)) = false).
  { unfold huge in *. rewrite <- HG. apply eq_true_iff_eq. rewrite !Qle_bool_iff, Q. reflexivity. }
  rewrite H2. eexists. split; [reflexivity|exact Q].
Qed.

Lemma huge_false q : (Qabs q <= inject_Z (10 ^ 305))%Q -> huge q = false.
Proof.
  intros H. unfold huge. apply not_true_iff_false. intros K. apply Qle_bool_iff in K.
  assert (L : (inject_Z (2 ^ 1024 - 2 ^ 970) <= inject_Z (10 ^ 305))%Q) by (eapply Qle_trans; eassumption).
  rewrite <- Zle_Qle in L. revert L. apply Z.lt_nge. vm_compute. reflexivity.
Qed.

(** What is read of a number that was written. *)
Lemma dec_value_near k q : (Qabs (dec_value k (rounded k q) - q) <= (1 # 2) / inject_Z (10 ^ Z.of_nat k))%Q.
Proof.
  pose proof (rounded_near k q) as R. pose proof (p10_pos k) as P. unfold dec_value.
  set (p := inject_Z (10 ^ Z.of_nat k)) in *.
  assert (PP : (0 < p)%Q) by (unfold p; rewrite Zlt_Qlt in P; exact P).
  assert (NZ : ~ (p == 0)%Q) by (intros E; rewrite E in PP; apply (Qlt_irrefl _ PP)).
  apply Qle_shift_div_l; [exact PP|].
  assert (E : (Qabs (inject_Z (rounded k q) / p - q) * p == Qabs (inject_Z (rounded k q) - q * p))%Q).
  { rewrite <- (Qabs_pos p) at 2 by (apply Qlt_le_weak, PP). rewrite <- Qabs_Qmult. apply Qabs_wd. field. exact NZ. }
  rewrite E. exact R.
Qed.

Lemma fixed_reads k q : (0 < k)%nat -> (Qabs q <= inject_Z (10 ^ 304))%Q ->
  exists q', stream_num (fixed k q) = Some q' /\ (q' == dec_value k (rounded k q))%Q.
Proof.
  intros K B. pose proof (stream_num_decimal k (fixed k q) (rounded k q) [] (fixed_decimal k q K) I K) as S.
  rewrite app_nil_r in S. apply S. apply huge_false.
  pose proof (dec_value_near k q) as N.
  assert (H : ((1 # 2) / inject_Z (10 ^ Z.of_nat k) <= 1)%Q).
  { pose proof (p10_pos k) as P. apply Qle_shift_div_r.
    - rewrite Zlt_Qlt in P. exact P.
    - assert (1 <= 10 ^ Z.of_nat k) by lia. rewrite Zle_Qle in H. change (inject_Z 1) with 1%Q in H. lra. }
  assert (T : (Qabs (dec_value k (rounded k q)) <= Qabs (dec_value k (rounded k q) - q) + Qabs q)%Q).
  { eapply Qle_trans; [|apply Qabs_triangle]. apply Qle_lteq. right. apply Qabs_wd. ring. }
  assert (X : (1 + inject_Z (10 ^ 304) <= inject_Z (10 ^ 305))%Q).
  { change 1%Q with (inject_Z 1). rewrite <- inject_Z_plus, <- Zle_Qle. vm_compute. discriminate. }
  set (A := inject_Z (10 ^ 304)) in *. set (C := inject_Z (10 ^ 305)) in *. clearbody A C. lra.
Qed.
