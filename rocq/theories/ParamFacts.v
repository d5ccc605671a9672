(** Stepping a parser through a rendered list of parameters. *)

From Coq Require Import Lia ZifyBool ZifyNat ZifyN QArith.
From Verif Require Import Base Num Spec NumFacts IoModel FieldFacts LineFacts TokenFacts RealFacts.
Open Scope Z_scope.

(** The parser stands at [idx] before the parameters [ps] of a record; all of
    the record has been read when [ps] is empty.  [n] characters follow it. *)
Definition cursor (pd rd : ascii) (data : str) (n : nat) (idx : nat) (eor : bool) (ps : list param) : Prop :=
  Z.of_nat (length data) <= int_max /\
  exists pre body post, data = pre ++ body ++ post /\ idx = length pre /\ length post = n /\
    match ps with
    | [] => body = [] /\ eor = true
    | _ => eor = false /\ spaced pd rd ps body
    end.

Lemma spaced_nonnil pd rd ps s : spaced pd rd ps s -> ps <> [].
Proof. intros []; discriminate. Qed.

Section Step.
Variables pd rd : ascii.
Hypothesis D : delims pd rd.

(** Common part of the steps: split off the first parameter. *)
Lemma cursor_split data n idx eor p ps : cursor pd rd data n idx eor (p :: ps) ->
  exists pre b t d post, data = pre ++ b ++ t ++ d :: post /\ idx = length pre /\ blanks b /\ eor = false /\
    param_text p t /\ (t = [] -> b = []) /\ (d = pd \/ d = rd) /\
    Z.of_nat (length pre + length b + length t) <= int_max /\
    cursor pd rd data n (length pre + length (b ++ t) + 1) (eor_of d rd eor) ps.
Proof.
  intros (R & pre & body & post & E & I & L & EO & S). inversion S; subst.
  - exists pre, b, t, rd, post. split; [rewrite <- !app_assoc; reflexivity|]. split; [reflexivity|].
    split; [auto|]. split; [reflexivity|]. split; [auto|]. split; [auto|]. split; [auto|].
    split; [rewrite !app_length in R; cbn [length] in R; lia|].
    split; [exact R|]. exists (pre ++ b ++ t ++ [rd]), [], post. cbn [app].
    split; [rewrite <- !app_assoc; reflexivity|]. split; [rewrite !app_length; cbn [length]; lia|].
    split; [reflexivity|]. split; [reflexivity|]. unfold eor_of. rewrite Ascii.eqb_refl. reflexivity.
  - exists pre, b, t, pd, (s ++ post). split; [rewrite <- !app_assoc; reflexivity|]. split; [reflexivity|].
    split; [auto|]. split; [reflexivity|]. split; [auto|]. split; [auto|]. split; [auto|].
    split; [rewrite !app_length in R; cbn [length] in R; lia|].
    split; [exact R|]. exists (pre ++ b ++ t ++ [pd]), s, post.
    split; [rewrite <- !app_assoc; reflexivity|]. split; [rewrite !app_length; cbn [length]; lia|].
    split; [reflexivity|]. unfold eor_of. destruct (Ascii.eqb_spec pd rd) as [Q|_]; [exfalso; apply D; exact Q|].
    destruct ps; [|auto]. exfalso. eapply spaced_nonnil; eauto.
Qed.

Lemma step_int data n idx eor k ps dflt : cursor pd rd data n idx eor (PInt k :: ps) ->
  -2147483648 <= k <= 2147483647 ->
  exists idx' eor', ParseInt data idx eor pd rd dflt = POk (k, idx', eor') /\ cursor pd rd data n idx' eor' ps.
Proof.
  intros C R. destruct (cursor_split _ _ _ _ _ _ C) as (pre & b & t & d & post & -> & -> & B & -> & T & _ & Hd & _ & C').
  eexists. eexists. split; [|exact C']. apply ParseInt_item; auto.
Qed.

Lemma step_str data n idx eor s ps : cursor pd rd data n idx eor (PStr s :: ps) ->
  exists idx' eor', ParseHString data idx eor pd rd = POk (s, idx', eor') /\ cursor pd rd data n idx' eor' ps.
Proof.
  intros C. destruct (cursor_split _ _ _ _ _ _ C) as (pre & b & t & d & post & -> & -> & B & -> & T & E & Hd & L & C').
  eexists. eexists. split; [|exact C']. apply ParseHString_hol; auto.
Qed.

(** An empty text read as an integer with a default. *)
Lemma step_default data n idx eor ps dflt : cursor pd rd data n idx eor (PStr [] :: ps) ->
  exists idx' eor', ParseInt data idx eor pd rd (Some dflt) = POk (dflt, idx', eor') /\ cursor pd rd data n idx' eor' ps.
Proof.
  intros C. destruct (cursor_split _ _ _ _ _ _ C) as (pre & b & t & d & post & -> & -> & B & -> & T & E & Hd & L & C').
  assert (t = []) by (destruct T as [[_ T]|[T _]]; [exact T|congruence]). subst t.
  rewrite (E eq_refl) in *. cbn [app length] in *. rewrite Nat.add_0_r in C'.
  eexists. eexists. split; [|exact C']. apply ParseInt_empty; auto.
Qed.

Lemma step_real data n idx eor q ps dflt : cursor pd rd data n idx eor (PReal q :: ps) ->
  in_double_range q = true ->
  exists q' idx' eor', (q' == q)%Q /\ ParseReal data idx eor pd rd dflt = POk (q', idx', eor') /\
    cursor pd rd data n idx' eor' ps.
Proof.
  intros C R. destruct (cursor_split _ _ _ _ _ _ C) as (pre & b & t & d & post & -> & -> & B & -> & T & _ & Hd & _ & C').
  destruct (ParseReal_item pre b t q d post false pd rd dflt D B T R Hd) as (q' & E & P).
  exists q'. eexists. eexists. split; [exact E|]. split; [exact P|exact C'].
Qed.

Lemma cursor_end data n idx eor : cursor pd rd data n idx eor [] -> eor = true /\ (idx + n = length data)%nat.
Proof.
  intros (_ & pre & body & post & -> & -> & <- & -> & ->). split; [reflexivity|]. rewrite !app_length. cbn. lia.
Qed.

Lemma cursor_open data n idx eor p ps : cursor pd rd data n idx eor (p :: ps) -> eor = false.
Proof. intros (_ & pre & body & post & _ & _ & _ & E & _). exact E. Qed.

Lemma cursor_start pre body post ps : spaced pd rd ps body -> Z.of_nat (length (pre ++ body ++ post)) <= int_max ->
  cursor pd rd (pre ++ body ++ post) (length post) (length pre) false ps.
Proof.
  intros S R. split; [exact R|]. exists pre, body, post. repeat split; auto.
  destruct ps; [|auto]. exfalso. eapply spaced_nonnil; eauto.
Qed.
End Step.

(** ** Whole lists *)

(** Parse according to the kinds of a parameter list. *)
Fixpoint parse_params (ps : list param) (data : str) (idx : nat) (eor : bool) (pd rd : ascii)
  : pres (list param * nat * bool) :=
  match ps with
  | [] => POk ([], idx, eor)
  | PInt _ :: r =>
    do (n, idx', eor') <- ParseInt data idx eor pd rd None;
    do (l, i, e) <- parse_params r data idx' eor' pd rd;
    POk (PInt n :: l, i, e)
  | PStr _ :: r =>
    do (s, idx', eor') <- ParseHString data idx eor pd rd;
    do (l, i, e) <- parse_params r data idx' eor' pd rd;
    POk (PStr s :: l, i, e)
  | PReal _ :: r =>
    do (q, idx', eor') <- ParseReal data idx eor pd rd None;
    do (l, i, e) <- parse_params r data idx' eor' pd rd;
    POk (PReal q :: l, i, e)
  end.

Definition param_range (p : param) : Prop :=
  match p with
  | PInt n => -2147483648 <= n <= 2147483647
  | PStr _ => True
  | PReal q => in_double_range q = true
  end.

Lemma param_eq_refl p : param_eq p p.
Proof. destruct p; cbn; auto. reflexivity. Qed.

Lemma parse_params_cursor pd rd data n : delims pd rd -> forall ps idx eor,
  cursor pd rd data n idx eor ps -> Forall param_range ps ->
  exists ps' idx' eor', parse_params ps data idx eor pd rd = POk (ps', idx', eor') /\
    Forall2 param_eq ps ps' /\ cursor pd rd data n idx' eor' [].
Proof.
  intros D. induction ps as [|p ps IH]; intros idx eor C F.
  - exists [], idx, eor. repeat split; auto; apply C.
  - inversion F as [|? ? Rp Rps]; subst. destruct p as [k|s|q]; cbn [parse_params].
    + destruct (step_int pd rd D data n idx eor k ps None C Rp) as (i & e & P & C').
      destruct (IH i e C' Rps) as (ps' & i2 & e2 & P2 & Q & C2).
      exists (PInt k :: ps'), i2, e2. rewrite P. cbn [pbind]. rewrite P2. cbn [pbind].
      repeat split; auto; try apply C2. constructor; [reflexivity|exact Q].
    + destruct (step_str pd rd D data n idx eor s ps C) as (i & e & P & C').
      destruct (IH i e C' Rps) as (ps' & i2 & e2 & P2 & Q & C2).
      exists (PStr s :: ps'), i2, e2. rewrite P. cbn [pbind]. rewrite P2. cbn [pbind].
      repeat split; auto; try apply C2. constructor; [reflexivity|exact Q].
    + destruct (step_real pd rd D data n idx eor q ps None C Rp) as (q' & i & e & E & P & C').
      destruct (IH i e C' Rps) as (ps' & i2 & e2 & P2 & Q & C2).
      exists (PReal q' :: ps'), i2, e2. rewrite P. cbn [pbind]. rewrite P2. cbn [pbind].
      repeat split; auto; try apply C2. constructor; [cbn; symmetry; exact E|exact Q].
Qed.

Lemma spaced_open_app pd rd a x b y : spaced_open pd a x -> spaced pd rd b y -> spaced pd rd (a ++ b) (x ++ y).
Proof.
  induction 1 as [|p bl t ps s B T E S IH]; intros H; [exact H|].
  rewrite <- !app_assoc. cbn [app]. constructor; auto.
Qed.

Lemma spaced_open_app2 pd a x b y : spaced_open pd a x -> spaced_open pd b y -> spaced_open pd (a ++ b) (x ++ y).
Proof.
  induction 1 as [|p bl t ps s B T E S IH]; intros H; [exact H|].
  rewrite <- !app_assoc. cbn [app]. constructor; auto.
Qed.

Lemma spaced_last_open pd rd ps p b t x : spaced_open pd ps x -> blanks b -> param_text p t -> (t = [] -> b = []) ->
  spaced pd rd (ps ++ [p]) (x ++ b ++ t ++ [rd]).
Proof. intros S B T E. eapply spaced_open_app; [exact S|]. constructor; auto. Qed.
