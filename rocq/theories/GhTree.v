(** Objects as trees; what deleting one of them does. *)

From Coq Require Import List Bool Arith Lia Permutation.
From Verif Require Import GhModel GhSpec.
Import ListNotations.

Inductive gt := L (p : nat) | N (p : nat) (b : bool) (ss : list nat) (cs : list gt) (hh : list nat).

Definition root (t : gt) : nat := match t with L p => p | N p _ _ _ _ => p end.
Definition is_node (t : gt) : bool := match t with L _ => false | N _ _ _ _ _ => true end.
Fixpoint ids (t : gt) : list nat :=
  match t with
  | L p => [p]
  | N p _ ss cs hh => p :: ss ++ flat_map ids cs ++ hh
  end.

Inductive repr (ob : nat -> option geo) : gt -> list nat -> Prop :=
| repr_L p fl : ob p = Some (Seg fl) -> repr ob (L p) fl
| repr_N p b ss cs hh fl :
    ob p = Some (Out b fl ss (map root cs) hh) ->
    (forall q, In q ss -> ob q = Some (Seg [])) ->
    (forall q, In q hh -> ob q = Some (Seg [])) ->
    (forall c, In c cs -> is_node c = true) ->
    (forall c, In c cs -> repr ob c []) ->
    repr ob (N p b ss cs hh) fl.

Lemma has_in x l : has x l = true <-> In x l.
Proof.
  induction l as [|y r IH]; cbn; [split; [discriminate|tauto]|].
  rewrite orb_true_iff, Nat.eqb_eq, IH. split; intros [H|H]; auto.
Qed.
Lemma has_out x l : has x l = false <-> ~ In x l.
Proof. rewrite <- has_in. destruct (has x l); split; intros; try congruence; try tauto. Qed.
Lemma has_app x a b : has x (a ++ b) = has x a || has x b.
Proof. induction a as [|y r IH]; cbn; [reflexivity|]. rewrite IH. apply orb_assoc. Qed.

Lemma root_in t : In (root t) (ids t).
Proof. destruct t; left; reflexivity. Qed.

Lemma put_eq {A} (f : nat -> option A) p v : put f p v p = v.
Proof. unfold put. now rewrite Nat.eqb_refl. Qed.
Lemma put_ne {A} (f : nat -> option A) p v q : q <> p -> put f p v q = f q.
Proof. intros H. unfold put. destruct (Nat.eqb_spec q p); [contradiction|reflexivity]. Qed.

Lemma in_flat_ids c (cs : list gt) p : In c cs -> In p (ids c) -> In p (flat_map ids cs).
Proof. intros H1 H2. apply in_flat_map. now exists c. Qed.

Lemma frame ob t fl : repr ob t fl -> forall ob', (forall p, In p (ids t) -> ob' p = ob p) -> repr ob' t fl.
Proof.
  induction 1 as [p fl E|p b ss cs hh fl E Hs Hh Hn Hc IH]; intros ob' A.
  - constructor. rewrite A; [assumption|left; reflexivity].
  - assert (A' : forall q, In q (ss ++ flat_map ids cs ++ hh) -> ob' q = ob q) by (intros; apply A; right; assumption).
    constructor.
    + rewrite A; [assumption|left; reflexivity].
    + intros q I. rewrite A'; [auto|]. apply in_or_app; now left.
    + intros q I. rewrite A'; [auto|]. apply in_or_app; right. apply in_or_app; now right.
    + assumption.
    + intros c I. apply IH; [assumption|]. intros q Iq. apply A'. apply in_or_app; right. apply in_or_app; left.
      eapply in_flat_ids; eassumption.
Qed.

Lemma repr_root ob t fl : repr ob t fl -> exists g, ob (root t) = Some g /\ flags g = fl /\ is_out g = is_node t.
Proof. destruct 1; eexists; repeat split; cbn; try eassumption; reflexivity. Qed.

Lemma repr_live ob t fl : repr ob t fl -> forall q, In q (ids t) -> ob q <> None.
Proof.
  induction 1 as [p fl E|p b ss cs hh fl E Hs Hh Hn Hc IH]; intros q.
  - intros [<-|[]]. rewrite E. discriminate.
  - intros [<-|I]; [rewrite E; discriminate|]. apply in_app_or in I as [I|I]; [rewrite (Hs _ I); discriminate|].
    apply in_app_or in I as [I|I]; [|rewrite (Hh _ I); discriminate].
    apply in_flat_map in I as (c & I1 & I2). eapply IH; eassumption.
Qed.

(** A new root flag. *)
Lemma repr_flag ob t fl fl' g : repr ob t fl -> NoDup (ids t) -> ob (root t) = Some g ->
  repr (put ob (root t) (Some (with_flags fl' g))) t fl'.
Proof.
  intros H D E. destruct H as [p fl E'|p b ss cs hh fl E' Hs Hh Hn Hc]; cbn [root] in *.
  - rewrite E' in E. injection E as <-. constructor. apply put_eq.
  - rewrite E' in E. injection E as <-. cbn [ids] in D. apply NoDup_cons_iff in D as [D _].
    assert (X : forall q, In q (ss ++ flat_map ids cs ++ hh) -> q <> p) by (intros q I ->; contradiction).
    constructor.
    + rewrite put_eq. reflexivity.
    + intros q I. rewrite put_ne; [auto|]. apply X. apply in_or_app; now left.
    + intros q I. rewrite put_ne; [auto|]. apply X. apply in_or_app; right. apply in_or_app; now right.
    + assumption.
    + intros c I. apply (frame ob); [auto|]. intros q Iq. apply put_ne. apply X. apply in_or_app; right.
      apply in_or_app; left. eapply in_flat_ids; eassumption.
Qed.

(** ** Flags *)

Definition inval (x : option hnd) : option hnd :=
  match x with Some y => Some (mkHnd (hk y) false (hp y)) | None => None end.
Definition clr (fl : list nat) (f : nat -> option hnd) : nat -> option hnd :=
  fun h => if has h fl then inval (f h) else f h.

(** [s'] is [s] without the objects in [l] and with the flags [fl] cleared. *)
Definition wiped (l fl : list nat) (s s' : st) : Prop :=
  (forall q, obj s' q = if has q l then None else obj s q) /\
  (forall h, hs s' h = clr fl (hs s) h) /\ nxt s' = nxt s /\ nxh s' = nxh s.

Lemma clear_flags_do fl : forall s, NoDup fl -> (forall h, In h fl -> hs s h <> None) ->
  exists s', clear_flags fl s = Some s' /\ wiped [] fl s s'.
Proof.
  induction fl as [|h r IH]; intros s D A; cbn [clear_flags].
  - exists s. split; [reflexivity|]. repeat split; reflexivity.
  - apply NoDup_cons_iff in D as [Dh D]. unfold write_flag.
    destruct (hs s h) as [x|] eqn:E; [cbn [bind]|exfalso; apply (A h); [left; reflexivity|assumption]].
    destruct (IH (set_hnd h (Some (mkHnd (hk x) false (hp x))) s) D) as (s' & E' & W1 & W2 & W3 & W4).
    { intros k I. cbn. unfold put. destruct (k =? h); [discriminate|]. apply A. now right. }
    exists s'. split; [assumption|]. split; [|split; [|split]].
    + intros q. rewrite W1. reflexivity.
    + intros k. rewrite W2. unfold clr. cbn [has set_hnd hs]. unfold put.
      destruct (Nat.eqb_spec k h) as [->|NE]; cbn [orb].
      * rewrite (proj2 (has_out h r) Dh), E. reflexivity.
      * reflexivity.
    + assumption.
    + assumption.
Qed.

Lemma del_seg_do p fl s : obj s p = Some (Seg fl) -> NoDup fl -> (forall h, In h fl -> hs s h <> None) ->
  exists s', del_seg p s = Some s' /\ wiped [p] fl s s'.
Proof.
  intros E D A. unfold del_seg. rewrite E. destruct (clear_flags_do fl s D A) as (s1 & E1 & W1 & W2 & W3 & W4).
  rewrite E1. cbn [bind]. eexists. split; [reflexivity|]. split; [|split; [|split]]; cbn; try assumption.
  intros q. unfold put. rewrite W1. cbn. destruct (q =? p); reflexivity.
Qed.

Lemma wiped_none l s : (forall q, In q l -> obj s q = None) -> wiped l [] s s.
Proof.
  intros H. split; [|repeat split]. intros q. destruct (has q l) eqn:E; [|reflexivity]. apply has_in in E. auto.
Qed.

Lemma wiped_trans l1 l2 s s1 s2 : wiped l1 [] s s1 -> wiped l2 [] s1 s2 -> wiped (l1 ++ l2) [] s s2.
Proof.
  intros (A1 & A2 & A3 & A4) (B1 & B2 & B3 & B4). split; [|split; [|split; congruence]].
  - intros q. rewrite B1, A1, has_app. destruct (has q l1), (has q l2); reflexivity.
  - intros h. rewrite B2. unfold clr in *. cbn in *. apply A2.
Qed.

Lemma wiped_ext l l' fl s s' : (forall q, In q l <-> In q l') -> wiped l fl s s' -> wiped l' fl s s'.
Proof.
  intros H (A1 & A2). split; [|assumption]. intros q. rewrite A1.
  destruct (has q l) eqn:E1, (has q l') eqn:E2; try reflexivity.
  - apply has_in in E1. apply has_out in E2. exfalso. apply E2. now apply H.
  - apply has_in in E2. apply has_out in E1. exfalso. apply E1. now apply H.
Qed.

Lemma each_del_seg l : forall s, NoDup l -> (forall q, In q l -> obj s q = Some (Seg [])) ->
  exists s', each del_seg l s = Some s' /\ wiped l [] s s'.
Proof.
  induction l as [|p r IH]; intros s D A; cbn [each].
  - exists s. split; [reflexivity|]. now apply wiped_none.
  - apply NoDup_cons_iff in D as [Dp D].
    destruct (del_seg_do p [] s) as (s1 & E1 & W1); [apply A; now left|constructor|intros ? []|].
    rewrite E1. cbn [bind]. destruct (IH s1 D) as (s2 & E2 & W2).
    { intros q I. rewrite (proj1 W1). cbn. destruct (Nat.eqb_spec q p) as [->|NE]; [contradiction|]. cbn. apply A. now right. }
    exists s2. split; [assumption|]. apply (wiped_trans [p] r s s1 s2); assumption.
Qed.

Lemma NoDup_app_l {A} (a b : list A) : NoDup (a ++ b) -> NoDup a.
Proof. induction a as [|x r IH]; cbn; [constructor|]. intros H. apply NoDup_cons_iff in H as [H1 H2]. constructor; [|auto].
  intros I. apply H1. apply in_or_app. now left. Qed.
Lemma NoDup_app_r {A} (a b : list A) : NoDup (a ++ b) -> NoDup b.
Proof. induction a as [|x r IH]; cbn; [auto|]. intros H. apply NoDup_cons_iff in H as [_ H]. auto. Qed.
Lemma NoDup_app_out {A} (a b : list A) x : NoDup (a ++ b) -> In x a -> ~ In x b.
Proof.
  induction a as [|y r IH]; cbn; [contradiction|]. intros H [->|I]; apply NoDup_cons_iff in H as [H1 H2].
  - intros I. apply H1. apply in_or_app. now right.
  - auto.
Qed.
Lemma NoDup_app_mk {A} (a b : list A) : NoDup a -> NoDup b -> (forall x, In x a -> ~ In x b) -> NoDup (a ++ b).
Proof.
  induction a as [|x r IH]; cbn; intros Da Db H; [assumption|]. apply NoDup_cons_iff in Da as [D1 D2]. constructor.
  - intros I. apply in_app_or in I as [I|I]; [contradiction|]. apply (H x); auto.
  - apply IH; auto.
Qed.

Lemma NoDup_flat (cs : list gt) c : NoDup (flat_map ids cs) -> In c cs -> NoDup (ids c).
Proof.
  induction cs as [|d r IH]; cbn; [contradiction|]. intros D [->|I]; [now apply NoDup_app_l in D|].
  apply IH; [now apply NoDup_app_r in D|assumption].
Qed.
Lemma length_flat (cs : list gt) c : In c cs -> length (ids c) <= length (flat_map ids cs).
Proof.
  induction cs as [|d r IH]; cbn; [contradiction|]. rewrite app_length. intros [->|I]; [lia|]. specialize (IH I). lia.
Qed.

Lemma flat_ids_rev cs : Permutation (flat_map ids (rev cs)) (flat_map ids cs).
Proof. apply Permutation_flat_map. symmetry. apply Permutation_rev. Qed.

(** What [del_out] does to a tree. *)
Lemma each_del_out k : (forall t s, repr (obj s) t [] -> is_node t = true -> NoDup (ids t) -> length (ids t) <= k ->
    exists s', del_out k (root t) s = Some s' /\ wiped (ids t) [] s s') ->
  forall cs s, (forall c, In c cs -> is_node c = true) -> (forall c, In c cs -> repr (obj s) c []) ->
    NoDup (flat_map ids cs) -> (forall c, In c cs -> length (ids c) <= k) ->
    exists s', each (del_out k) (map root cs) s = Some s' /\ wiped (flat_map ids cs) [] s s'.
Proof.
  intros One. induction cs as [|c r IH]; intros s Hn Hc D Le; cbn [each map flat_map].
  - exists s. split; [reflexivity|]. apply wiped_none. intros ? [].
  - cbn in D. destruct (One c s) as (s1 & E1 & W1);
      [apply Hc; now left|apply Hn; now left|now apply NoDup_app_l in D|apply Le; now left|].
    rewrite E1. cbn [bind]. destruct (IH s1) as (s2 & E2 & W2).
    + intros d I. apply Hn. now right.
    + intros d I. apply (frame (obj s)); [apply Hc; now right|]. intros q Iq. rewrite (proj1 W1).
      destruct (has q (ids c)) eqn:E; [|reflexivity]. apply has_in in E. exfalso.
      apply (NoDup_app_out _ _ q D E). eapply in_flat_ids; eassumption.
    + now apply NoDup_app_r in D.
    + intros d I. apply Le. now right.
    + exists s2. split; [assumption|]. eapply wiped_trans; eassumption.
Qed.

Lemma del_out_do : forall fuel t fl s, repr (obj s) t fl -> is_node t = true -> NoDup (ids t) -> length (ids t) <= fuel ->
  NoDup fl -> (forall h, In h fl -> hs s h <> None) ->
  exists s', del_out fuel (root t) s = Some s' /\ wiped (ids t) fl s s'.
Proof.
  induction fuel as [|k IH]; intros t fl s H Nt D Le Df A.
  - exfalso. destruct t; cbn in Le; lia.
  - destruct H as [p fl E|p b ss cs hh fl E Hs Hh Hn Hc]; [discriminate|]. cbn [del_out root].
    rewrite E. cbn [ids length] in D, Le. apply NoDup_cons_iff in D as [Dp D].
    rewrite !app_length in Le.
    assert (Dss := NoDup_app_l _ _ D). assert (Dr := NoDup_app_r _ _ D).
    assert (Dcs := NoDup_app_l _ _ Dr). assert (Dhh := NoDup_app_r _ _ Dr).
    destruct (each_del_seg (rev ss) s) as (s1 & E1 & W1).
    { eapply Permutation_NoDup; [apply Permutation_rev|assumption]. }
    { intros q I. apply Hs. now apply in_rev. }
    rewrite E1. cbn [bind].
    apply (wiped_ext _ ss) in W1; [|intros q; symmetry; apply in_rev].
    destruct W1 as (A1 & A2 & A3 & A4).
    set (s1' := set_obj p (Some (Out b fl [] (map root cs) hh)) s1).
    assert (O1 : forall q, q <> p -> ~ In q ss -> obj s1' q = obj s q).
    { intros q NE NI. cbn. rewrite put_ne by assumption. rewrite A1, (proj2 (has_out q ss) NI). reflexivity. }
    destruct (each_del_out k) with (cs := rev cs) (s := s1') as (s2 & E2 & W2).
    { intros t s0 R Nt' D' Le'. apply (IH t [] s0); try assumption; [constructor|intros ? []]. }
    { intros c I. apply Hn. now apply in_rev. }
    { intros c I. apply in_rev in I. apply (frame (obj s)); [auto|]. intros q Iq. apply O1.
      - intros ->. apply Dp. apply in_or_app; right. apply in_or_app; left. eapply in_flat_ids; eassumption.
      - intros Iss. apply (NoDup_app_out _ _ q D Iss). apply in_or_app; left. eapply in_flat_ids; eassumption. }
    { eapply Permutation_NoDup; [apply Permutation_sym, flat_ids_rev|assumption]. }
    { intros c I. apply in_rev in I. pose proof (length_flat cs c I). lia. }
    rewrite map_rev in E2. fold s1'. rewrite E2. cbn [bind].
    apply (wiped_ext _ (flat_map ids cs)) in W2;
      [|intros q; split; apply Permutation_in; [apply flat_ids_rev|apply Permutation_sym, flat_ids_rev]].
    destruct W2 as (B1 & B2 & B3 & B4).
    set (s2' := set_obj p (Some (Out b fl [] [] hh)) s2).
    destruct (each_del_seg (rev hh) s2') as (s3 & E3 & W3).
    { eapply Permutation_NoDup; [apply Permutation_rev|assumption]. }
    { intros q I. apply in_rev in I. cbn.
      assert (q <> p). { intros ->. apply Dp. apply in_or_app; right. apply in_or_app; now right. }
      rewrite put_ne by assumption. rewrite B1.
      assert (NC : ~ In q (flat_map ids cs)). { intros I'. now apply (NoDup_app_out _ _ q Dr I'). }
      rewrite (proj2 (has_out _ _) NC). rewrite O1; [auto|assumption|].
      intros I'. apply (NoDup_app_out _ _ q D I'). apply in_or_app; now right. }
    rewrite E3. cbn [bind].
    apply (wiped_ext _ hh) in W3; [|intros q; symmetry; apply in_rev].
    destruct W3 as (C1 & C2 & C3 & C4).
    assert (HS : forall h, hs s3 h = hs s h).
    { intros h. rewrite C2. unfold clr; cbn. rewrite B2. unfold clr; cbn. rewrite A2. reflexivity. }
    destruct (clear_flags_do fl s3) as (s4 & E4 & W4); [assumption|intros h I; rewrite HS; auto|].
    rewrite E4. cbn [bind]. destruct W4 as (F1 & F2 & F3 & F4).
    eexists. split; [reflexivity|]. split; [|split; [|split]].
    + intros q. cbn [set_obj obj ids has]. unfold put. destruct (Nat.eqb_spec q p) as [->|NE]; [reflexivity|].
      cbn [orb]. rewrite F1. cbn [has]. rewrite C1. cbn [set_obj obj s2']. rewrite put_ne by assumption. rewrite B1.
      cbn [set_obj obj s1']. rewrite put_ne by assumption. rewrite A1. rewrite !has_app.
      destruct (has q ss), (has q (flat_map ids cs)), (has q hh); reflexivity.
    + intros h. cbn [set_obj hs]. rewrite F2. unfold clr. rewrite HS. reflexivity.
    + cbn. rewrite F3, C3. cbn. rewrite B3. cbn. assumption.
    + cbn. rewrite F4, C4. cbn. rewrite B4. cbn. assumption.
Qed.

Lemma length_below n l : NoDup l -> (forall q, In q l -> q < n) -> length l <= n.
Proof.
  intros D H. rewrite <- (seq_length n 0). apply NoDup_incl_length; [assumption|].
  intros q I. apply in_seq. specialize (H q I). lia.
Qed.

Lemma del_do t fl s : repr (obj s) t fl -> NoDup (ids t) -> (forall q, In q (ids t) -> q < nxt s) ->
  NoDup fl -> (forall h, In h fl -> hs s h <> None) ->
  exists s', del (root t) s = Some s' /\ wiped (ids t) fl s s'.
Proof.
  intros H D B Df A. unfold del. destruct (is_node t) eqn:Nt.
  - destruct (repr_root _ _ _ H) as (g & E & _ & Io). rewrite E, Nt in *. destruct g; [discriminate|].
    apply del_out_do; try assumption. pose proof (length_below _ _ D B). lia.
  - destruct H as [p fl E|]; [|discriminate]. cbn [root]. rewrite E. now apply del_seg_do.
Qed.

Lemma new_segs_do n : forall s s' l, new_segs n s = (s', l) ->
  l = seq (nxt s) n /\ nxt s' = nxt s + n /\ hs s' = hs s /\ nxh s' = nxh s /\
  forall q, obj s' q = if (nxt s <=? q) && (q <? nxt s + n) then Some (Seg []) else obj s q.
Proof.
  induction n as [|k IH]; intros s s' l E; cbn [new_segs] in E.
  - injection E as <- <-. rewrite Nat.add_0_r. repeat split. intros q.
    destruct (Nat.leb_spec (nxt s) q), (Nat.ltb_spec q (nxt s)); cbn [andb]; try reflexivity; exfalso; lia.
  - destruct (new_segs k (alloc (Seg []) s)) as [s1 l1] eqn:E1. injection E as <- <-.
    destruct (IH _ _ _ E1) as (-> & E2 & E3 & E4 & E5). cbn [alloc nxt hs nxh obj] in *. split; [reflexivity|].
    split; [lia|]. split; [assumption|]. split; [assumption|].
    intros q. rewrite E5. unfold put.
    destruct (Nat.leb_spec (S (nxt s)) q), (Nat.ltb_spec q (S (nxt s) + k)), (Nat.leb_spec (nxt s) q),
      (Nat.ltb_spec q (nxt s + S k)), (Nat.eqb_spec q (nxt s)); cbn [andb]; try reflexivity; exfalso; lia.
Qed.
