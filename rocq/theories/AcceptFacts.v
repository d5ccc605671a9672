(* Association, successful or not, leaves every pointer of its kind; and it succeeds only
   if every reference is in order. *)
From Coq Require Import List Bool ZArith Lia ZifyBool ZifyNat.
From Verif Require Import GraphModel PlanSpec GraphFacts GraphCull AssocModel AcceptSpec.
Import ListNotations.
Open Scope Z_scope.

Lemma kind_known q : In (kind q) (0 :: known).
Proof. unfold kind. destruct (in_dec Z.eq_dec (q_type q) known) as [H|H]; [right; exact H|now left]. Qed.
Lemma kind_type q : kind q = if zmem (q_type q) known then q_type q else 0.
Proof.
  unfold kind. destruct (in_dec Z.eq_dec (q_type q) known) as [H|H].
  - apply zmem_in in H. now rewrite H.
  - destruct (zmem (q_type q) known) eqn:E; [|reflexivity]. apply zmem_in in E. contradiction.
Qed.

(* of the types that can occur, those in a are in b *)
Definition subb (a b : list Z) : bool := forallb (fun t => negb (zmem t (0 :: known)) || zmem t b) a.
Lemma sort_sub qs x a b : sort qs x a -> subb a b = true -> sort qs x b.
Proof.
  intros (q & E & H) S. exists q. split; [exact E|]. unfold subb in S. rewrite forallb_forall in S. specialize (S _ H).
  apply orb_prop in S. destruct S as [S|S]; [|now apply zmem_in]. pose proof (kind_known q) as K. apply zmem_in in K. rewrite K in S. discriminate.
Qed.

Lemma index_leads n v x : index_of n v = Some x -> leads v x /\ (x < n)%nat.
Proof.
  unfold index_of. cbv zeta. destruct ((0 <=? Z.shiftr v 1) && (Z.shiftr v 1 <? Z.of_nat n)) eqn:Q; [|discriminate].
  intros E. injection E as <-. rewrite Z.shiftr_div_pow2 in * by lia. change (2 ^ 1) with 2 in *.
  split; [|lia]. unfold leads. rewrite Z2Nat.id by lia. pose proof (Z.div_mod v 2 ltac:(lia)). pose proof (Z.mod_pos_bound v 2 ltac:(lia)). lia.
Qed.
Lemma leads_one v x y : leads v x -> leads v y -> x = y.
Proof. unfold leads. lia. Qed.

Section Accept.
(* the entities from place lo on have not been associated *)
Variables (qs : list wants) (lo : nat).
Local Notation N := (length qs).

Record good (q : wants) (m : node) : Prop := {
  g_type : n_type m = kind q;
  g_null : n_null m = (kind q =? 0);
  g_form : n_form m = q_form q;
  g_points : n_points m = q_points q;
  g_seven : length (n_des m) = 7%nat;
  g_wk : well_kinded qs m }.
Definition ok (g : graph) : Prop :=
  forall i, match nth_error qs i, look g i with
            | Some q, Some m => good q m /\ ((lo <= i)%nat -> n_items m = @Datatypes.nil nat)
            | None, None => True
            | _, _ => False
            end.

Lemma ok_look g i m : ok g -> look g i = Some m -> exists q, nth_error qs i = Some q /\ good q m.
Proof. intros H E. specialize (H i). rewrite E in H. destruct (nth_error qs i) as [q|]; [|contradiction]. exists q. tauto. Qed.
Lemma ok_at g i q : ok g -> nth_error qs i = Some q -> exists m, look g i = Some m /\ good q m.
Proof. intros H E. specialize (H i). rewrite E in H. destruct (look g i) as [m|]; [|contradiction]. exists m. tauto. Qed.
Lemma ok_fresh g i m : ok g -> look g i = Some m -> (lo <= i)%nat -> n_items m = @Datatypes.nil nat.
Proof. intros H E L. specialize (H i). rewrite E in H. destruct (nth_error qs i) as [q|]; [|contradiction]. now apply H. Qed.
Lemma ok_put g i m m' : ok g -> look g i = Some m -> (forall q, nth_error qs i = Some q -> good q m -> good q m') ->
  (n_items m' = n_items m \/ (i < lo)%nat) -> ok (put g i m').
Proof.
  intros H E X Y j. rewrite look_put. specialize (H j). destruct (Nat.eqb_spec j i) as [->|Hj]; [|exact H].
  rewrite E in H. destruct (nth_error qs i) as [q|] eqn:Q; [|contradiction]. destruct H as [H1 H2]. split; [auto|]. intros L.
  destruct Y as [->|Y]; [auto|lia].
Qed.

(* a node with the same class and fewer pointers *)
Definition under (n m : node) : Prop :=
  n_type m = n_type n /\ n_null m = n_null n /\ n_form m = n_form n /\ n_points m = n_points n /\ length (n_des m) = length (n_des n) /\
  (forall k x, nth k (n_des m) None = Some x -> nth k (n_des n) None = Some x) /\ incl (n_extras m) (n_extras n) /\
  (forall k x, nth k (n_slots m) None = Some x -> nth k (n_slots n) None = Some x) /\ incl (n_items m) (n_items n) /\
  incl (n_edges m) (n_edges n) /\ incl (map fst (n_verts m)) (map fst (n_verts n)) /\ incl (n_loops m) (n_loops n).
Lemma good_under q n m : good q n -> under n m -> good q m.
Proof.
  intros [A B C D Se [K1 K2 K3 K4 K5 K6 K7]] (T & U & F & P & Sv & D1 & D2 & D3 & D4 & D5 & D6 & D7). constructor; try congruence.
  constructor; [intros k x H; apply K1; auto|intros x H; apply K2; auto|rewrite T; intros k x H; apply K3; auto|
    rewrite T; intros x H; apply K4; auto|intros d H; apply K5; auto|
    intros p H; apply (in_map fst) in H; apply D6, in_map_iff in H; destruct H as (p' & <- & H); now apply K6|intros d l H; apply K7; auto].
Qed.
Lemma ok_under g i n m : ok g -> look g i = Some n -> under n m -> ok (put g i m).
Proof.
  intros H E U j. rewrite look_put. pose proof (H j) as Hj. destruct (Nat.eqb_spec j i) as [->|Hj']; [|exact Hj].
  rewrite E in Hj. destruct (nth_error qs i) as [q|] eqn:Q; [|contradiction]. destruct Hj as [H1 H2]. split; [now apply (good_under q n)|]. intros L.
  destruct U as (_ & _ & _ & _ & _ & _ & _ & _ & I & _). rewrite (H2 L) in I. destruct (n_items m) as [|x l]; [reflexivity|]. destruct (I x (or_introl eq_refl)).
Qed.
Lemma nth_unset {A} k (l : list (option A)) j x : nth j (set_nth k None l) None = Some x -> nth j l None = Some x.
Proof.
  destruct (le_lt_dec (length l) k) as [K|K].
  - intros H. revert j k K H. induction l as [|a l IH]; intros j [|k] K H; cbn in *; try lia; auto. destruct j; auto. apply (IH j k); [lia|exact H].
  - rewrite nth_set_nth by exact K. now destruct (Nat.eqb j k).
Qed.
Ltac under := unfold under; cbn; rewrite ?set_nth_length; repeat split; auto using incl_refl.

Lemma under_refs v n : under n (w_refs v n). Proof. under. Qed.
Lemma under_own v n : under n (w_own v n). Proof. under. Qed.
Lemma under_verts v n : incl (map fst v) (map fst (n_verts n)) -> under n (w_verts v n). Proof. intros H. under. Qed.
Lemma under_des k n : under n (w_des (set_nth k None (n_des n)) n). Proof. under. intros j x. apply nth_unset. Qed.
Lemma under_slots k n : under n (w_slots (set_nth k None (n_slots n)) n). Proof. under. intros j x. apply nth_unset. Qed.
Lemma under_tl n : under n (w_extras (tl (n_extras n)) n).
Proof. under. intros x. destruct (n_extras n); cbn; auto. Qed.

Lemma ok_addRef g c p r h : ok g -> addReference g c p = Some (r, h) -> ok h.
Proof.
  intros H. unfold addReference. destruct (look g c) as [n|] eqn:E; [|discriminate]. destruct (look g p) as [m|]; [|discriminate].
  destruct (forbids n c p (n_type m)); [intros X; injection X as _ <-; exact H|].
  destruct (mem p (n_refs n) || mem p (n_extras n)); intros X; injection X as _ <-; [exact H|].
  apply (ok_under g c n); auto. apply under_refs.
Qed.
(* an entity of an unsupported type refuses *)
Lemma addRef_known g c p h : ok g -> addReference g c p = Some (Added, h) -> sort qs c known.
Proof.
  intros H. unfold addReference. destruct (look g c) as [n|] eqn:E; [|discriminate]. destruct (look g p) as [m|]; [|discriminate].
  destruct (ok_look g c n H E) as (q & Eq & G). unfold forbids. destruct (n_null n) eqn:U; [cbn; discriminate|]. intros _.
  exists q. split; [exact Eq|]. pose proof (kind_known q) as [K|K]; [|exact K]. rewrite (g_null _ _ G), <- K in U. discriminate.
Qed.
Lemma addRef_already g c p h : ok g -> addReference g c p = Some (Already, h) -> sort qs c known.
Proof.
  intros H. unfold addReference. destruct (look g c) as [n|] eqn:E; [|discriminate]. destruct (look g p) as [m|]; [|discriminate].
  destruct (ok_look g c n H E) as (q & Eq & G). unfold forbids. destruct (n_null n) eqn:U; [cbn; discriminate|]. intros _.
  exists q. split; [exact Eq|]. pose proof (kind_known q) as [K|K]; [|exact K]. rewrite (g_null _ _ G), <- K in U. discriminate.
Qed.
Lemma ok_delRef g c p r h : ok g -> delReference g c p = Some (r, h) -> ok h.
Proof.
  intros H. unfold delReference. destruct (look g c) as [n|] eqn:E; [|discriminate].
  destruct (n_null n); [intros X; injection X as _ <-; exact H|].
  destruct (mem p (n_refs n)); [intros X; injection X as _ <-; apply (ok_under g c n); auto; apply under_refs|].
  destruct (n_extras n) as [|x rest]; [intros X; injection X as _ <-; exact H|].
  destruct (Nat.eqb x p); [|discriminate]. destruct (look g p) as [m|] eqn:Em; [|discriminate]. cbv zeta.
  match goal with |- match ?t with Some _ => _ | None => None end = _ -> _ => assert (Q : forall g1, t = Some g1 -> ok g1); [|destruct t as [g1|]; [|discriminate]] end.
  { intros g1. destruct ((n_type m =? 402) || n_null m); [intros X; injection X as <-; exact H|]. destruct (mem c (n_refs m)).
    - intros X. injection X as <-. apply (ok_under g p m); auto. apply under_refs.
    - destruct (n_extras m); [|discriminate]. intros X. injection X as <-. exact H. }
  specialize (Q g1 eq_refl). destruct (look g1 c) as [n1|] eqn:E1; [|discriminate]. intros X. injection X as _ <-.
  apply (ok_under g1 c n1); auto. apply under_tl.
Qed.
Lemma ok_adopt g e x h : ok g -> adopt g e x = Some h -> ok h.
Proof.
  intros H. unfold adopt. destruct (look g e) as [n|]; [|discriminate]. destruct (look g x) as [m|] eqn:E; [|discriminate].
  destruct (n_own n && negb (n_own m)); [|intros X; injection X as <-; exact H]. unfold AddEntity. rewrite E.
  destruct (mem x (g_ents g)); cbn; intros X; injection X as <-; [exact H|]. intros i. exact (ok_under g x m _ H E (under_own true m) i).
Qed.
Lemma ok_drop_de g e k h : ok g -> drop_de g e k = Some h -> ok h.
Proof.
  intros H. unfold drop_de. destruct (look g e) as [n|]; [|discriminate]. destruct (nth k (n_des n) None) as [x|]; [|intros X; injection X as <-; exact H].
  destruct (delReference g x e) as [[b g1]|] eqn:D; [|discriminate]. destruct (look g1 e) as [n1|] eqn:E1; [|discriminate].
  intros X. injection X as <-. apply (ok_under g1 e n1); auto. { exact (ok_delRef _ _ _ _ _ H D). } apply under_des.
Qed.
Lemma ok_drop_des e ks : forall g h, ok g -> drop_des g e ks = Some h -> ok h.
Proof.
  induction ks as [|k ks IH]; intros g h H; cbn [drop_des]; [intros X; injection X as <-; exact H|].
  destruct (drop_de g e k) as [g1|] eqn:D; [|discriminate]. apply IH. exact (ok_drop_de _ _ _ _ H D).
Qed.

(* ---- Directory Entry pointers ---- *)

Lemma good_type g x m L : ok g -> look g x = Some m -> zmem (n_type m) L = true -> sort qs x L.
Proof. intros H E T. destruct (ok_look g x m H E) as (q & Eq & G). exists q. split; [exact Eq|]. apply zmem_in in T. now rewrite (g_type _ _ G) in T. Qed.
Lemma good_eq g x m t : ok g -> look g x = Some m -> n_type m = t -> sort qs x [t].
Proof. intros H E T. apply (good_type g x m); auto. cbn. rewrite T, Z.eqb_refl. reflexivity. Qed.

(* what may stand at pointer k *)
Definition de_kind (k x : nat) : Prop :=
  match k with
  | 0%nat => exists p, nth_error qs x = Some p
  | 2%nat => sort qs x [406]
  | 4%nat => sort qs x [124]
  | 6%nat => sort qs x [314]
  | _ => False
  end.
Lemma good_set_de q n k c : good q n -> ((k < 7)%nat -> de_kind k c) -> good q (w_des (set_nth k (Some c) (n_des n)) n).
Proof.
  intros [A B C D Se [K1 K2 K3 K4 K5 K6 K7]] Hk. constructor; auto; [cbn; now rewrite set_nth_length|]. constructor; auto. cbn [n_des w_des]. intros j x E.
  destruct (le_lt_dec (length (n_des n)) k) as [L|L].
  - apply K1. revert E. generalize (n_des n) j k L. clear. intros l. induction l as [|a l IH]; intros j [|k] L E; cbn in *; try lia; auto.
    destruct j; auto. apply (IH j k); [lia|exact E].
  - rewrite nth_set_nth in E by exact L. destruct (Nat.eqb_spec j k) as [->|]; [injection E as <-; apply Hk; lia|now apply K1].
Qed.

Lemma set_unset (l : list (option nat)) k c : forall j x, nth j (set_nth k None (set_nth k (Some c) l)) None = Some x -> nth j l None = Some x.
Proof.
  revert k. induction l as [|a l IH]; intros [|k] j x; cbn; auto; destruct j; cbn; auto; try discriminate. apply IH.
Qed.

(* g1 is g with pointer k of e set to c, and perhaps one referrer more *)
Lemma link_de_cases g e k c n m r g1 : look g e = Some n -> look g c = Some m -> c <> e ->
  addReference (put g e (w_des (set_nth k (Some c) (n_des n)) n)) c e = Some (r, g1) ->
  look g1 e = Some (w_des (set_nth k (Some c) (n_des n)) n) /\
  exists v, look g1 c = Some (w_refs v m) /\ forall i, i <> e -> i <> c -> look g1 i = look g i.
Proof.
  intros E Ec Hc. unfold addReference. rewrite look_put_ne by exact Hc. rewrite Ec, look_put_eq.
  assert (W : forall mm, w_refs (n_refs mm) mm = mm) by (intros []; reflexivity).
  destruct (forbids m c e (n_type (w_des (set_nth k (Some c) (n_des n)) n))).
  { intros X. injection X as _ <-. split; [apply look_put_eq|]. exists (n_refs m). rewrite W, look_put_ne by exact Hc. split; [exact Ec|]. intros i H1 H2. now rewrite look_put_ne. }
  destruct (mem e (n_refs m) || mem e (n_extras m)); intros X; injection X as _ <-.
  - split; [apply look_put_eq|]. exists (n_refs m). rewrite W, look_put_ne by exact Hc. split; [exact Ec|]. intros i H1 H2. now rewrite look_put_ne.
  - rewrite look_put_ne by auto. split; [apply look_put_eq|]. eexists. split; [apply look_put_eq|]. intros i H1 H2. rewrite !look_put_ne by auto. reflexivity.
Qed.

Lemma ok_link_de g e k v f h : ok g -> link_de N g e k v = Some (f, h) -> ok h.
Proof.
  intros H. unfold link_de. destruct (de_names k v) as [a|]; [|intros X; injection X as _ <-; exact H].
  destruct (index_of N a) as [c|]; [|intros X; injection X as _ <-; exact H]. destruct (look g c) as [m|] eqn:Ec; [|discriminate].
  unfold set_de at 1. destruct (look g e) as [n|] eqn:E; [|discriminate].
  destruct (Nat.eqb k 4 && negb (is_a 124 m)) eqn:K4.
  { unfold set_de. rewrite E. cbn. intros X. injection X as _ <-. apply (ok_under g e n); auto. apply under_des. }
  destruct (Nat.eqb_spec c e) as [->|Hc]; [discriminate|].
  destruct (addReference _ c e) as [[r g1]|] eqn:A; [|discriminate].
  destruct (link_de_cases g e k c n m r g1 E Ec Hc A) as (L1 & v' & L2 & L3).
  assert (Gs : forall n', (forall q, nth_error qs e = Some q -> good q n -> good q n') -> n_items n' = n_items n -> ok (put g1 e n')).
  { intros n' Hn' Hi' i. rewrite look_put. destruct (Nat.eqb_spec i e) as [->|Hi].
    - pose proof (H e) as He. rewrite E in He. destruct (nth_error qs e) as [q|] eqn:Q; [|contradiction]. rewrite Hi'. destruct He. auto.
    - destruct (Nat.eq_dec i c) as [->|Hi2].
      + rewrite L2. pose proof (H c) as X. rewrite Ec in X. destruct (nth_error qs c) as [q|]; [|contradiction]. destruct X as [X1 X2]. split; [|exact X2]. apply (good_under q m); auto. apply under_refs.
      + rewrite L3 by auto. apply H. }
  assert (Un : forall F h', with_flow F (set_de g1 e k None) = Some (f, h') -> ok h').
  { intros F h'. unfold set_de. rewrite L1. cbn. intros X. injection X as _ <-. apply Gs; [|reflexivity].
    intros q _ G. apply (good_under q n); auto. under. apply set_unset. }
  destruct r; [apply Un|apply Un|].
  destruct (de_target k m) eqn:T; [|apply Un]. intros X. injection X as _ <-.
  assert (Kn : sort qs c known).
  { destruct (ok_look g c m H Ec) as (q & Eq & G). exists q. split; [exact Eq|].
    unfold addReference in A. rewrite look_put_ne in A by exact Hc. rewrite Ec, look_put_eq in A. unfold forbids in A.
    destruct (n_null m) eqn:U; [cbn in A; discriminate|]. pose proof (kind_known q) as [K|K]; [|exact K]. rewrite (g_null _ _ G), <- K in U. discriminate. }
  assert (Dk : (k < 7)%nat -> de_kind k c).
  { intros K7. destruct (ok_look g c m H Ec) as (p & Ep & Gp). destruct Kn as (p' & Ep' & Kn). rewrite Ep in Ep'. injection Ep' as <-.
    rewrite <- (g_type _ _ Gp) in Kn. unfold de_target in T. cbv zeta in T.
    assert (S1 : forall t, n_type m = t -> sort qs c [t]) by (intros t Ht; now apply (good_eq g c m)).
    destruct k as [|[|[|[|[|[|[|k]]]]]]]; cbn [de_kind]; [now exists p| | | | | | |lia].
    - cbn in Kn. lia.
    - apply S1. cbn in Kn. lia.
    - cbn in Kn. lia.
    - cbn in K4. apply negb_false_iff in K4. unfold is_a in K4. apply S1. lia.
    - cbn in Kn. lia.
    - apply S1. cbn in Kn. lia. }
  intros i. destruct (Nat.eq_dec i e) as [->|Hi].
  - rewrite L1. pose proof (H e) as X. rewrite E in X. destruct (nth_error qs e) as [q|]; [|contradiction]. destruct X as [X1 X2]. split; [now apply good_set_de|exact X2].
  - destruct (Nat.eq_dec i c) as [->|Hi2].
    + rewrite L2. pose proof (H c) as X. rewrite Ec in X. destruct (nth_error qs c) as [q|]; [|contradiction]. destruct X as [X1 X2]. split; [|exact X2]. apply (good_under q m); auto. apply under_refs.
    + rewrite L3 by auto. apply H.
Qed.

Lemma refs_names k v : is_ref k v -> de_names k v = Some (Z.abs v).
Proof.
  unfold is_ref, de_names. destruct (in_dec Nat.eq_dec k [1; 2; 6]%nat) as [I|I].
  - apply mem_in in I. rewrite I. intros H. destruct (v <? 0) eqn:Q; [|lia]. f_equal. lia.
  - apply mem_notin in I. rewrite I. intros H. destruct (0 <? v) eqn:Q; [|lia]. f_equal. lia.
Qed.
Lemma accept_de g e k v h : ok g -> (k < 7)%nat -> is_ref k v -> link_de N g e k v = Some (Fine, h) -> de_proper qs e k v.
Proof.
  intros H K7 R. unfold link_de. rewrite (refs_names k v R). destruct (index_of N (Z.abs v)) as [c|] eqn:Ix; [|discriminate].
  apply index_leads in Ix. destruct Ix as [Ld _].
  destruct (look g c) as [m|] eqn:Ec; [|discriminate]. unfold set_de at 1. destruct (look g e) as [n|] eqn:E; [|discriminate].
  destruct (Nat.eqb k 4 && negb (is_a 124 m)) eqn:K4; [unfold set_de; rewrite E; discriminate|].
  destruct (Nat.eqb_spec c e) as [->|Hc]; [discriminate|].
  destruct (ok_look g c m H Ec) as (p & Ep & Gp). intros A.
  exists c, p. split; [exact Ld|]. split; [exact Ep|]. split; [exact Hc|].
  assert (Z0 : n_type m <> 0 -> n_null m = false) by (rewrite (g_type _ _ Gp), (g_null _ _ Gp); lia).
  rewrite <- (g_type _ _ Gp), <- (g_form _ _ Gp). pose proof (kind_known p) as Kn. rewrite <- (g_type _ _ Gp) in Kn.
  destruct (addReference _ c e) as [[r g1]|] eqn:Ad; [|discriminate].
  destruct (link_de_cases g e k c n m r g1 E Ec Hc Ad) as (L1 & _).
  assert (Sd : forall F, with_flow F (set_de g1 e k None) = Some (Fine, h) -> F = Fine).
  { intros F. unfold set_de. rewrite L1. cbn. intros X. now injection X as ->. }
  assert (T : n_type m = 0 \/ de_target k m = true).
  { destruct r.
    - destruct (n_type m =? 0) eqn:Q; [left; lia|]. apply Sd in A. discriminate.
    - apply Sd in A. discriminate.
    - destruct (de_target k m); [now right|]. apply Sd in A. discriminate. }
  clear A Ad Sd L1 Ld Ep Gp Ec E H R. unfold de_target in T. cbv zeta in T. cbn [In known] in Kn.
  destruct k as [|[|[|[|[|[|[|k]]]]]]]; [exact I| | | | | | |lia].
  - lia.
  - lia.
  - destruct T as [T|T]; [exact T|]. lia.
  - cbn in K4. apply negb_false_iff in K4. unfold is_a in K4. lia.
  - lia.
  - lia.
Qed.

Lemma worse_fine a b : worse a b = Fine -> a = Fine /\ b = Fine.
Proof. destruct a, b; cbn; intuition congruence. Qed.
Lemma ok_link_des e l : forall k g acc f h, ok g -> link_des N g e k l acc = Some (f, h) ->
  ok h /\ (f = Fine -> (k + length l <= 7)%nat -> acc = Fine /\ forall j v, nth_error l j = Some v -> is_ref (k + j) v -> de_proper qs e (k + j) v).
Proof.
  induction l as [|v l IH]; intros k g acc f h H; cbn [link_des].
  - intros X. injection X as <- <-. split; [exact H|]. intros -> _. split; [reflexivity|]. intros [|j] v; discriminate.
  - destruct (link_de N g e k v) as [[f1 g1]|] eqn:D; [|discriminate]. pose proof (ok_link_de _ _ _ _ _ _ H D) as H1.
    assert (Go : link_des N g1 e (S k) l (worse acc f1) = Some (f, h) -> ok h /\ (f = Fine -> (k + length (v :: l) <= 7)%nat -> acc = Fine /\
        forall j w, nth_error (v :: l) j = Some w -> is_ref (k + j) w -> de_proper qs e (k + j) w)).
    { intros X. destruct (IH _ _ _ _ _ H1 X) as [H2 R]. split; [exact H2|]. intros Ff Le. cbn [length] in Le.
      destruct (R Ff ltac:(lia)) as [W Rs]. apply worse_fine in W. destruct W as [W1 ->]. split; [exact W1|].
      intros [|j] w E Rw; cbn in E.
      - injection E as <-. rewrite Nat.add_0_r in *. apply (accept_de g e k v g1); auto. lia.
      - replace (k + S j)%nat with (S k + j)%nat in * by lia. now apply Rs. }
    destruct f1; try exact Go. intros X. injection X as <- <-. split; [exact H1|discriminate].
Qed.

Lemma ok_push_extra g e x b h : ok g -> sort qs x [406] -> push_extra g e x = Some (b, h) -> ok h.
Proof.
  intros H S. unfold push_extra. destruct (look g e) as [n|] eqn:E; [|discriminate]. intros X. injection X as _ <-.
  apply (ok_put g e n); auto. intros q _ [A B C D Se [K1 K2 K3 K4 K5 K6 K7]]. constructor; auto. constructor; auto.
  cbn. intros y Hy. apply in_app_iff in Hy. destruct Hy as [Hy|[<-|[]]]; auto.
Qed.
Lemma ok_link_extra g e v b h : ok g -> link_extra N g e v = Some (b, h) -> ok h /\ (b = true -> refers qs v [406]).
Proof.
  intros H. unfold link_extra. destruct (index_of N v) as [x|] eqn:Ix; [|intros X; injection X as <- <-; split; [exact H|discriminate]].
  apply index_leads in Ix. destruct Ix as [Ld _]. destruct (look g x) as [m|] eqn:Em; [|discriminate].
  destruct (zmem (n_type m) [406; 212; 312]) eqn:T.
  - assert (S : sort qs x [406]) by (apply (sort_sub qs x [406; 212; 312]); [now apply (good_type g x m)|reflexivity]).
    destruct (addReference g x e) as [[r g1]|] eqn:A; [|discriminate]. pose proof (ok_addRef _ _ _ _ _ H A) as H1.
    destruct r; [intros X; injection X as <- <-; split; [exact H1|discriminate]|intros X; injection X as <- <-; split; [exact H1|discriminate]|].
    intros X. split; [exact (ok_push_extra _ _ _ _ _ H1 S X)|]. intros _. now exists x.
  - destruct (n_type m =? 402) eqn:T2; [|intros X; injection X as <- <-; split; [exact H|discriminate]].
    exfalso. apply Z.eqb_eq in T2. pose proof (good_eq g x m _ H Em T2) as S. assert (F : sort qs x []) by (apply (sort_sub qs x [402]); [exact S|reflexivity]).
    destruct F as (? & _ & []).
Qed.
Lemma ok_link_extras e l : forall g ok0 b h, ok g -> link_extras N g e l ok0 = Some (b, h) ->
  ok h /\ (b = true -> ok0 = true /\ forall v, In v l -> refers qs v [406]).
Proof.
  induction l as [|v l IH]; intros g ok0 b h H; cbn [link_extras].
  - intros X. injection X as <- <-. split; [exact H|]. intros ->. split; [reflexivity|]. intros v [].
  - destruct (link_extra N g e v) as [[b1 g1]|] eqn:L; [|discriminate]. destruct (ok_link_extra _ _ _ _ _ H L) as [H1 R1].
    intros X. destruct (IH _ _ _ _ H1 X) as [H2 R2]. split; [exact H2|]. intros Hb. destruct (R2 Hb) as [W R]. apply andb_prop in W. destruct W as [W1 W2].
    split; [exact W1|]. intros w [<-|Hw]; auto.
Qed.

(* what the base class has tested once an entity is done *)
Definition base_proper (e : nat) (q : wants) : Prop :=
  (forall k v, nth_error (q_des q) k = Some v -> is_ref k v -> de_proper qs e k v) /\ (forall v, In v (q_extras q) -> refers qs v [406]).
Definition done_ok (done : list nat) : Prop :=
  forall e q, In e done -> nth_error qs e = Some q -> length (q_des q) = 7%nat -> base_proper e q.

Lemma ok_base q g done e b h d : ok g -> done_ok done -> nth_error qs e = Some q -> base_associate N q g done e = Some (b, h, d) ->
  ok h /\ done_ok d /\ (b = true -> length (q_des q) = 7%nat -> base_proper e q).
Proof.
  intros H D E. unfold base_associate. destruct (mem e done) eqn:M.
  { intros X. injection X as <- <- <-. split; [exact H|]. split; [exact D|]. intros _ L. apply D; auto. now apply mem_in. }
  destruct (link_des N g e 0 (q_des q) Fine) as [[f g1]|] eqn:L; [|discriminate]. destruct (ok_link_des _ _ _ _ _ _ _ H L) as [H1 R1].
  assert (Go : forall o b h d, match link_extras N g1 e (q_extras q) o with
      | None => None | Some (true, g2) => Some (true, g2, e :: done) | Some (false, g2) => Some (false, g2, done) end = Some (b, h, d) ->
      (o = true -> f = Fine) -> ok h /\ done_ok d /\ (b = true -> length (q_des q) = 7%nat -> base_proper e q)).
  { intros o b' h' d'. destruct (link_extras N g1 e (q_extras q) o) as [[x g2]|] eqn:Lx; [|discriminate].
    destruct (ok_link_extras _ _ _ _ _ _ H1 Lx) as [H2 R2]. intros X Fo.
    assert (P : x = true -> length (q_des q) = 7%nat -> base_proper e q).
    { intros Hx L7. destruct (R2 Hx) as [O R]. destruct (R1 (Fo O) ltac:(cbn; lia)) as [_ R1']. split; [|exact R]. intros k v. apply (R1' k v). }
    destruct x; injection X as <- <- <-; (split; [exact H2|]); (split; [|exact P]); [|exact D].
    intros e' q' [<-|He'] E' L'; [|now apply D]. rewrite E in E'. injection E' as <-. now apply P. }
  destruct f.
  - intros X. apply (Go true b h d X). reflexivity.
  - intros X. apply (Go false b h d X). discriminate.
  - intros X. injection X as <- <- <-. split; [exact H1|]. split; [exact D|]. discriminate.
Qed.

(* ---- the classes ---- *)

Definition slot_kind (t : Z) (k x : nat) : Prop :=
  if t =? 120 then sort qs x (match k with O => [110] | _ => curves end)
  else if t =? 144 then sort qs x (match k with O => sheets | _ => [142] end)
  else if (t =? 122) || (t =? 164) then sort qs x curves
  else if t =? 186 then sort qs x [514]
  else if t =? 408 then sort qs x [308]
  else if t =? 510 then sort qs x sheets
  else True.
Definition item_kind (t : Z) (x : nat) : Prop :=
  if t =? 102 then sort qs x simple
  else if t =? 144 then sort qs x [142]
  else if t =? 180 then sort qs x solids
  else if t =? 186 then sort qs x [514]
  else if t =? 510 then sort qs x [508]
  else if t =? 514 then sort qs x [510]
  else True.

Section Class.
Variables (e : nat) (q : wants).
Hypothesis Eq : nth_error qs e = Some q.
Hypothesis Elo : (e < lo)%nat.

Lemma ok_set_slot g k x h : ok g -> (forall c, x = Some c -> slot_kind (kind q) k c) -> set_slot g e k x = Some h -> ok h.
Proof.
  intros H S. unfold set_slot. destruct (look g e) as [n|] eqn:E; [|discriminate]. intros X. injection X as <-.
  apply (ok_put g e n); auto. intros q' E' [A B C D Se [K1 K2 K3 K4 K5 K6 K7]]. rewrite Eq in E'. injection E' as <-.
  constructor; auto. constructor; auto. cbn [n_slots w_slots n_type]. intros j y Hy. change (slot_kind (n_type n) j y).
  assert (Y : nth j (n_slots n) None = Some y \/ (j = k /\ x = Some y)).
  { destruct (le_lt_dec (length (n_slots n)) k) as [L|L].
    - left. revert Hy. generalize (n_slots n) j k L. clear. intros l. induction l as [|a l IH]; intros j [|k] L E; cbn in *; try lia; auto.
      destruct j; auto. apply (IH j k); [lia|exact E].
    - rewrite nth_set_nth in Hy by exact L. destruct (Nat.eqb_spec j k) as [->|]; auto. }
  destruct Y as [Y|[-> ->]]; [now apply K3|]. rewrite A. now apply S.
Qed.
Lemma ok_push_item g x h : ok g -> item_kind (kind q) x -> push_item g e x = Some h -> ok h.
Proof.
  intros H S. unfold push_item. destruct (look g e) as [n|] eqn:E; [|discriminate]. intros X. injection X as <-.
  apply (ok_put g e n); auto. intros q' E' [A B C D Se [K1 K2 K3 K4 K5 K6 K7]]. rewrite Eq in E'. injection E' as <-.
  constructor; auto. constructor; auto. cbn [n_items w_items n_type]. intros y Hy. change (item_kind (n_type n) y).
  apply in_app_iff in Hy. destruct Hy as [Hy|[<-|[]]]; [now apply K4|]. now rewrite A.
Qed.
Lemma ok_cast_fails g k b h : ok g -> cast_fails g e k = Some (b, h) -> ok h /\ b = false.
Proof.
  intros H. unfold cast_fails, with_ok. destruct (set_slot g e k None) as [g1|] eqn:S; [|discriminate]. cbn. intros X. injection X as <- <-.
  split; [|reflexivity]. apply (ok_set_slot g k None g1 H); [discriminate|exact S].
Qed.
Lemma ok_settle_slot g k a b h : ok g -> settle_slot g e k a = Some (b, h) -> ok h /\ (b = true -> a = Keep \/ a = Forget).
Proof.
  intros H. unfold settle_slot. destruct a; cbn.
  - intros X. injection X as <- <-. auto.
  - intros X. injection X as <- <-. split; [exact H|discriminate].
  - destruct (set_slot g e k None) as [g1|] eqn:S; [|discriminate]. intros X. injection X as <- <-. split; [|auto].
    apply (ok_set_slot g k None g1 H); [discriminate|exact S].
  - destruct (set_slot g e k None) as [g1|] eqn:S; [|discriminate]. intros X. injection X as <- <-. split; [|discriminate].
    apply (ok_set_slot g k None g1 H); [discriminate|exact S].
Qed.
Lemma ok_link_slot g k c r a b h : ok g -> slot_kind (kind q) k c -> link_slot g e k c r a = Some (b, h) ->
  ok h /\ (b = true -> r <> Keep -> r <> Forget -> sort qs c known).
Proof.
  intros H S. unfold link_slot. destruct (set_slot g e k (Some c)) as [g0|] eqn:Ss; [|discriminate].
  assert (H0 : ok g0). { apply (ok_set_slot g k (Some c) g0 H); [|exact Ss]. intros c' X. now injection X as <-. }
  destruct (addReference g0 c e) as [[x g1]|] eqn:A; [|discriminate]. pose proof (ok_addRef _ _ _ _ _ H0 A) as H1. destruct x.
  - intros X. destruct (ok_settle_slot _ _ _ _ _ H1 X) as [H2 R]. split; [exact H2|]. intros Hb N1 N2. destruct (R Hb); contradiction.
  - intros X. destruct (ok_settle_slot _ _ _ _ _ H1 X) as [H2 R]. split; [exact H2|]. intros _ _ _. exact (addRef_already _ _ _ _ H0 A).
  - intros X. injection X as <- <-. split; [exact H1|]. intros _ _ _. exact (addRef_known _ _ _ _ H0 A).
Qed.
Lemma ok_link_item g c a b h : ok g -> item_kind (kind q) c -> link_item g e c a = Some (b, h) -> ok h /\ (b = true -> sort qs c known).
Proof.
  intros H S. unfold link_item. destruct (addReference g c e) as [[x g1]|] eqn:A; [|discriminate]. pose proof (ok_addRef _ _ _ _ _ H A) as H1.
  assert (Pu : forall b h, with_ok true (push_item g1 e c) = Some (b, h) -> ok h).
  { intros b' h'. destruct (push_item g1 e c) as [g2|] eqn:P; [|discriminate]. cbn. intros X. injection X as _ <-. exact (ok_push_item _ _ _ H1 S P). }
  destruct x.
  - intros X. injection X as <- <-. split; [exact H1|discriminate].
  - pose proof (addRef_already _ _ _ _ H A) as Kn. destruct a.
    + intros X. injection X as <- <-. split; [exact H1|discriminate].
    + intros X. injection X as <- <-. auto.
    + intros X. split; [exact (Pu _ _ X)|auto].
  - pose proof (addRef_known _ _ _ _ H A) as Kn. intros X. split; [exact (Pu _ _ X)|auto].
Qed.

(* a step on a value keeps everything of its kind, and its success says something of the
   value *)
Definition step {A} (f : graph -> A -> option (bool * graph)) (P : A -> Prop) : Prop :=
  forall g v b h, ok g -> f g v = Some (b, h) -> ok h /\ (b = true -> P v).
Lemma step_all {A} (f : graph -> A -> option (bool * graph)) P : step f P -> forall l g b h, ok g -> all_ok f g l = Some (b, h) ->
  ok h /\ (b = true -> forall v, In v l -> P v).
Proof.
  intros S. induction l as [|v l IH]; intros g b h H; cbn [all_ok].
  - intros X. injection X as <- <-. split; [exact H|]. intros _ v [].
  - destruct (f g v) as [[[|] g1]|] eqn:F; cbn [next_ok]; [| |discriminate]; destruct (S _ _ _ _ H F) as [H1 R1].
    + intros X. destruct (IH _ _ _ H1 X) as [H2 R2]. split; [exact H2|]. intros Hb w [<-|Hw]; auto.
    + intros X. injection X as <- <-. split; [exact H1|discriminate].
Qed.
Definition step2 (f : graph -> nat -> Z -> option (bool * graph)) (P : nat -> Z -> Prop) : Prop :=
  forall g k v b h, ok g -> f g k v = Some (b, h) -> ok h /\ (b = true -> P k v).
Lemma step_parts f P : step2 f P -> forall l k g b h, ok g -> parts_ok f g k l = Some (b, h) ->
  ok h /\ (b = true -> forall j v, nth_error l j = Some v -> P (k + j)%nat v).
Proof.
  clear Elo. intros St. induction l as [|v l IH]; intros k g b h H; cbn [parts_ok].
  - intros X. injection X as <- <-. split; [exact H|]. intros _ [|j] v; discriminate.
  - destruct (f g k v) as [[[|] g1]|] eqn:F; cbn [next_ok]; [| |discriminate]; destruct (St _ _ _ _ _ H F) as [H1 R1].
    + intros X. destruct (IH _ _ _ _ H1 X) as [H2 R2]. split; [exact H2|]. intros Hb [|j] w E; cbn in E.
      * injection E as <-. rewrite Nat.add_0_r. auto.
      * replace (k + S j)%nat with (S k + j)%nat by lia. auto.
    + intros X. injection X as <- <-. split; [exact H1|discriminate].
Qed.
Lemma step_next (r : option (bool * graph)) k b h (P1 P2 : Prop) :
  (forall b1 g1, r = Some (b1, g1) -> ok g1 /\ (b1 = true -> P1)) ->
  (forall g1 b1 h1, ok g1 -> k g1 = Some (b1, h1) -> ok h1 /\ (b1 = true -> P2)) ->
  next_ok r k = Some (b, h) -> ok h /\ (b = true -> P1 /\ P2).
Proof.
  intros R K. destruct r as [[[|] g1]|]; cbn [next_ok]; [| |discriminate]; destruct (R _ _ eq_refl) as [H1 R1].
  - intros X. destruct (K _ _ _ H1 X) as [H2 R2]. auto.
  - intros X. injection X as <- <-. split; [exact H1|discriminate].
Qed.

Ltac refused := intros X; injection X as <- <-; split; [assumption|discriminate].
Ltac index v := destruct (index_of N v) as [c|] eqn:Ix; [|refused]; apply index_leads in Ix; destruct Ix as [Ld _].
Ltac at_c g := destruct (look g _) as [m|] eqn:Em; [|discriminate].

Lemma is_curve_sort g c m : ok g -> look g c = Some m -> is_curve m = true -> sort qs c curves.
Proof. intros H E T. unfold is_curve in T. apply andb_prop in T. apply (good_type g c m); [exact H|exact E|apply T]. Qed.
Lemma is_a_sort g c m t : ok g -> look g c = Some m -> is_a t m = true -> sort qs c [t].
Proof. intros H E T. unfold is_a in T. apply andb_prop in T. apply (good_eq g c m); auto. now apply Z.eqb_eq. Qed.

Lemma step_120 : kind q = 120 -> step2 (fun g k v => part120 N g e k v) (fun k v => v <> 0 -> refers qs v (match k with O => [110] | _ => curves end)).
Proof.
  intros T g k v b h H. unfold part120. destruct (v =? 0) eqn:Z0; [intros X; injection X as <- <-; split; [exact H|lia]|].
  index v. at_c g. destruct (negb (is_curve m) || (Nat.eqb k 0 && negb (n_type m =? 110))) eqn:Q.
  { intros X. destruct (ok_cast_fails _ _ _ _ H X) as [H1 ->]. split; [exact H1|discriminate]. }
  apply orb_false_iff in Q. destruct Q as [Q1 Q2]. apply negb_false_iff in Q1.
  assert (S : sort qs c (match k with O => [110] | _ => curves end)).
  { destruct k; [|exact (is_curve_sort _ _ _ H Em Q1)]. cbn in Q2. apply negb_false_iff in Q2. apply (good_eq g c m); auto. now apply Z.eqb_eq. }
  intros X. destruct (ok_link_slot g k c Forget ForgetFail b h H) as [H1 _]; [rewrite T; exact S|exact X|].
  split; [exact H1|]. intros _ _. now exists c.
Qed.
Lemma step_122 : kind q = 122 -> step (fun g v => part122 N g e v) (fun v => v <> 0 -> refers qs v curves).
Proof.
  intros T g v b h H. unfold part122. destruct (v =? 0) eqn:Z0; [intros X; injection X as <- <-; split; [exact H|lia]|].
  destruct (negb (odd_number v)); [refused|]. index v. at_c g. destruct (is_curve m) eqn:Q.
  - pose proof (is_curve_sort _ _ _ H Em Q) as S. intros X. destruct (ok_link_slot g 0 c ForgetFail Keep b h H) as [H1 _]; [rewrite T; exact S|exact X|].
    split; [exact H1|]. intros _ _. now exists c.
  - intros X. destruct (ok_cast_fails _ _ _ _ H X) as [H1 ->]. split; [exact H1|discriminate].
Qed.
Lemma step_142 : kind q = 142 -> step2 (fun g k v => part142 N g e k v) (fun k v => (k = O -> v <> 0) /\ (v <> 0 -> refers qs v known)).
Proof.
  intros T g k v b h H. unfold part142. destruct (v =? 0) eqn:Z0; [intros X; injection X as <- <-; split; [exact H|]; lia|].
  index v. intros X. destruct (ok_link_slot g k c ForgetFail ForgetFail b h H) as [H1 R]; [rewrite T; exact I|exact X|].
  split; [exact H1|]. intros Hb. split; [lia|]. intros _. exists c. split; [exact Ld|]. apply R; [exact Hb|discriminate|discriminate].
Qed.
Lemma step_144 : kind q = 144 -> step2 (fun g k v => part144 N g e k v) (fun k v => v <> 0 /\ refers qs v (match k with O => sheets | _ => [142] end)).
Proof.
  intros T g k v b h H. unfold part144. destruct (v =? 0) eqn:Z0; [refused|]. index v. at_c g.
  destruct (if Nat.eqb k 0 then zmem (n_type m) inclusion144 else is_a 142 m) eqn:Q.
  - assert (S : sort qs c (match k with O => sheets | _ => [142] end)).
    { destruct k; cbn [Nat.eqb] in Q; [|exact (is_a_sort _ _ _ _ H Em Q)]. apply (sort_sub qs c inclusion144); [|reflexivity]. exact (good_type _ _ _ _ H Em Q). }
    intros X. destruct (ok_link_slot g k c ForgetFail ForgetFail b h H) as [H1 _]; [rewrite T; exact S|exact X|].
    split; [exact H1|]. intros _. split; [lia|]. now exists c.
  - intros X. destruct (ok_cast_fails _ _ _ _ H X) as [H1 ->]. split; [exact H1|discriminate].
Qed.
Lemma step_144i : kind q = 144 -> step (fun g v => item144 N g e v) (fun v => refers qs v [142]).
Proof.
  intros T g v b h H. unfold item144. destruct (negb (odd_number v)); [refused|]. index v. at_c g. destruct (is_a 142 m) eqn:Q; [|refused].
  pose proof (is_a_sort _ _ _ _ H Em Q) as S. destruct (addReference g c e) as [[x g1]|] eqn:A; [|discriminate]. pose proof (ok_addRef _ _ _ _ _ H A) as H1.
  destruct x; [refused| |].
  - intros X. destruct (ok_cast_fails _ _ _ _ H1 X) as [H2 ->]. split; [exact H2|discriminate].
  - destruct (push_item g1 e c) as [g2|] eqn:P; [|discriminate]. cbn. intros X. injection X as <- <-. split; [|intros _; now exists c].
    apply (ok_push_item g1 c g2 H1); [rewrite T; exact S|exact P].
Qed.
Lemma step_164 closed : kind q = 164 -> step (fun g v => part164 closed N g e v)
  (fun v => refers qs v curves /\ (hollow_open closed -> forall c p, leads v c -> nth_error qs c = Some p -> kind p = 102 -> (c < lo)%nat)).
Proof.
  intros T g v b h H. unfold part164. destruct (v <? 1); [refused|]. index v.
  destruct (addReference g c e) as [[x g1]|] eqn:A; [|discriminate]. pose proof (ok_addRef _ _ _ _ _ H A) as H1.
  destruct x; [refused|refused|]. at_c g1. destruct (is_curve m) eqn:Q.
  - pose proof (is_curve_sort _ _ _ H1 Em Q) as S. destruct (set_slot g1 e 0 (Some c)) as [g2|] eqn:Ss; [|discriminate].
    assert (H2 : ok g2). { apply (ok_set_slot g1 0 (Some c) g2 H1); [|exact Ss]. intros c' X. injection X as <-. rewrite T. exact S. }
    intros X. injection X as <- <-. split; [exact H2|]. intros Cl. split; [now exists c|]. intros Ho c' p L' Ep Kp.
    assert (c' = c) as -> by exact (leads_one _ _ _ L' Ld). destruct (le_lt_dec lo c) as [Hl|Hl]; [exfalso|exact Hl].
    destruct (ok_at g2 c p H2 Ep) as (mm & Em2 & G). rewrite (Ho g2 c mm Em2) in Cl; [discriminate| |exact (ok_fresh g2 c mm H2 Em2 Hl)].
    now rewrite (g_type _ _ G).
  - intros X. destruct (ok_cast_fails _ _ _ _ H1 X) as [H2 ->]. split; [exact H2|discriminate].
Qed.
Lemma step_180 : kind q = 180 -> step (fun g v => item180 N g e v) (fun v => refers qs v solids).
Proof.
  intros T g v b h H. unfold item180. index v. at_c g. destruct (zmem (n_type m) operand_types) eqn:Q; [|refused].
  assert (S : sort qs c solids) by (apply (sort_sub qs c operand_types); [exact (good_type _ _ _ _ H Em Q)|reflexivity]).
  destruct (push_item g e c) as [g0|] eqn:P; [|discriminate]. assert (H0 : ok g0) by (apply (ok_push_item g c g0 H); [rewrite T; exact S|exact P]).
  destruct (addReference g0 c e) as [[x g1]|] eqn:A; [|discriminate]. pose proof (ok_addRef _ _ _ _ _ H0 A) as H1.
  destruct x; intros X; injection X as <- <-; (split; [exact H1|]); try discriminate. intros _. now exists c.
Qed.
Lemma shell_sort g c m : ok g -> look g c = Some m -> is_shell m = true -> sort qs c [514].
Proof. intros H E Q. unfold is_shell in Q. apply andb_prop in Q. apply (good_eq g c m); auto. now apply Z.eqb_eq. Qed.
Lemma step_186 : kind q = 186 -> step (fun g v => part186 N g e v) (fun v => refers qs v [514]).
Proof.
  intros T g v b h H. unfold part186. destruct (v <=? 0); [refused|]. index v. at_c g. destruct (is_shell m) eqn:Q; [|refused].
  pose proof (shell_sort _ _ _ H Em Q) as S. intros X. destruct (ok_link_slot g 0 c ForgetFail Keep b h H) as [H1 _]; [rewrite T; exact S|exact X|].
  split; [exact H1|]. intros _. now exists c.
Qed.
Lemma step_item_of test t : (forall x, sort qs x [t] -> item_kind (kind q) x) ->
  (forall g c m, ok g -> look g c = Some m -> test m = true -> sort qs c [t]) ->
  step (fun g v => item_of test N g e v) (fun v => refers qs v [t]).
Proof.
  intros K Te g v b h H. unfold item_of. destruct (v <? 0); [discriminate|]. index v. at_c g. destruct (test m) eqn:Q; [|refused].
  pose proof (Te _ _ _ H Em Q) as S. intros X. destruct (ok_link_item g c Pushes b h H) as [H1 _]; [exact (K c S)|exact X|].
  split; [exact H1|]. intros _. now exists c.
Qed.
Lemma step_308 : kind q = 308 -> step (fun g v => item308 N g e v) (fun v => refers qs v known).
Proof.
  intros T g v b h H. unfold item308. destruct (negb (odd_number v)); [refused|]. index v. intros X.
  destruct (ok_link_item g c Refuses b h H) as [H1 R]; [rewrite T; exact I|exact X|]. split; [exact H1|]. intros Hb. exists c. auto.
Qed.
Lemma step_408 : kind q = 408 -> step (fun g v => part408 N g e v) (fun v => v <> 0 -> refers qs v [308]).
Proof.
  intros T g v b h H. unfold part408. destruct (v =? 0) eqn:Z0; [intros X; injection X as <- <-; split; [exact H|lia]|].
  destruct (negb (odd_number v)); [refused|]. index v. at_c g. destruct (is_a 308 m) eqn:Q.
  - pose proof (is_a_sort _ _ _ _ H Em Q) as S. intros X. destruct (ok_link_slot g 0 c ForgetFail KeepFail b h H) as [H1 _]; [rewrite T; exact S|exact X|].
    split; [exact H1|]. intros _ _. now exists c.
  - intros X. destruct (ok_cast_fails _ _ _ _ H X) as [H1 ->]. split; [exact H1|discriminate].
Qed.
Lemma step_510 : kind q = 510 -> step (fun g v => part510 N g e v) (fun v => refers qs v sheets).
Proof.
  intros T g v b h H. unfold part510. destruct (v <=? 0); [refused|]. index v. at_c g. destruct (surface_ok m) eqn:Q; [|refused].
  assert (S : sort qs c sheets).
  { unfold surface_ok in Q. apply (sort_sub qs c (118 :: [114; 120; 122; 128; 140; 190; 192; 194; 196; 198])); [|reflexivity].
    apply (good_type g c m); [exact H|exact Em|]. apply orb_prop in Q. unfold zmem in *. cbn [existsb] in *. destruct Q as [Q|Q]; [|apply andb_prop in Q; destruct Q as [Q _]; now rewrite Q].
    rewrite Q. apply orb_true_r. }
  intros X. destruct (ok_link_slot g 0 c ForgetFail Keep b h H) as [H1 _]; [rewrite T; exact S|exact X|].
  split; [exact H1|]. intros _. now exists c.
Qed.

(* 504 *)
Lemma count_up_fst v l : map fst (count_up v l) = map fst l.
Proof. induction l as [|[w c] l IH]; [reflexivity|]. cbn. destruct (Nat.eqb v w); cbn; [reflexivity|now f_equal]. Qed.
Lemma count_down_fst v l : incl (map fst (count_down v l)) (map fst l).
Proof.
  induction l as [|[w c] l IH]; [apply incl_refl|]. cbn. destruct (Nat.eqb v w).
  - destruct c as [|[|c]]; cbn; [apply incl_tl, incl_refl|apply incl_tl, incl_refl|apply incl_refl].
  - cbn. intros x [<-|H]; [now left|right; auto].
Qed.
Lemma ok_addVertexList g v b h : ok g -> addVertexList g e v = Some (b, h) -> ok h /\ (b = true -> sort qs v known).
Proof.
  intros H. unfold addVertexList. destruct (look g e) as [n|] eqn:E; [|discriminate]. destruct (mem v (map fst (n_verts n))) eqn:M.
  { intros X. injection X as <- <-. split.
    - apply (ok_under g e n); auto. apply under_verts. rewrite count_up_fst. apply incl_refl.
    - intros _. apply mem_in, in_map_iff in M. destruct M as (p & <- & M). destruct (ok_look g e n H E) as (q' & _ & G). exact (k_verts _ _ (g_wk _ _ G) p M). }
  destruct (addReference g v e) as [[x g1]|] eqn:A; [|discriminate]. pose proof (ok_addRef _ _ _ _ _ H A) as H1.
  destruct x; [refused|refused|]. pose proof (addRef_known _ _ _ _ H A) as Kn.
  destruct (look g1 e) as [n1|] eqn:E1; [|discriminate]. destruct (adopt _ e v) as [g2|] eqn:Ad; [|discriminate]. cbn. intros X. injection X as <- <-.
  split; [|auto]. apply (ok_adopt _ e v g2) in Ad; [exact Ad|]. apply (ok_put g1 e n1); auto.
  intros q' _ [B1 B2 B3 B4 Se [K1 K2 K3 K4 K5 K6 K7]]. constructor; auto. constructor; auto.
  cbn. intros p Hp. apply in_app_iff in Hp. destruct Hp as [Hp|[<-|[]]]; auto.
Qed.
Lemma ok_delVertexList g v b h : ok g -> delVertexList g e v = Some (b, h) -> ok h.
Proof.
  intros H. unfold delVertexList. destruct (look g e) as [n|] eqn:E; [|discriminate]. destruct (find _ (n_verts n)) as [[w c]|]; [|intros X; injection X as _ <-; exact H].
  assert (H1 : forall g1, (if Nat.eqb c 1 then option_map snd (delReference g v e) else Some g) = Some g1 -> ok g1).
  { intros g1. destruct (Nat.eqb c 1); [|intros X; injection X as <-; exact H]. destruct (delReference g v e) as [[b1 g2]|] eqn:D; [|discriminate].
    cbn. intros X. injection X as <-. exact (ok_delRef _ _ _ _ _ H D). }
  destruct (if Nat.eqb c 1 then option_map snd (delReference g v e) else Some g) as [g1|]; [|discriminate]. specialize (H1 g1 eq_refl).
  destruct (look g1 e) as [n1|] eqn:E1; [|discriminate]. intros X. injection X as _ <-. apply (ok_under g1 e n1); auto. apply under_verts, count_down_fst.
Qed.
Lemma ok_then_false r b h : (forall b1 g1, r = Some (b1, g1) -> ok g1) -> then_false r = Some (b, h) -> ok h /\ b = false.
Proof. intros R. destruct r as [[b1 g1]|]; [|discriminate]. cbn. intros X. injection X as <- <-. split; [exact (R _ _ eq_refl)|reflexivity]. Qed.
Lemma ok_and_then r k b h (P : Prop) : (forall b1 g1, r = Some (b1, g1) -> ok g1) -> (forall g1, ok g1 -> k g1 = Some (b, h) -> ok h /\ P) ->
  and_then r k = Some (b, h) -> ok h /\ P.
Proof. intros R K. destruct r as [[b1 g1]|]; [|discriminate]. cbn. apply K. exact (R _ _ eq_refl). Qed.
Lemma ok_addCurve g x b h : ok g -> addCurve g e x = Some (b, h) -> ok h /\ (b = true -> sort qs x curves).
Proof.
  intros H. unfold addCurve. at_c g. destruct (zmem (n_type m) [100; 102; 104; 110; 112; 126; 130] || ((n_type m =? 106) && zmem (n_form m) [11; 12; 63])) eqn:Q; [|refused].
  assert (S : sort qs x curves).
  { apply (sort_sub qs x (106 :: [100; 102; 104; 110; 112; 126; 130])); [|reflexivity]. apply (good_type g x m); [exact H|exact Em|].
    apply orb_prop in Q. unfold zmem in *. cbn [existsb] in *. destruct Q as [Q|Q]; [|apply andb_prop in Q; destruct Q as [Q _]; now rewrite Q]. rewrite Q. apply orb_true_r. }
  destruct (addReference g x e) as [[r g1]|] eqn:A; [|discriminate]. pose proof (ok_addRef _ _ _ _ _ H A) as H1. destruct r; [refused|refused|].
  destruct (adopt g1 e x) as [g2|] eqn:Ad; [|discriminate]. cbn. intros X. injection X as <- <-. split; [exact (ok_adopt _ _ _ _ H1 Ad)|auto].
Qed.
Lemma ok_AddEdge g x sv s tv t b h : ok g -> AddEdge g e x sv s tv t = Some (b, h) -> ok h /\
  (b = true -> sort qs x curves /\ sort qs sv [502] /\ sort qs tv [502] /\
     (forall p, nth_error qs sv = Some p -> 1 <= s <= Z.of_nat (q_points p)) /\ (forall p, nth_error qs tv = Some p -> 1 <= t <= Z.of_nat (q_points p))).
Proof.
  intros H. unfold AddEdge. destruct (look g e) as [n|] eqn:E; [|discriminate]. destruct (look g sv) as [ms|] eqn:Es; [|discriminate].
  destruct (look g tv) as [mt|] eqn:Et; [|discriminate]. destruct (negb (is_a 504 n) || negb (is_a 502 ms) || negb (is_a 502 mt)) eqn:Q; [refused|].
  apply orb_false_iff in Q. destruct Q as [Q Q3]. apply orb_false_iff in Q. destruct Q as [Q1 Q2]. apply negb_false_iff in Q1, Q2, Q3.
  pose proof (is_a_sort _ _ _ _ H Es Q2) as Ss. pose proof (is_a_sort _ _ _ _ H Et Q3) as St.
  destruct (addCurve g e x) as [[[|] g1]|] eqn:C; [| |discriminate]; destruct (ok_addCurve _ _ _ _ H C) as [H1 Sc]; [|refused].
  specialize (Sc eq_refl).
  destruct (addVertexList g1 e sv) as [[[|] g2]|] eqn:V1; [| |discriminate]; destruct (ok_addVertexList _ _ _ _ H1 V1) as [H2 _].
  2: { intros X. apply ok_then_false in X; [destruct X as [X ->]; split; [exact X|discriminate]|]. intros b1 k. apply ok_delRef, H2. }
  destruct (addVertexList g2 e tv) as [[[|] g3]|] eqn:V2; [| |discriminate]; destruct (ok_addVertexList _ _ _ _ H2 V2) as [H3 _].
  2: { assert (D : forall g5 (P : Prop), ok g5 -> then_false (delVertexList g5 e sv) = Some (b, h) -> ok h /\ (b = true -> P)).
       { intros g5 P H5 X. apply ok_then_false in X; [destruct X as [X ->]; split; [exact X|discriminate]|]. intros b1 k. apply ok_delVertexList, H5. }
       apply ok_and_then; [intros b1 k; apply ok_delRef, H3|]. intros g4 H4. now apply D. }
  destruct ((s <? 1) || (s >? Z.of_nat (n_points ms)) || (t <? 1) || (t >? Z.of_nat (n_points mt))) eqn:Ra.
  { apply ok_and_then; [intros b1 k; apply ok_delRef, H3|]. intros g4 H4. apply ok_and_then; [intros b1 k; apply ok_delVertexList, H4|].
    intros g5 H5 X. apply ok_then_false in X; [destruct X as [X ->]; split; [exact X|discriminate]|]. intros b1 k. apply ok_delVertexList, H5. }
  destruct (look g3 e) as [n3|] eqn:E3; [|discriminate]. intros X. injection X as <- <-. split.
  - apply (ok_put g3 e n3); auto. intros q' _ [A B Cc D Se [K1 K2 K3 K4 K5 K6 K7]]. constructor; auto. constructor; auto.
    cbn. intros d Hd. apply in_app_iff in Hd. destruct Hd as [Hd|[<-|[]]]; auto.
  - intros _. split; [exact Sc|]. split; [exact Ss|]. split; [exact St|]. split.
    + intros p Ep. destruct (ok_look g sv ms H Es) as (p' & Ep' & G). rewrite Ep in Ep'. injection Ep' as <-. rewrite <- (g_points _ _ G). lia.
    + intros p Ep. destruct (ok_look g tv mt H Et) as (p' & Ep' & G). rewrite Ep in Ep'. injection Ep' as <-. rewrite <- (g_points _ _ G). lia.
Qed.
Definition edge_proper (d : Z * (Z * Z) * (Z * Z)) : Prop :=
  let '(c, (a, s), (b, t)) := d in
  refers qs c curves /\ refers qs a [502] /\ refers qs b [502] /\
  (forall x p, leads a x -> nth_error qs x = Some p -> 1 <= s <= Z.of_nat (q_points p)) /\
  (forall x p, leads b x -> nth_error qs x = Some p -> 1 <= t <= Z.of_nat (q_points p)).
Lemma step_504 : step (fun g d => item504 N g e d) edge_proper.
Proof.
  intros g [[c [a s]] [b t]] r h H. unfold item504.
  destruct (index_of N c) as [ci|] eqn:Ic; [|refused]. destruct (index_of N a) as [si|] eqn:Ia; [|refused]. destruct (index_of N b) as [ti|] eqn:Ib; [|refused].
  apply index_leads in Ic, Ia, Ib. destruct Ic as [Lc _], Ia as [La _], Ib as [Lb _].
  destruct (look g si) as [ms|]; [|discriminate]. destruct (look g ti) as [mt|]; [|discriminate]. destruct (is_a 502 ms && is_a 502 mt); [|discriminate].
  intros X. destruct (ok_AddEdge _ _ _ _ _ _ _ _ H X) as [H1 R]. split; [exact H1|]. intros Hr. destruct (R Hr) as (R1 & R2 & R3 & R4 & R5).
  split; [now exists ci|]. split; [now exists si|]. split; [now exists ti|]. split.
  - intros x p Lx. assert (x = si) as -> by exact (leads_one _ _ _ Lx La). apply R4.
  - intros x p Lx. assert (x = ti) as -> by exact (leads_one _ _ _ Lx Lb). apply R5.
Qed.

(* 508 *)
Lemma ok_drop_curves l : forall g h, ok g -> drop_curves g e l = Some h -> ok h.
Proof.
  induction l as [|x l IH]; intros g h H; cbn [drop_curves]; [intros X; injection X as <-; exact H|].
  destruct (delReference g x e) as [[b g1]|] eqn:D; [|discriminate]. apply IH. exact (ok_delRef _ _ _ _ _ H D).
Qed.
Lemma ok_add_pcurves l : forall done g b h, ok g -> add_pcurves g e done l = Some (b, h) -> ok h /\ (b = true -> Forall (fun x => sort qs x known) l).
Proof.
  induction l as [|x l IH]; intros done g b h H; cbn [add_pcurves]; [intros X; injection X as <- <-; split; [exact H|constructor]|].
  assert (Dr : forall g1 b1 h1 (P : Prop), ok g1 -> option_map (fun g => (false, g)) (drop_curves g1 e (x :: done)) = Some (b1, h1) -> ok h1 /\ (b1 = true -> P)).
  { intros g1 b1 h1 P H1. destruct (drop_curves g1 e (x :: done)) as [g2|] eqn:D; [|discriminate]. cbn. intros X. injection X as <- <-.
    split; [exact (ok_drop_curves _ _ _ H1 D)|discriminate]. }
  destruct (look g e) as [n|]; [|discriminate]. destruct (mem x (flat_map snd (n_loops n))); [now apply Dr|].
  destruct (addReference g x e) as [[r g1]|] eqn:A; [|discriminate]. pose proof (ok_addRef _ _ _ _ _ H A) as H1. destruct r; [now apply Dr|now apply Dr|].
  destruct (adopt g1 e x) as [g2|] eqn:Ad; [|discriminate]. intros X. destruct (IH _ _ _ _ (ok_adopt _ _ _ _ H1 Ad) X) as [H2 R2].
  split; [exact H2|]. intros Hb. constructor; [exact (addRef_known _ _ _ _ H A)|auto].
Qed.
Lemma ok_AddLoopEdge g d l b h : ok g -> AddLoopEdge g e d l = Some (b, h) -> ok h /\ (b = true -> sort qs d known /\ Forall (fun x => sort qs x known) l).
Proof.
  intros H. unfold AddLoopEdge. destruct (look g e) as [n|]; [|discriminate]. destruct (negb (is_a 508 n)); [refused|].
  destruct (addVertexList g e d) as [[[|] g1]|] eqn:V; [| |discriminate]; destruct (ok_addVertexList _ _ _ _ H V) as [H1 Sd]; [|refused]. specialize (Sd eq_refl).
  destruct (add_pcurves g1 e [] l) as [[[|] g2]|] eqn:P; [| |discriminate]; destruct (ok_add_pcurves _ _ _ _ _ H1 P) as [H2 Sl]; [|refused]. specialize (Sl eq_refl).
  destruct (look g2 e) as [n2|] eqn:E2; [|discriminate]. intros X. injection X as <- <-. split; [|auto].
  apply (ok_put g2 e n2); auto. intros q' _ [B1 B2 B3 B4 Se [K1 K2 K3 K4 K5 K6 K7]]. constructor; auto. constructor; auto.
  cbn. intros d' l' Hp. apply in_app_iff in Hp. destruct Hp as [Hp|[Hp|[]]]; [now apply K7|]. injection Hp as <- <-. auto.
Qed.
Lemma indices_refer l : forall xs, indices N l = Some xs -> Forall (fun x => sort qs x known) xs -> Forall (fun v => refers qs v known) l.
Proof.
  induction l as [|v l IH]; intros xs; cbn [indices]; [constructor|]. destruct (index_of N v) as [x|] eqn:Ix; [|discriminate].
  destruct (indices N l) as [ys|]; [|discriminate]. cbn. intros X F. injection X as <-. inversion F; subst. apply index_leads in Ix.
  constructor; [exists x; tauto|]. now apply (IH ys).
Qed.
Lemma step_508 : step (fun g d => item508 N g e d) (fun d => refers qs (fst d) known /\ Forall (fun v => refers qs v known) (snd d)).
Proof.
  intros g [v l] b h H. unfold item508. cbn [fst snd]. index v. destruct (indices N l) as [xs|] eqn:Il; [|refused].
  intros X. destruct (ok_AddLoopEdge _ _ _ _ _ H X) as [H1 R]. split; [exact H1|]. intros Hb. destruct (R Hb) as [R1 R2].
  split; [now exists c|]. exact (indices_refer _ _ Il R2).
Qed.
End Class.
End Accept.
