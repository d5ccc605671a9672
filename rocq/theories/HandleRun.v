(* The operations on handles keep the invariants. *)
From Coq Require Import List Bool ZArith Lia.
From Verif Require Import HandleModel HandleSpec HandleFacts HandleOps HandleStep.
Import ListNotations.
Open Scope Z_scope.

Record kept (K D : nat -> Prop) (s s' : st) : Prop := { k_inv : inv s'; k_store : store s'; k_frame : frame K D s s' }.

Lemma good_kept (K D : nat -> Prop) s s' : store s -> good K D s s' -> (forall m e, stores s m e -> D e -> D m) -> kept K D s s'.
Proof. intros S G H. pose proof (keep_store K D s s' S G H). destruct G. now split. Qed.
Lemma good_kept0 (K : nat -> Prop) s s' : store s -> good K none s s' -> kept K none s s'.
Proof. intros S G. apply good_kept; [assumption..|]. intros m e _ []. Qed.
Lemma kept_trans (K1 K2 K D1 D2 D : nat -> Prop) a b c : inv a -> kept K1 D1 a b -> kept K2 D2 b c ->
  (forall x, K1 x \/ K2 x -> K x) -> (forall x, D1 x \/ D2 x <-> D x) -> kept K D a c.
Proof.
  intros I [I1 S1 F1] [I2 S2 F2] HK HD. split; auto. now apply (frame_two K1 K2 K D1 D2 D a b c).
Qed.
Lemma kept_none (K1 K2 K : nat -> Prop) a b c : inv a -> kept K1 none a b -> kept K2 none b c -> (forall x, K1 x \/ K2 x -> K x) -> kept K none a c.
Proof. intros I A B H. apply (kept_trans K1 K2 K none none none a b c); auto. unfold none. tauto. Qed.
Lemma kept_refl s : inv s -> store s -> kept none none s s.
Proof. intros I S. split; auto. apply frame_refl. Qed.
Lemma kept_weaken (K K' D D' : nat -> Prop) s s' : (forall c, K c -> K' c) -> (forall o, D o <-> D' o) -> kept K D s s' -> kept K' D' s s'.
Proof. intros A B [I S F]. split; auto. now apply (frame_weaken K K' D D'). Qed.
Lemma kept_fresh (K K' D : nat -> Prop) s s' : (forall c, K c -> K' c \/ (length (cells s) <= c)%nat) -> kept K D s s' -> kept K' D s s'.
Proof. intros A [I S F]. split; auto. now apply (frame_fresh K K' D). Qed.

Lemma stay_free' (K D : nat -> Prop) s s' c : kept K D s s' -> ~ K c -> cell s c = Some false -> cell s' c = Some false.
Proof.
  intros [I _ F] HK C. destruct (f_link _ _ _ _ F c HK (cell_lt _ _ _ C)) as (A & B & _).
  apply link_none; [assumption| |]; [rewrite <- A; congruence|]. apply B. unfold link. now rewrite C.
Qed.
Lemma stay_link (K D : nat -> Prop) s s' c o : kept K D s s' -> inv s -> ~ K c -> ~ D o -> link s c = Some o -> link s' c = Some o.
Proof.
  intros [_ _ F] I HK HD L. destruct (link_live s c o I L) as (x & _ & _ & _ & C).
  destruct (f_link _ _ _ _ F c HK (cell_lt _ _ _ C)) as (_ & _ & B). destruct (B o L) as [_ B2]. auto.
Qed.

Lemma make_kept s t : inv s -> store s -> kept none none s (make t s) /\ obj (make t s) (fresh s) = Some (mkObj t [] []).
Proof.
  intros I S. destruct (make_inv s t I) as (I1 & F1 & S1). split; [|now rewrite make_obj, Nat.eqb_refl].
  apply good_kept0; [assumption|]. now split.
Qed.

Lemma blank_kept s t : inv s -> store s -> kept none none s (blank t s) /\ hnd (blank t s) (length (hands s)) = Some (mkHand t None None) /\
  cell (blank t s) (valid_of (length (hands s))) = Some false /\ cell (blank t s) (parent_of (length (hands s))) = Some false.
Proof.
  intros I S. destruct (blank_inv s t I) as (I1 & F1 & S1). split; [|split; [now rewrite blank_hnd, Nat.eqb_refl|]].
  - apply good_kept0; [assumption|]. now split.
  - split; rewrite blank_cell by assumption; [rewrite div_valid|rewrite div_parent]; now rewrite Nat.eqb_refl.
Qed.

Lemma model_obj s m : model s m -> exists x, obj s m = Some x /\ o_type x = -1.
Proof. intros (x & O & T). eauto. Qed.

Lemma hold_new_ok s h x p : inv s -> store s -> hnd s h = Some x -> h_type x <> -1 -> cell s (valid_of h) = Some false -> (forall m, p = Some m -> model s m) ->
  exists s', hold_new h (h_type x) p s = Some s' /\ kept (vcell h) none s s' /\ link s' (valid_of h) = Some (fresh s) /\ of_type s' (fresh s) (h_type x) /\
    (exists x', hnd s' h = Some x' /\ h_type x' = h_type x) /\ length (hands s') = length (hands s) /\ (forall m, p = Some m -> stores s' m (fresh s)) /\
    (p = None -> forall m, ~ stores s' m (fresh s)).
Proof.
  intros I S H T C Hp. unfold hold_new.
  assert (X : exists s1, match p with Some m => NewEntity m (h_type x) s | None => Some (make (h_type x) s) end = Some s1 /\ kept none none s s1 /\
    of_type s1 (fresh s) (h_type x) /\ hands s1 = hands s /\ cells s1 = cells s /\ (forall m, p = Some m -> stores s1 m (fresh s)) /\ (p = None -> forall m, ~ stores s1 m (fresh s))).
  { destruct p as [m|].
    - destruct (model_obj s m (Hp m eq_refl)) as (y & Y & Ty). destruct (NewEntity_ok s m y (h_type x) I S Y Ty T) as (s1 & E & I1 & S1 & F1 & O1 & En & H1 & C1 & L1).
      exists s1. split; [assumption|]. split; [now split|]. repeat (split; [assumption|]). split; [|discriminate].
      intros k [= <-]. apply stores_ents. rewrite En, Nat.eqb_refl. apply in_or_app. cbn. auto.
    - destruct (make_kept s (h_type x) I S) as (K1 & O1). exists (make (h_type x) s). split; [reflexivity|]. split; [assumption|].
      split; [exists (mkObj (h_type x) [] []); auto|]. split; [reflexivity|]. split; [reflexivity|]. split; [discriminate|]. intros _ m (y & Y & Hy).
      rewrite make_obj in Y. destruct (Nat.eqb m (fresh s)); [injection Y as <-; destruct Hy|]. destruct S as [S _]. destruct (S m y Y) as [_ Q].
      destruct (Q _ Hy) as [_ (t & (z & Z & _) & _)]. apply obj_lt in Z. unfold fresh in Z. lia. }
  destruct X as (s1 & E1 & K1 & (y & Y & Ty) & H1 & C1 & P1 & P2). rewrite E1. cbn [bind].
  assert (Hx : hnd s1 h = Some x) by (unfold hnd; now rewrite H1).
  assert (Cx : cell s1 (valid_of h) = Some false) by (unfold cell; now rewrite C1).
  destruct (aim_ok s1 h x (fresh s) y (k_inv _ _ _ _ K1) Hx Cx Y Ty) as (s2 & E2 & G2 & L2 & H2 & N2 & N3).
  assert (K2 : kept (vcell h) none s1 s2) by (apply good_kept0; [apply K1|assumption]).
  exists s2. split; [exact E2|]. split; [apply (kept_none none (vcell h) (vcell h) s s1 s2); auto; unfold none; tauto|].
  split; [assumption|]. split; [|split; [assumption|split; [congruence|split]]].
  - apply (type_kept (vcell h) none s1 s2); [apply K2|exists y; auto|intros []].
  - intros m Em. specialize (P1 m Em). apply stores_ents. apply stores_ents in P1. destruct G2 as [_ F2 Sm]. destruct (f_obj _ _ _ _ F2 m) as [_ Q].
    + unfold ents in P1. destruct (obj s1 m) as [z|] eqn:Z; [|destruct P1]. apply (obj_lt _ _ _ Z).
    + unfold ents at 1. unfold ents in P1. destruct (obj s1 m) as [z|] eqn:Z; [|destruct P1]. destruct (Q z eq_refl) as [_ Q2]. destruct (Q2 (fun X => X)) as (z' & Z' & _).
      rewrite Z'. rewrite (Sm m z' Z'). unfold ents. now rewrite Z.
  - intros Ep m Hs. apply (P2 Ep m). apply stores_ents. apply stores_ents in Hs. unfold ents in Hs. destruct (obj s2 m) as [z|] eqn:Z; [|destruct Hs].
    rewrite <- (g_same _ _ _ _ G2 m z Z). exact Hs.
Qed.

Lemma base_new_ok s t p : inv s -> store s -> t <> -1 -> (forall m, p = Some m -> model s m) ->
  let h := length (hands s) in
  exists s', base_new t p s = Some s' /\ kept none none s s' /\ (exists x, hnd s' h = Some x /\ h_type x = t) /\ cell s' (valid_of h) = Some false /\
    link s' (parent_of h) = p /\ length (hands s') = S h /\ length (objs s') = length (objs s).
Proof.
  intros I S T Hp h. unfold base_new. fold h. destruct (blank_kept s t I S) as (K1 & H1 & C1 & C2). fold h in H1, C1, C2.
  assert (Hl : length (hands (blank t s)) = Datatypes.S h) by (unfold blank; cbn [hands]; rewrite app_length; cbn; unfold h; lia).
  destruct p as [m|].
  - destruct (model_obj s m (Hp m eq_refl)) as (y & Y & Ty). assert (Y1 : obj (blank t s) m = Some y) by exact Y.
    destruct (aim_parent_ok (blank t s) h _ m y (k_inv _ _ _ _ K1) H1 C2 Y1 Ty T) as (s2 & E2 & G2 & L2 & (x' & H2 & T2) & N2 & N3).
    assert (K2 : kept (pcell h) none (blank t s) s2) by (apply good_kept0; [apply K1|assumption]).
    exists s2. split; [exact E2|]. split; [|split; [exists x'; split; [assumption|]; now rewrite T2|split; [|split; [assumption|split; [congruence|rewrite N2; reflexivity]]]]].
    + apply (kept_fresh (pcell h) none). { intros c ->. right. rewrite (i_len s I). unfold parent_of, h. lia. }
      apply (kept_none none (pcell h) (pcell h) s (blank t s) s2); auto; unfold none; tauto.
    + apply (stay_free' (pcell h) none (blank t s) s2); auto. apply vp.
  - exists (blank t s). split; [reflexivity|]. split; [assumption|]. split; [exists (mkHand t None None); auto|]. split; [assumption|]. split; [|auto].
    unfold link. now rewrite C2.
Qed.

Lemma HandNew_ok s t p c : inv s -> store s -> t <> -1 -> (forall m, p = Some m -> model s m) ->
  let h := length (hands s) in
  exists s', HandNew t p c s = Some s' /\ kept none none s s' /\ (exists x, hnd s' h = Some x /\ h_type x = t) /\
    link s' (valid_of h) = (if c then Some (fresh s) else None) /\ (c = true -> of_type s' (fresh s) t) /\
    link s' (parent_of h) = p /\ length (hands s') = S h.
Proof.
  intros I S T Hp h. unfold HandNew. fold h. destruct (base_new_ok s t p I S T Hp) as (s1 & E1 & K1 & (x & H1 & T1) & C1 & L1 & N1 & O1).
  fold h in H1, C1, L1, N1. rewrite E1. cbn [bind]. destruct c.
  - destruct (hold_new_ok s1 h x p (k_inv _ _ _ _ K1) (k_store _ _ _ _ K1) H1) as (s2 & E2 & K2 & L2 & O2 & (x' & H2 & T2) & N2 & _ & _); auto.
    { congruence. } { intros m Em. apply (type_kept none none s s1); [apply K1|now apply Hp|intros []]. }
    rewrite T1 in E2. exists s2. split; [exact E2|]. assert (Fr : fresh s1 = fresh s) by exact O1. rewrite Fr in *.
    split; [|split; [exists x'; split; [assumption|congruence]|split; [assumption|split; [intros _; congruence|split]]]].
    + apply (kept_fresh (vcell h) none). { intros c ->. right. rewrite (i_len s I). unfold valid_of, h. lia. }
      apply (kept_none none (vcell h) (vcell h) s s1 s2); auto; unfold none; tauto.
    + destruct p as [m|].
      * apply (stay_link (vcell h) none s1 s2); auto; [apply K1|intros X; exact (vp _ _ (eq_sym X))].
      * assert (Cf : cell s1 (parent_of h) = Some false) by (apply link_none; [apply K1| |assumption]; apply (live_cell s1 _ x); [apply K1|]; now rewrite div_parent).
        pose proof (stay_free' (vcell h) none s1 s2 (parent_of h) K2) as Q. unfold link. rewrite Q; auto. intros X; exact (vp _ _ (eq_sym X)).
    + congruence.
  - exists s1. split; [reflexivity|]. split; [assumption|]. split; [eauto|]. split; [unfold link; now rewrite C1|]. split; [discriminate|]. auto.
Qed.

Lemma raw_ok s h x : inv s -> store s -> hnd s h = Some x ->
  exists s', raw h s = Some (attached s h, s') /\ kept none none s s' /\ length (hands s') = length (hands s) /\ objs s' = objs s /\
    link s' (valid_of h) = link s (valid_of h) /\ (exists x', hnd s' h = Some x' /\ h_type x' = h_type x).
Proof.
  intros I S H. unfold raw. rewrite H. cbn [bind]. destruct (attached s h) as [o|] eqn:E.
  - exists s. split; [reflexivity|]. split; [now apply kept_refl|]. split; [reflexivity|]. split; [reflexivity|]. split; [reflexivity|eauto].
  - rewrite attached_link in E. assert (C : cell s (valid_of h) = Some false) by (apply link_none; auto; apply (live_cell s _ x); auto; now rewrite div_valid).
    destruct (forget_ok s h x I H C) as (s' & P & G & C' & H' & N & O). exists s'.
    assert (Q : (let! s1 := set_target h None s in let! s2 := put (valid_of h) false s1 in Some (@None nat, s2)) = Some (None, s')).
    { destruct (set_target h None s) as [s1|]; [|discriminate]. cbn [bind] in *. rewrite P. reflexivity. }
    split; [exact Q|]. split; [now apply good_kept0|]. split; [assumption|]. split; [assumption|]. split; [|assumption]. unfold link. now rewrite C, C'.
Qed.

Lemma attached_model s d m : inv s -> mhandle s d -> attached s d = Some m -> model s m.
Proof.
  intros I (x & H & T) A. rewrite attached_link in A. destruct (link_live s _ m I A) as (y & Y & _ & (z & Z & Q) & _).
  rewrite div_valid, even_valid in *. rewrite H in Z. injection Z as <-. exists y. split; [assumption|congruence].
Qed.
Lemma attached_type s h x e : inv s -> hnd s h = Some x -> attached s h = Some e -> of_type s e (h_type x).
Proof.
  intros I H A. rewrite attached_link in A. destruct (link_live s _ e I A) as (y & Y & _ & (z & Z & Q) & _).
  rewrite div_valid, even_valid in *. rewrite H in Z. injection Z as <-. exists y. split; [assumption|congruence].
Qed.
Lemma parent_model s h m : inv s -> parent s h = Some m -> model s m /\ ehandle s h.
Proof.
  intros I A. rewrite parent_link in A. destruct (link_live s _ m I A) as (y & Y & _ & (z & Z & Q) & _). rewrite div_parent, even_parent in *. destruct Q as [Q1 Q2].
  split; [exists y; auto|]. exists (h_type z). split; [exists z; auto|assumption].
Qed.

Lemma HandNewVia_ok s t d c : inv s -> store s -> t <> -1 -> mhandle s d ->
  let h := length (hands s) in
  exists s', HandNewVia t d c s = Some s' /\ kept none none s s' /\ (exists x, hnd s' h = Some x /\ h_type x = t) /\
    link s' (valid_of h) = (if c then match attached s d with Some _ => Some (fresh s) | None => None end else None) /\ link s' (parent_of h) = attached s d.
Proof.
  intros I S T Hd h. destruct Hd as (x & H & Tx). assert (Hd : mhandle s d) by (exists x; auto).
  destruct (raw_ok s d x I S H) as (s0 & E0 & K0 & N0 & O0 & L0 & _). unfold HandNewVia. rewrite E0. cbn [bind fst snd].
  assert (Hm : forall m, attached s d = Some m -> model s0 m).
  { intros m A. apply (type_kept none none s s0); [apply K0|now apply (attached_model s d)|intros []]. }
  pose proof (HandNew_ok s0 t (attached s d) (c && match attached s d with Some _ => true | None => false end) (k_inv _ _ _ _ K0) (k_store _ _ _ _ K0) T Hm) as X.
  cbn zeta in X. destruct X as (s1 & E1 & K1 & Hx & L1 & _ & L2 & _). exists s1. rewrite N0 in *. fold h in E1, Hx, L1, L2 |- *.
  assert (Fr : fresh s0 = fresh s) by (unfold fresh; now rewrite O0). rewrite Fr in *.
  split; [|split; [apply (kept_none none none none s s0 s1); auto; unfold none; tauto|split; [assumption|split; [|assumption]]]].
  - unfold HandNew in E1. rewrite N0 in E1. fold h in E1. destruct (base_new t (attached s d) s0) as [s2|]; [|exact E1]. cbn [bind] in *.
    destruct (attached s d), c; exact E1.
  - rewrite L1. destruct c, (attached s d); reflexivity.
Qed.
