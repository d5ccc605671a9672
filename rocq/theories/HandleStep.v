(* Every operation keeps the invariants (continued). *)
From Coq Require Import List Bool ZArith Lia.
From Verif Require Import HandleModel HandleSpec HandleFacts HandleOps.
Import ListNotations.
Open Scope Z_scope.

Lemma frame_fresh (K K' D : nat -> Prop) s s' : (forall c, K c -> K' c \/ (length (cells s) <= c)%nat) -> frame K D s s' -> frame K' D s s'.
Proof.
  intros HK [F1 F2 F3 F4 F6 F5]. split; auto. intros c Hc Hl. apply F4; [|assumption]. intros X. destruct (HK c X); [auto|lia].
Qed.

Lemma frame_in (K D D' : nat -> Prop) s s' : (forall o, D o <-> D' o) -> frame K D s s' -> frame K D' s s'.
Proof. intros H. now apply frame_weaken. Qed.

Lemma frame_two (K1 K2 K D1 D2 D : nat -> Prop) a b c : inv a -> inv b -> inv c -> frame K1 D1 a b -> frame K2 D2 b c ->
  (forall x, K1 x \/ K2 x -> K x) -> (forall x, D1 x \/ D2 x <-> D x) -> frame K D a c.
Proof.
  intros Ia Ib Ic F G HK HD. apply (frame_weaken (fun x => K1 x \/ K2 x) K (fun x => D1 x \/ D2 x) D); auto.
  now apply (frame_trans K1 K2 D1 D2 a b c).
Qed.

(* lists which only get shorter *)
Lemma keep_sub (K D : nat -> Prop) s s' : store s -> frame K D s s' ->
  (forall m x', obj s' m = Some x' -> NoDup (o_ents x') /\ forall e, In e (o_ents x') -> stores s m e /\ ~ D e) -> store s'.
Proof.
  intros [S1 S2] F H. split.
  - intros m x' O. destruct (H m x' O) as [N P]. split; [assumption|]. intros e He. destruct (P e He) as [(x & Om & Hx) ND].
    destruct (S1 m x Om) as [_ S3]. destruct (S3 e Hx) as [T En]. split; [|now apply (entity_kept K D s s' e F)].
    destruct (f_obj _ _ _ _ F m (obj_lt _ _ _ Om)) as [_ X]. destruct (X x Om) as [X1 X2].
    assert (NDm : ~ D m) by (intros Y; rewrite (X1 Y) in O; discriminate). destruct (X2 NDm) as (x2 & O2 & T2). congruence.
  - intros m k e (x & Om & Hm) (y & Ok & Hk). destruct (H m x Om) as [_ P]. destruct (H k y Ok) as [_ Q].
    apply (S2 m k e); [now apply P|now apply Q].
Qed.

Lemma UnlinkEntity_ok s m x e : inv s -> store s -> obj s m = Some x ->
  exists s', UnlinkEntity m e s = Some s' /\ inv s' /\ store s' /\ frame none none s s' /\ hands s' = hands s /\ cells s' = cells s /\
    (forall k, ents s' k = if Nat.eqb m k then rem1 e (ents s m) else ents s k).
Proof.
  intros I S O. unfold UnlinkEntity. rewrite O. cbn [bind]. destruct (ents_inv s m x (rem1 e (o_ents x)) I O) as (I' & F & Ho).
  eexists. split; [reflexivity|]. split; [assumption|]. split; [|split; [assumption|split; [reflexivity|split; [reflexivity|]]]].
  - apply (keep_sub none none s _ S F). intros k y E. rewrite Ho in E. destruct S as [S1 S2]. destruct (Nat.eqb_spec m k) as [<-|].
    + injection E as <-. cbn [o_ents]. destruct (S1 m x O) as [N P]. split; [now apply rem1_nodup|]. intros e' He'. split; [|intros []].
      exists x. split; [assumption|]. now apply rem1_in in He'.
    + destruct (S1 k y E) as [N P]. split; [assumption|]. intros e' He'. split; [|intros []]. exists y. auto.
  - intros k. unfold ents. rewrite Ho. destruct (Nat.eqb m k); [now rewrite O|reflexivity].
Qed.

Lemma kill_all_ok l : forall s, inv s -> NoDup l -> (forall o, In o l -> exists x, obj s o = Some x) ->
  exists s', kill_all l s = Some s' /\ good none (fun k => In k l) s s' /\ hands s' = hands s /\ length (objs s') = length (objs s) /\
    (forall k, ~ In k l -> obj s' k = obj s k).
Proof.
  induction l as [|o l IH]; intros s I N H; cbn [kill_all].
  - exists s. split; [reflexivity|]. split; [|auto]. split; [assumption| |apply stored_refl].
    apply (frame_in none none); [cbn; unfold none; tauto|apply frame_refl].
  - apply NoDup_cons_iff in N. destruct N as [Hn N]. destruct (H o (or_introl eq_refl)) as (x & O).
    destruct (kill_inv s o x I O) as (s1 & P & I1 & F1 & S1 & H1 & L1 & K1). rewrite P. cbn [bind].
    destruct (IH s1 I1 N) as (s2 & P2 & G2 & H2 & L2 & K2).
    { intros k Hk. rewrite K1; [apply H; now right|]. intros ->. contradiction. }
    exists s2. split; [exact P2|]. split; [|split; [congruence|split; [congruence|]]].
    + apply (good_trans none none (fun k => k = o) (fun k => In k l) none _ s s1 s2); auto; [split; assumption|unfold none; tauto|].
      cbn. intros y. split; intros [E|E]; auto.
    + intros k Hk. rewrite K2; [apply K1|]; intros E; apply Hk; cbn; auto.
Qed.

Lemma Clear_ok s m x : inv s -> store s -> obj s m = Some x ->
  exists s', Clear m s = Some s' /\ inv s' /\ store s' /\ frame none (stores s m) s s' /\ hands s' = hands s /\
    obj s' m = Some (mkObj (o_type x) (o_flags x) []) /\ length (objs s') = length (objs s) /\
    (forall k, k <> m -> forall y, obj s' k = Some y -> o_ents y = ents s k).
Proof.
  intros I St O. destruct St as [S1 S2]. destruct (S1 m x O) as [N P]. unfold Clear. rewrite O. cbn [bind].
  destruct (kill_all_ok (o_ents x) s I N) as (s1 & E1 & [I1 F1 H1] & Hh & L1 & K1).
  { intros o Ho. destruct (P o Ho) as [_ (t & (y & Y & _) & _)]. eauto. }
  rewrite E1. cbn [bind].
  assert (Hm : ~ In m (o_ents x)). { intros X. destruct (P m X) as [T (t & (y & Y & Ty) & Nt)]. rewrite O in Y. injection Y as <-. congruence. }
  assert (Om : obj s1 m = Some x) by now rewrite K1.
  destruct (ents_inv s1 m x [] I1 Om) as (I2 & F2 & Ho). set (s2 := set_obj m _ s1) in *.
  assert (F : frame none (stores s m) s s2).
  { apply (frame_two none none none (fun k => In k (o_ents x)) none (stores s m) s s1 s2); auto; [unfold none; tauto|].
    intros y. rewrite stores_ents. unfold ents, none. rewrite O. tauto. }
  exists s2. split; [reflexivity|]. split; [assumption|]. split; [|split; [assumption|split; [assumption|split; [now rewrite Ho, Nat.eqb_refl|split]]]].
  - apply (keep_sub none (stores s m) s s2 (conj S1 S2) F). intros k y E. rewrite Ho in E. destruct (Nat.eqb_spec m k) as [<-|Hk].
    + injection E as <-. cbn. split; [constructor|intros e []].
    + pose proof (H1 k y E) as Ey. rewrite Ey. unfold ents. destruct (obj s k) as [z|] eqn:Ok; [|split; [constructor|intros e []]].
      destruct (S1 k z Ok) as [Nz _]. split; [assumption|]. intros e He. assert (Sk : stores s k e) by (exists z; auto). split; [assumption|].
      intros X. apply Hk. now apply (S2 m k e).
  - unfold s2, set_obj. cbn [objs]. now rewrite upd_len.
  - intros k Hk y E. rewrite Ho in E. destruct (Nat.eqb_spec m k) as [<-|]; [congruence|]. now apply H1.
Qed.

(* setting flags to false may be put off *)
Lemma upd_comm {A} (x : A) l : forall c k, upd (upd l c x) k x = upd (upd l k x) c x.
Proof. induction l as [|y l IH]; intros [|c] [|k]; cbn; auto. now rewrite IH. Qed.
Lemma put_comm c k b s : (let! a := put c b s in put k b a) = (let! a := put k b s in put c b a).
Proof.
  assert (Q : forall c k v s, cell s c = Some v -> cell (mkSt (upd (cells s) c (Some b)) (objs s) (hands s)) k = match cell s k with None => None | Some w => if Nat.eqb c k then Some b else Some w end).
  { clear. intros c k v s H. unfold cell in *. cbn [cells]. rewrite get_upd. pose proof (get_lt _ _ _ H). destruct (Nat.eqb_spec c k) as [<-|]; cbn [andb].
    - rewrite H. now destruct (Nat.ltb_spec c (length (cells s))); [|lia].
    - now destruct (get (cells s) k). }
  unfold put at 1 3. destruct (cell s c) as [v|] eqn:C, (cell s k) as [w|] eqn:W; cbn [bind]; unfold put.
  - rewrite (Q c k v s C), (Q k c w s W), C, W. cbn [cells objs hands]. rewrite (upd_comm (Some b) (cells s) c k).
    destruct (Nat.eqb c k), (Nat.eqb k c); reflexivity.
  - rewrite (Q c k v s C), W. reflexivity.
  - rewrite (Q k c w s W), C. reflexivity.
  - reflexivity.
Qed.
Lemma put_obj c b s s1 : put c b s = Some s1 -> objs s1 = objs s.
Proof. unfold put. destruct (cell s c); [|discriminate]. intros [= <-]. reflexivity. Qed.
Lemma put_all_obj l : forall s s1, put_all l s = Some s1 -> objs s1 = objs s.
Proof.
  induction l as [|c l IH]; cbn; intros s s1; [congruence|]. destruct (put c false s) as [a|] eqn:E; [|discriminate]. cbn [bind].
  intros H. rewrite (IH _ _ H). eapply put_obj; eauto.
Qed.
Lemma put_all_put l c : forall s, (let! a := put c false s in put_all l a) = (let! a := put_all l s in put c false a).
Proof.
  induction l as [|k l IH]; intros s; cbn [put_all bind].
  - destruct (put c false s); reflexivity.
  - assert (A : (let! a := put c false s in let! b := put k false a in put_all l b) = (let! b := (let! a := put c false s in put k false a) in put_all l b)) by now destruct (put c false s).
    rewrite A, put_comm. destruct (put k false s) as [a|]; cbn [bind]; [apply IH|reflexivity].
Qed.
Lemma put_all_comm l r : forall s, (let! a := put_all l s in put_all r a) = (let! a := put_all r s in put_all l a).
Proof.
  induction l as [|c l IH]; intros s; cbn [put_all bind].
  - destruct (put_all r s); reflexivity.
  - assert (A : (let! a := (let! s1 := put c false s in put_all l s1) in put_all r a) = (let! s1 := put c false s in let! a := put_all l s1 in put_all r a)) by now destruct (put c false s).
    rewrite A. assert (B : (let! s1 := put c false s in let! a := put_all l s1 in put_all r a) = (let! s1 := put c false s in let! a := put_all r s1 in put_all l a)) by (destruct (put c false s); cbn [bind]; auto).
    rewrite B. assert (C : (let! s1 := put c false s in let! a := put_all r s1 in put_all l a) = (let! a := (let! s1 := put c false s in put_all r s1) in put_all l a)) by now destruct (put c false s).
    rewrite C, put_all_put. now destruct (put_all r s).
Qed.
Lemma put_all_set l o x : forall s, put_all l (set_obj o x s) = (let! a := put_all l s in Some (set_obj o x a)).
Proof.
  induction l as [|c l IH]; intros s; cbn [put_all bind]; [reflexivity|]. unfold put at 1 2.
  change (cell (set_obj o x s) c) with (cell s c). destruct (cell s c); [|reflexivity]. cbn [bind]. apply (IH (mkSt (upd (cells s) c (Some false)) (objs s) (hands s))).
Qed.
Lemma put_all_kill l o : forall s, (let! a := put_all l s in kill o a) = (let! a := kill o s in put_all l a).
Proof.
  intros s. unfold kill. destruct (put_all l s) as [a|] eqn:E; cbn [bind].
  - assert (Oa : obj a o = obj s o) by (unfold obj; now rewrite (put_all_obj _ _ _ E)). rewrite Oa. destruct (obj s o) as [x|]; [|reflexivity]. cbn [bind].
    pose proof (put_all_comm l (o_flags x) s) as C. rewrite E in C. cbn [bind] in C. rewrite C.
    destruct (put_all (o_flags x) s) as [b|]; [|reflexivity]. cbn [bind]. now rewrite put_all_set.
  - destruct (obj s o) as [x|]; [|reflexivity]. cbn [bind]. pose proof (put_all_comm l (o_flags x) s) as C. rewrite E in C. cbn [bind] in C.
    destruct (put_all (o_flags x) s) as [b|]; [|reflexivity]. cbn [bind] in *. now rewrite put_all_set, <- C.
Qed.
Lemma put_all_kill_all l k : forall s, (let! a := put_all l s in kill_all k a) = (let! a := kill_all k s in put_all l a).
Proof.
  induction k as [|o k IH]; intros s; cbn [kill_all bind].
  - destruct (put_all l s); reflexivity.
  - assert (A : (let! a := put_all l s in let! s1 := kill o a in kill_all k s1) = (let! s1 := (let! a := put_all l s in kill o a) in kill_all k s1)) by now destruct (put_all l s).
    rewrite A, put_all_kill. destruct (kill o s) as [b|]; cbn [bind]; [apply IH|reflexivity].
Qed.

Lemma kill_model_ok s m x : inv s -> store s -> obj s m = Some x -> o_type x = -1 ->
  exists s', kill_model m s = Some s' /\ inv s' /\ store s' /\ frame none (fun o => o = m \/ stores s m o) s s' /\ hands s' = hands s.
Proof.
  intros I S O Tm. destruct (Clear_ok s m x I S O) as (s1 & E & I1 & S1 & F1 & H1 & O1 & L1 & _).
  destruct (kill_inv s1 m _ I1 O1) as (s2 & E2 & I2 & F2 & Sm & H2 & L2 & K2). exists s2.
  split; [|split; [assumption|split; [|split; [|congruence]]]].
  - unfold kill_model. rewrite O. cbn [bind]. unfold Clear in *. rewrite O in E. cbn [bind] in E.
    unfold kill in E2. rewrite O1 in E2. cbn [bind o_flags] in E2.
    assert (A : forall a, put_all (o_flags x) s = Some a -> obj a m = Some x) by (intros a Ha; unfold obj; rewrite (put_all_obj _ _ _ Ha); exact O).
    pose proof (put_all_kill_all (o_flags x) (o_ents x) s) as C.
    destruct (kill_all (o_ents x) s) as [b|]; [|discriminate]. cbn [bind] in E, C. injection E as <-.
    rewrite put_all_set in E2. destruct (put_all (o_flags x) s) as [a|] eqn:Ea; cbn [bind] in C |- *; [|now rewrite <- C in E2].
    rewrite (A a eq_refl). cbn [bind]. rewrite C. destruct (put_all (o_flags x) b) as [c|]; [|discriminate]. cbn [bind] in *. exact E2.
  - apply (keep_sub none (fun k => k = m) s1 s2 S1 F2). intros k y Ey. destruct (Nat.eq_dec k m) as [->|Hk].
    + destruct (f_obj _ _ _ _ F2 m (obj_lt _ _ _ O1)) as [_ X]. destruct (X _ O1) as [X1 _]. rewrite (X1 eq_refl) in Ey. discriminate.
    + rewrite K2 in Ey by assumption. destruct S1 as [S1 S3]. destruct (S1 k y Ey) as [N P]. split; [assumption|].
      intros e He. split; [exists y; auto|]. intros ->. destruct (P m He) as [T (t & (z & Z & Tz) & Nt)]. rewrite O1 in Z. injection Z as <-. cbn in Tz.
      congruence.
  - apply (frame_two none none none (stores s m) (fun k => k = m) _ s s1 s2); auto; [unfold none; tauto|]. intros y. tauto.
Qed.

Lemma kill_entity_ok s e x : inv s -> store s -> obj s e = Some x -> o_type x <> -1 -> (forall m, ~ stores s m e) ->
  exists s', kill e s = Some s' /\ inv s' /\ store s' /\ frame none (fun o => o = e) s s' /\ hands s' = hands s /\ stored_same s s'.
Proof.
  intros I S O T Hn. destruct (kill_inv s e x I O) as (s1 & E & I1 & F1 & Sm & H1 & L1 & K1). exists s1.
  split; [assumption|]. split; [assumption|]. split; [|auto]. apply (keep_store none (fun o => o = e) s s1 S); [split; assumption|].
  intros m k Hs ->. now elim (Hn m).
Qed.

Lemma DelEntity_ok s m x e : inv s -> store s -> obj s m = Some x ->
  exists s', DelEntity m e s = Some s' /\ inv s' /\ store s' /\ frame none (fun o => o = e /\ stores s m o) s s' /\
    hands s' = hands s /\ (forall k, k <> e -> ents s' k = if Nat.eqb m k then rem1 e (ents s m) else ents s k).
Proof.
  intros I S O. unfold DelEntity. rewrite O. cbn [bind]. destruct (has e (o_ents x)) eqn:Hb.
  - apply has_in in Hb. assert (Sme : stores s m e) by (exists x; auto). destruct S as [S1 S2]. destruct (S1 m x O) as [N P].
    destruct (P e Hb) as [T (t & (y & Y & Ty) & Nt)]. destruct (kill_inv s e y I Y) as (s1 & E & I1 & F1 & Sm & H1 & L1 & K1). rewrite E. cbn [bind].
    assert (Hme : m <> e) by (intros ->; rewrite O in Y; injection Y as <-; congruence).
    assert (O1 : obj s1 m = Some x) by now rewrite K1. unfold UnlinkEntity. rewrite O1. cbn [bind].
    destruct (ents_inv s1 m x (rem1 e (o_ents x)) I1 O1) as (I2 & F2 & Ho). set (s2 := set_obj m _ s1) in *.
    assert (F : frame none (fun o => o = e /\ stores s m o) s s2).
    { apply (frame_two none none none (fun k => k = e) none _ s s1 s2); auto; [unfold none; tauto|]. unfold none. intros y0. split; [intros [->|[]]; auto|tauto]. }
    exists s2. split; [reflexivity|]. split; [assumption|]. split; [|split; [assumption|split; [assumption|]]].
    + apply (keep_sub none _ s s2 (conj S1 S2) F). intros k z Ez. rewrite Ho in Ez. destruct (Nat.eqb_spec m k) as [<-|Hk].
      * injection Ez as <-. cbn [o_ents]. split; [now apply rem1_nodup|]. intros e' He'. rewrite rem1_in in He' by assumption.
        destruct He' as [He' Hne]. split; [exists x; auto|]. intros [-> _]. now apply Hne.
      * destruct (Nat.eq_dec k e) as [->|Hke].
        -- destruct (f_obj _ _ _ _ F1 e (obj_lt _ _ _ Y)) as [_ X]. destruct (X _ Y) as [X1 _]. rewrite (X1 eq_refl) in Ez. discriminate.
        -- rewrite K1 in Ez by assumption. destruct (S1 k z Ez) as [Nz Pz]. split; [assumption|]. intros e' He'. assert (Sk : stores s k e') by (exists z; auto).
           split; [assumption|]. intros [-> _]. apply Hk. now apply (S2 m k e).
    + intros k Hk. unfold ents. rewrite Ho, O. destruct (Nat.eqb m k); [reflexivity|]. now rewrite K1.
  - exists s. split; [reflexivity|]. split; [assumption|]. split; [assumption|]. apply has_not in Hb. split; [|split; [reflexivity|]].
    + apply (frame_in none none); [|apply frame_refl]. unfold none. intros o. split; [tauto|]. intros [-> (y & Y & Hy)]. rewrite O in Y. injection Y as <-. contradiction.
    + intros k _. destruct (Nat.eqb_spec m k) as [<-|]; [|reflexivity]. unfold ents. rewrite O. symmetry. now apply rem1_absent.
Qed.

Lemma AddEntity_ok s m x e : inv s -> store s -> obj s m = Some x -> o_type x = -1 -> entity s e -> (forall k, stores s k e -> k = m) ->
  exists s', AddEntity m e s = Some s' /\ inv s' /\ store s' /\ frame none none s s' /\ hands s' = hands s /\ stores s' m e.
Proof.
  intros I S O T En Hu. unfold AddEntity. rewrite O. cbn [bind]. destruct (has e (o_ents x)) eqn:Hb.
  - apply has_in in Hb. exists s. split; [reflexivity|]. split; [assumption|]. split; [assumption|]. split; [apply frame_refl|]. split; [reflexivity|]. exists x. auto.
  - apply has_not in Hb. destruct (add_ent_ok s m e x I S O T En) as (I1 & F1 & S1 & E1).
    + intros k Hk. pose proof (Hu k Hk) as ->. destruct Hk as (y & Y & Hy). rewrite O in Y. injection Y as <-. contradiction.
    + eexists. split; [reflexivity|]. split; [assumption|]. split; [assumption|]. split; [assumption|]. split; [reflexivity|].
      apply stores_ents. fold (add_ent m e x s). rewrite E1, Nat.eqb_refl. apply in_or_app. cbn. auto.
Qed.
