(* The operations on handles keep the invariants (continued). *)
From Coq Require Import List Bool ZArith Lia.
From Verif Require Import HandleModel HandleSpec HandleFacts HandleOps HandleStep HandleRun.
Import ListNotations.
Open Scope Z_scope.

Definition bcell (h : nat) : nat -> Prop := fun c => Nat.div2 c = h.
Lemma vb h c : vcell h c -> bcell h c. Proof. intros ->. apply div_valid. Qed.
Lemma pb h c : pcell h c -> bcell h c. Proof. intros ->. apply div_parent. Qed.

Lemma loose_kept s h x : inv s -> store s -> hnd s h = Some x ->
  exists s', loose h s = Some s' /\ kept (vcell h) none s s' /\ cell s' (valid_of h) = Some false /\ hands s' = hands s /\ length (objs s') = length (objs s) /\ stored_same s s'.
Proof.
  intros I S H. destruct (loose_ok s h x I H) as (s' & E & G & C & Hh & L). exists s'. split; [assumption|]. split; [now apply good_kept0|].
  split; [assumption|]. split; [assumption|]. split; [assumption|apply G].
Qed.
Lemma loose_parent_kept s h x : inv s -> store s -> hnd s h = Some x ->
  exists s', loose_parent h s = Some s' /\ kept (pcell h) none s s' /\ cell s' (parent_of h) = Some false /\ hands s' = hands s /\ length (objs s') = length (objs s) /\ stored_same s s'.
Proof.
  intros I S H. destruct (loose_parent_ok s h x I H) as (s' & E & G & C & Hh & L). exists s'. split; [assumption|]. split; [now apply good_kept0|].
  split; [assumption|]. split; [assumption|]. split; [assumption|apply G].
Qed.

Lemma HandDestroy_ok s h x : inv s -> store s -> hnd s h = Some x ->
  exists s', HandDestroy h s = Some s' /\ kept (bcell h) none s s' /\ hnd s' h = None.
Proof.
  intros I S H. unfold HandDestroy. rewrite H. cbn [bind]. destruct (loose_parent_kept s h x I S H) as (s1 & E1 & K1 & C1 & H1 & _). rewrite E1. cbn [bind].
  assert (Hx : hnd s1 h = Some x) by (unfold hnd; now rewrite H1).
  destruct (loose_kept s1 h x (k_inv _ _ _ _ K1) (k_store _ _ _ _ K1) Hx) as (s2 & E2 & K2 & C2 & H2 & _). rewrite E2. cbn [bind].
  assert (Hx2 : hnd s2 h = Some x) by (unfold hnd; now rewrite H2).
  assert (C3 : cell s2 (parent_of h) = Some false) by (apply (stay_free' (vcell h) none s1 s2); auto; intros X; exact (vp _ _ (eq_sym X))).
  destruct (release_inv s2 h x (k_inv _ _ _ _ K2) Hx2 C2 C3) as (I3 & F3 & S3 & H3). exists (release h s2). split; [reflexivity|]. split; [|assumption].
  assert (K3 : kept (bcell h) none s2 (release h s2)) by (apply good_kept0; [apply K2|]; now split).
  apply (kept_none (pcell h) (bcell h) (bcell h) s s1 _); auto.
  - apply (kept_none (vcell h) (bcell h) (bcell h) s1 s2 _); auto; [apply K1|]. intros c [X|X]; [now apply vb|assumption].
  - intros c [X|X]; [now apply pb|assumption].
Qed.

Lemma Attach_ok s h x e y : inv s -> store s -> hnd s h = Some x -> obj s e = Some y ->
  exists s', Attach h e s = Some (h_type x =? o_type y, s') /\ kept (vcell h) none s s' /\
    link s' (valid_of h) = (if h_type x =? o_type y then Some e else link s (valid_of h)) /\ length (hands s') = length (hands s) /\
    (exists x', hnd s' h = Some x' /\ h_type x' = h_type x).
Proof.
  intros I S H Y. unfold Attach. rewrite H, Y. cbn [bind]. destruct (h_type x =? o_type y) eqn:T; cbn [negb].
  - apply Z.eqb_eq in T. destruct (loose_kept s h x I S H) as (s1 & E1 & K1 & C1 & H1 & _). rewrite E1. cbn [bind].
    assert (Hx : hnd s1 h = Some x) by (unfold hnd; now rewrite H1).
    destruct (f_obj _ _ _ _ (k_frame _ _ _ _ K1) e (obj_lt _ _ _ Y)) as [_ Q]. destruct (Q y Y) as [_ Q2]. destruct (Q2 (fun X => X)) as (y' & Y' & Ty').
    destruct (aim_ok s1 h x e y' (k_inv _ _ _ _ K1) Hx C1 Y') as (s2 & E2 & G2 & L2 & Hx2 & N2 & N3); [congruence|].
    exists s2. split.
    { destruct (set_target h (Some e) s1) as [a|]; [|discriminate]. cbn [bind] in *. rewrite E2. reflexivity. }
    assert (K2 : kept (vcell h) none s1 s2) by (apply good_kept0; [apply K1|assumption]).
    split; [apply (kept_none (vcell h) (vcell h) (vcell h) s s1 s2); auto; tauto|]. split; [assumption|]. split; [congruence|assumption].
  - exists s. split; [reflexivity|]. split; [|split; [reflexivity|split; [reflexivity|eauto]]].
    apply (kept_weaken none (vcell h) none none); [intros c []|tauto|now apply kept_refl].
Qed.

Lemma Detach_ok s h x : inv s -> store s -> hnd s h = Some x ->
  exists s', Detach h s = Some s' /\ kept (vcell h) none s s' /\ link s' (valid_of h) = None /\ (exists x', hnd s' h = Some x' /\ h_type x' = h_type x).
Proof.
  intros I S H. unfold Detach. rewrite H. cbn [bind]. destruct (loose_kept s h x I S H) as (s1 & E1 & K1 & C1 & H1 & _). rewrite E1. cbn [bind].
  assert (Hx : hnd s1 h = Some x) by (unfold hnd; now rewrite H1).
  destruct (forget_ok s1 h x (k_inv _ _ _ _ K1) Hx C1) as (s2 & E2 & G2 & C2 & Hx2 & _). exists s2. split; [exact E2|].
  assert (K2 : kept none none s1 s2) by (apply good_kept0; [apply K1|assumption]).
  split; [|split; [unfold link; now rewrite C2|assumption]]. apply (kept_none (vcell h) none (vcell h) s s1 s2); auto. unfold none. tauto.
Qed.

Lemma stores_back s s' m e : stored_same s s' -> stores s' m e -> stores s m e.
Proof. intros H (x & O & Hx). apply stores_ents. now rewrite <- (H m x O). Qed.

Lemma HandDel_ok s h x : inv s -> store s -> hnd s h = Some x -> h_type x <> -1 -> (forall e m, attached s h = Some e -> ~ stores s m e) ->
  exists s', HandDel h s = Some s' /\ kept (vcell h) (fun e => attached s h = Some e) s s' /\ link s' (valid_of h) = None /\ (exists x', hnd s' h = Some x' /\ h_type x' = h_type x).
Proof.
  intros I S H T Hn. unfold HandDel. rewrite H. cbn [bind]. destruct (loose_kept s h x I S H) as (s1 & E1 & K1 & C1 & H1 & _ & Sm1). rewrite E1. cbn [bind].
  assert (X : exists s2, match attached s h with Some o => kill o s1 | None => Some s1 end = Some s2 /\ kept none (fun e => attached s h = Some e) s1 s2 /\ hands s2 = hands s1).
  { destruct (attached s h) as [o|] eqn:A.
    - destruct (type_kept (vcell h) none s s1 o (h_type x) (k_frame _ _ _ _ K1) (attached_type s h x o I H A) (fun X => X)) as (y & Y & Ty).
      destruct (kill_entity_ok s1 o y (k_inv _ _ _ _ K1) (k_store _ _ _ _ K1) Y) as (s2 & E2 & I2 & S2 & F2 & H2 & _).
      + congruence.
      + intros m Hm. apply (Hn o m eq_refl). now apply (stores_back s s1).
      + exists s2. split; [assumption|]. split; [|assumption]. split; auto. apply (frame_in none (fun o0 => o0 = o)); [|assumption]. intros k. split; congruence.
    - exists s1. split; [reflexivity|]. split; [|reflexivity]. apply (kept_weaken none none none); [auto| |apply kept_refl; apply K1].
      intros o. unfold none. split; [tauto|discriminate]. }
  destruct X as (s2 & E2 & K2 & H2). rewrite E2. cbn [bind].
  assert (Hx : hnd s2 h = Some x) by (unfold hnd; now rewrite H2, H1).
  assert (C2 : cell s2 (valid_of h) = Some false) by (apply (stay_free' none _ s1 s2 _ K2); auto).
  destruct (forget_ok s2 h x (k_inv _ _ _ _ K2) Hx C2) as (s3 & E3 & G3 & C3 & Hx3 & _). exists s3. split; [exact E3|].
  assert (K3 : kept none none s2 s3) by (apply good_kept0; [apply K2|assumption]).
  split; [|split; [unfold link; now rewrite C3|assumption]].
  apply (kept_trans (vcell h) none (vcell h) none (fun e => attached s h = Some e) _ s s1 s3); auto; [|unfold none; tauto|unfold none; tauto].
  apply (kept_trans none none none (fun e => attached s h = Some e) none _ s1 s2 s3); auto; [apply K1|unfold none; tauto|unfold none; tauto].
Qed.

Lemma HandNewEntity_ok s h x : inv s -> store s -> hnd s h = Some x -> h_type x <> -1 ->
  exists s', HandNewEntity h s = Some s' /\ kept (vcell h) none s s' /\ link s' (valid_of h) = Some (fresh s) /\ of_type s' (fresh s) (h_type x) /\
    (forall m, parent s h = Some m -> stores s' m (fresh s)) /\ (parent s h = None -> forall m, ~ stores s' m (fresh s)).
Proof.
  intros I S H T. unfold HandNewEntity. rewrite H. cbn [bind]. destruct (loose_kept s h x I S H) as (s1 & E1 & K1 & C1 & H1 & L1 & _). rewrite E1. cbn [bind].
  assert (Hx : hnd s1 h = Some x) by (unfold hnd; now rewrite H1).
  destruct (hold_new_ok s1 h x (parent s h) (k_inv _ _ _ _ K1) (k_store _ _ _ _ K1) Hx T C1) as (s2 & E2 & K2 & L2 & O2 & _ & _ & P1 & P2).
  { intros m A. apply (type_kept (vcell h) none s s1); [apply K1|now apply (parent_model s h)|intros []]. }
  assert (Fr : fresh s1 = fresh s) by exact L1. rewrite Fr in *. exists s2. split; [exact E2|].
  split; [apply (kept_none (vcell h) (vcell h) (vcell h) s s1 s2); auto; tauto|]. auto.
Qed.

Lemma set_par_ok s h x p : inv s -> store s -> hnd s h = Some x -> h_type x <> -1 -> cell s (parent_of h) = Some false -> (forall m, p = Some m -> model s m) ->
  exists s', match p with
             | Some m => let! s2 := set_parent h (Some m) s in AttachValidFlag m (parent_of h) s2
             | None => let! s2 := set_parent h None s in put (parent_of h) false s2
             end = Some s' /\ kept (pcell h) none s s' /\ link s' (parent_of h) = p.
Proof.
  intros I S H T C Hp. destruct p as [m|].
  - destruct (model_obj s m (Hp m eq_refl)) as (y & Y & Ty). destruct (aim_parent_ok s h x m y I H C Y Ty T) as (s' & E & G & L & _).
    exists s'. split; [assumption|]. split; [now apply good_kept0|assumption].
  - destruct (forget_parent_ok s h x I H C) as (s' & E & G & L & _). exists s'. split; [assumption|]. split; [|unfold link; now rewrite L].
    apply (kept_weaken none (pcell h) none none); [intros c []|tauto|now apply good_kept0].
Qed.
Lemma SetParent_ok s h x p : inv s -> store s -> hnd s h = Some x -> h_type x <> -1 -> (forall m, p = Some m -> model s m) ->
  exists s', SetParent h p s = Some s' /\ kept (pcell h) none s s' /\ link s' (parent_of h) = p.
Proof.
  intros I S H T Hp. unfold SetParent. rewrite H. cbn [bind]. destruct (loose_parent_kept s h x I S H) as (s1 & E1 & K1 & C1 & H1 & L1 & _). rewrite E1. cbn [bind].
  assert (Hx : hnd s1 h = Some x) by (unfold hnd; now rewrite H1).
  destruct (set_par_ok s1 h x p (k_inv _ _ _ _ K1) (k_store _ _ _ _ K1) Hx T C1) as (s2 & E2 & K2 & L2).
  { intros m A. apply (type_kept (pcell h) none s s1); [apply K1|now apply Hp|intros []]. }
  exists s2. split; [exact E2|]. split; [|assumption]. apply (kept_none (pcell h) (pcell h) (pcell h) s s1 s2); auto; tauto.
Qed.
Lemma SetParentVia_ok s h x d : inv s -> store s -> hnd s h = Some x -> h_type x <> -1 -> mhandle s d ->
  exists s', SetParentVia h d s = Some s' /\ kept (pcell h) none s s' /\ link s' (parent_of h) = attached s d.
Proof.
  intros I S H T Hd. unfold SetParentVia. rewrite H. cbn [bind]. destruct (loose_parent_kept s h x I S H) as (s1 & E1 & K1 & C1 & H1 & L1 & _). rewrite E1. cbn [bind].
  destruct Hd as (z & Z & Tz). assert (Hx : hnd s1 h = Some x) by (unfold hnd; now rewrite H1). assert (Hz : hnd s1 d = Some z) by (unfold hnd; now rewrite H1).
  assert (A : attached s1 d = attached s d).
  { rewrite !attached_link. destruct (link s (valid_of d)) as [m|] eqn:L.
    - apply (stay_link (pcell h) none s s1); auto. intros X. exact (vp _ _ X).
    - assert (Cf : cell s (valid_of d) = Some false) by (apply link_none; auto; apply (live_cell s _ z); auto; now rewrite div_valid).
      unfold link. rewrite (stay_free' (pcell h) none s s1 _ K1); auto. intros X. exact (vp _ _ X). }
  destruct (raw_ok s1 d z (k_inv _ _ _ _ K1) (k_store _ _ _ _ K1) Hz) as (s2 & E2 & K2 & N2 & O2 & L2 & _). rewrite E2. cbn [bind fst snd]. rewrite A.
  assert (C2 : cell s2 (parent_of h) = Some false) by (apply (stay_free' none none s1 s2 _ K2); auto).
  assert (Hx2 : exists x2, hnd s2 h = Some x2).
  { destruct (hnd s2 h) as [x2|] eqn:Q; [eauto|]. assert (W : cell s2 (parent_of h) = None) by (apply (i_dead s2 (k_inv _ _ _ _ K2)); now rewrite div_parent). congruence. }
  destruct Hx2 as (x2 & Hx2). assert (T2 : h_type x2 = h_type x) by (apply (f_type _ _ _ _ (k_frame _ _ _ _ K2) h x Hx x2 Hx2)).
  destruct (set_par_ok s2 h x2 (attached s d) (k_inv _ _ _ _ K2) (k_store _ _ _ _ K2) Hx2) as (s3 & E3 & K3 & L3); [congruence|assumption| |].
  { intros m Am. apply (type_kept none none s1 s2); [apply K2| |intros []]. apply (type_kept (pcell h) none s s1); [apply K1| |intros []].
    apply (attached_model s d); auto. exists z; auto. }
  exists s3. split; [exact E3|]. split; [|assumption]. apply (kept_none (pcell h) (pcell h) (pcell h) s s1 s3); auto; [|tauto].
  apply (kept_none none (pcell h) (pcell h) s1 s2 s3); auto; [apply K1|unfold none; tauto].
Qed.

Lemma ModelHandNew_ok s : inv s -> store s ->
  let h := length (hands s) in
  exists s', ModelHandNew s = Some s' /\ kept none none s s' /\ mhandle s' h /\ link s' (valid_of h) = Some (fresh s) /\ model s' (fresh s).
Proof.
  intros I S h. unfold ModelHandNew. fold h. destruct (blank_kept s (-1) I S) as (K1 & H1 & C1 & C2). fold h in H1, C1, C2.
  destruct (make_kept (blank (-1) s) (-1) (k_inv _ _ _ _ K1) (k_store _ _ _ _ K1)) as (K2 & O2).
  change (fresh (blank (-1) s)) with (fresh s) in O2.
  destruct (aim_ok (make (-1) (blank (-1) s)) h _ (fresh s) _ (k_inv _ _ _ _ K2) H1 C1 O2 eq_refl) as (s3 & E3 & G3 & L3 & (x' & H3 & T3) & _).
  exists s3. split; [exact E3|]. assert (K3 : kept (vcell h) none (make (-1) (blank (-1) s)) s3) by (apply good_kept0; [apply K2|assumption]).
  split; [|split; [exists x'; auto|split; [assumption|]]].
  - apply (kept_fresh (vcell h) none). { intros c ->. right. rewrite (i_len s I). unfold valid_of, h. lia. }
    apply (kept_none none (vcell h) (vcell h) s (blank (-1) s) s3); auto; [|unfold none; tauto].
    apply (kept_none none (vcell h) (vcell h) (blank (-1) s) (make (-1) (blank (-1) s)) s3); auto; [apply K1|unfold none; tauto].
  - apply (type_kept (vcell h) none (make (-1) (blank (-1) s)) s3); [apply K3|exists (mkObj (-1) [] []); auto|intros []].
Qed.

Lemma mhandle_free s d x : inv s -> hnd s d = Some x -> h_type x = -1 -> cell s (parent_of d) = Some false.
Proof.
  intros I H T. apply link_none; auto; [apply (live_cell s _ x); auto; now rewrite div_parent|].
  destruct (link s (parent_of d)) as [o|] eqn:L; [|reflexivity]. destruct (link_live s _ o I L) as (y & _ & _ & (z & Z & Q) & _).
  rewrite div_parent, even_parent in *. rewrite H in Z. injection Z as <-. destruct Q. congruence.
Qed.

Lemma stored_same_stores (K : nat -> Prop) s s' m e : frame K none s s' -> stored_same s s' -> stores s m e <-> stores s' m e.
Proof.
  intros F H. split; [|now apply stores_back]. intros (x & O & Hx). destruct (f_obj _ _ _ _ F m (obj_lt _ _ _ O)) as [_ Q]. destruct (Q x O) as [_ Q2].
  destruct (Q2 (fun X => X)) as (x' & O' & _). exists x'. split; [assumption|]. rewrite (H m x' O'). unfold ents. now rewrite O.
Qed.

Lemma ModelHandDestroy_ok s d x : inv s -> store s -> hnd s d = Some x -> h_type x = -1 ->
  exists s', ModelHandDestroy d s = Some s' /\ kept (bcell d) (fun e => exists m, attached s d = Some m /\ (e = m \/ stores s m e)) s s' /\ hnd s' d = None.
Proof.
  intros I S H T. unfold ModelHandDestroy. rewrite H. cbn [bind]. destruct (loose_kept s d x I S H) as (s1 & E1 & K1 & C1 & H1 & L1 & Sm). rewrite E1. cbn [bind].
  set (D := fun e => exists m, attached s d = Some m /\ (e = m \/ stores s m e)).
  assert (X : exists s2, match attached s d with Some m => kill_model m s1 | None => Some s1 end = Some s2 /\ kept none D s1 s2 /\ hands s2 = hands s1).
  { unfold D. destruct (attached s d) as [m|] eqn:A.
    - destruct (type_kept (vcell d) none s s1 m (h_type x) (k_frame _ _ _ _ K1) (attached_type s d x m I H A) (fun X => X)) as (y & Y & Ty).
      destruct (kill_model_ok s1 m y (k_inv _ _ _ _ K1) (k_store _ _ _ _ K1) Y) as (s2 & E2 & I2 & S2 & F2 & H2); [congruence|].
      exists s2. split; [assumption|]. split; [|assumption]. split; auto. apply (frame_in none (fun o => o = m \/ stores s1 m o)); [|assumption].
      intros k. rewrite <- (stored_same_stores (vcell d) s s1 m k) by (apply K1 || assumption). split; [intros Q; exists m; auto|intros (m' & [= <-] & Q); exact Q].
    - exists s1. split; [reflexivity|]. split; [|reflexivity]. apply (kept_weaken none none none); [auto| |apply kept_refl; apply K1].
      intros o. unfold none. split; [tauto|intros (m & Q & _); discriminate]. }
  destruct X as (s2 & E2 & K2 & H2). rewrite E2. cbn [bind].
  assert (Hx : hnd s2 d = Some x) by (unfold hnd; now rewrite H2, H1).
  assert (C2 : cell s2 (valid_of d) = Some false) by (apply (stay_free' none D s1 s2 _ K2); auto).
  assert (C3 := mhandle_free s2 d x (k_inv _ _ _ _ K2) Hx T).
  destruct (release_inv s2 d x (k_inv _ _ _ _ K2) Hx C2 C3) as (I3 & F3 & S3 & H3). exists (release d s2). split; [reflexivity|]. split; [|assumption].
  assert (K3 : kept (bcell d) none s2 (release d s2)) by (apply good_kept0; [apply K2|]; now split).
  apply (kept_trans (vcell d) (bcell d) (bcell d) none D D s s1 _); auto.
  - apply (kept_trans none (bcell d) (bcell d) D none D s1 s2 _); auto; [apply K1|unfold none; tauto|unfold none; tauto].
  - intros c [X|X]; [now apply vb|assumption].
  - unfold none. tauto.
Qed.

Lemma NewAPIEntity_ok s d x t : inv s -> store s -> hnd s d = Some x -> h_type x = -1 -> (attached s d <> None -> zhas t api_types = true /\ t <> -1) ->
  exists b s', NewAPIEntity d t s = Some (b, s') /\ kept none none s s' /\
    (b = true <-> attached s d <> None) /\ (attached s d = None -> s' = s) /\
    (forall m, attached s d = Some m -> let h := length (hands s) in
       handle s' h t /\ link s' (valid_of h) = Some (fresh s) /\ link s' (parent_of h) = Some m /\ of_type s' (fresh s) t /\ of_type s' (S (fresh s)) t).
Proof.
  intros I S H T Ht. unfold NewAPIEntity. rewrite H. cbn [bind]. destruct (attached s d) as [m|] eqn:A.
  - destruct Ht as [Ht Hn]; [discriminate|]. destruct (attached_type s d x m I H A) as (y & Y & Ty). rewrite T in Ty.
    destruct (NewEntity_ok s m y t I S Y Ty Hn) as (s1 & E1 & I1 & S1 & F1 & O1 & En & H1 & C1 & L1). rewrite E1. cbn [bind]. rewrite Ht.
    assert (K1 : kept none none s s1) by now split.
    destruct (HandNew_ok s1 t (Some m) true I1 S1 Hn) as (s2 & E2 & K2 & (z & Hz & Tz) & Lv & Of & Lp & N2).
    { intros k [= <-]. apply (type_kept none none s s1); auto. exists y. auto. }
    rewrite E2. cbn [bind]. rewrite H1 in *. specialize (Of eq_refl).
    destruct (type_kept none none s1 s2 (fresh s) t (k_frame _ _ _ _ K2) O1 (fun X => X)) as (w & W & Tw).
    destruct (Attach_ok s2 (length (hands s)) z (fresh s) w (k_inv _ _ _ _ K2) (k_store _ _ _ _ K2) Hz W) as (s3 & E3 & K3 & L3 & N3 & (z3 & Z3 & T3)).
    rewrite Tz, Tw, Z.eqb_refl in *. exists true, s3. split; [exact E3|].
    assert (Fr : fresh s1 = Datatypes.S (fresh s)) by (unfold fresh; now rewrite L1). rewrite Fr in *.
    split; [|split; [split; [discriminate|reflexivity]|split; [discriminate|]]].
    + apply (kept_fresh (vcell (length (hands s))) none). { intros c ->. right. rewrite (i_len s I). unfold valid_of. lia. }
      apply (kept_none none (vcell (length (hands s))) (vcell (length (hands s))) s s2 s3); auto; [|unfold none; tauto].
      apply (kept_none none none none s s1 s2); auto. unfold none; tauto.
    + intros k [= <-]. cbn zeta. split; [exists z3; split; [assumption|congruence]|]. split; [assumption|]. split; [|split].
      * apply (stay_link (vcell (length (hands s))) none s2 s3); auto; [apply K2|]. intros X. exact (vp _ _ (eq_sym X)).
      * apply (type_kept (vcell (length (hands s))) none s2 s3); [apply K3|exists w; auto|intros []].
      * apply (type_kept (vcell (length (hands s))) none s2 s3); [apply K3|assumption|intros []].
  - exists false, s. split; [reflexivity|]. split; [now apply kept_refl|]. split; [split; [discriminate|congruence]|]. split; [reflexivity|discriminate].
Qed.
