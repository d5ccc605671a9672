(* Every operation keeps the invariants. *)
From Coq Require Import List Bool ZArith Lia.
From Verif Require Import HandleModel HandleSpec HandleFacts.
Import ListNotations.
Open Scope Z_scope.

Record good (K D : nat -> Prop) (s s' : st) : Prop := {
  g_inv : inv s'; g_frame : frame K D s s'; g_same : stored_same s s' }.

Lemma good_trans (K1 K2 D1 D2 K D : nat -> Prop) a b c : inv a -> good K1 D1 a b -> good K2 D2 b c ->
  (forall x, K1 x \/ K2 x -> K x) -> (forall x, D1 x \/ D2 x <-> D x) -> good K D a c.
Proof.
  intros I [I1 F1 S1] [I2 F2 S2] HK HD. split; [exact I2| |eapply stored_trans; eauto].
  apply (frame_weaken (fun x => K1 x \/ K2 x) K (fun x => D1 x \/ D2 x) D); auto.
  now apply (frame_trans K1 K2 D1 D2 a b c).
Qed.
Lemma good_refl s : inv s -> good none none s s.
Proof. intros I. split; [exact I|apply frame_refl|apply stored_refl]. Qed.

Lemma link_none s c : inv s -> cell s c <> None -> link s c = None -> cell s c = Some false.
Proof.
  intros I H E. destruct (cell s c) as [[|]|] eqn:C; [|reflexivity|congruence].
  destruct (i_link s I c C) as (o & x & T & _). unfold link in E. rewrite C in E. congruence.
Qed.
Lemma live_cell s c x : inv s -> hnd s (Nat.div2 c) = Some x -> cell s c <> None.
Proof. intros I H E. apply (i_dead s I) in E. congruence. Qed.

(* a cell which is not concerned stays free *)
Lemma stay_free (K D : nat -> Prop) s s' c : good K D s s' -> ~ K c -> cell s c = Some false -> cell s' c = Some false.
Proof.
  intros [I F _] HK C. destruct (f_link _ _ _ _ F c HK (cell_lt _ _ _ C)) as (A & B & _).
  apply link_none; [assumption| |]; [rewrite <- A; congruence|]. apply B. unfold link. now rewrite C.
Qed.

Definition vcell (h : nat) : nat -> Prop := fun c => c = valid_of h.
Definition pcell (h : nat) : nat -> Prop := fun c => c = parent_of h.

Lemma vp h k : valid_of h <> parent_of k. Proof. unfold valid_of, parent_of. lia. Qed.

Lemma loose_ok s h x : inv s -> hnd s h = Some x ->
  exists s', loose h s = Some s' /\ good (vcell h) none s s' /\ cell s' (valid_of h) = Some false /\ hands s' = hands s /\ length (objs s') = length (objs s).
Proof.
  intros I H. unfold loose. rewrite attached_link. destruct (link s (valid_of h)) as [o|] eqn:E.
  - destruct (detach_inv s _ o I E) as (s' & P & I' & F & S & C & Hh & L). exists s'. split; [exact P|]. split; [split; assumption|]. auto.
  - exists s. split; [reflexivity|]. split; [|split; [|auto]].
    + split; [assumption| |apply stored_refl]. apply (frame_weaken none (vcell h) none none); [intros c []|tauto|apply frame_refl].
    + apply link_none; auto. apply (live_cell s _ x); auto. now rewrite div_valid.
Qed.
Lemma loose_parent_ok s h x : inv s -> hnd s h = Some x ->
  exists s', loose_parent h s = Some s' /\ good (pcell h) none s s' /\ cell s' (parent_of h) = Some false /\ hands s' = hands s /\ length (objs s') = length (objs s).
Proof.
  intros I H. unfold loose_parent. rewrite parent_link. destruct (link s (parent_of h)) as [o|] eqn:E.
  - destruct (detach_inv s _ o I E) as (s' & P & I' & F & S & C & Hh & L). exists s'. split; [exact P|]. split; [split; assumption|]. auto.
  - exists s. split; [reflexivity|]. split; [|split; [|auto]].
    + split; [assumption| |apply stored_refl]. apply (frame_weaken none (pcell h) none none); [intros c []|tauto|apply frame_refl].
    + apply link_none; auto. apply (live_cell s _ x); auto. now rewrite div_parent.
Qed.

(* a free handle is attached to an object *)
Lemma aim_ok s h x o y : inv s -> hnd s h = Some x -> cell s (valid_of h) = Some false -> obj s o = Some y -> o_type y = h_type x ->
  exists s', (let! s2 := set_target h (Some o) s in AttachValidFlag o (valid_of h) s2) = Some s' /\
    good (vcell h) none s s' /\ link s' (valid_of h) = Some o /\ (exists x', hnd s' h = Some x' /\ h_type x' = h_type x) /\
    length (objs s') = length (objs s) /\ length (hands s') = length (hands s).
Proof.
  intros I H C O T. rewrite (set_target_eq h (Some o) s x H). cbn [bind].
  assert (H' : hnd s (Nat.div2 (valid_of h)) = Some x) by now rewrite div_valid.
  destruct (retarget_inv s (valid_of h) (Some o) x I H') as (I1 & F1 & S1 & T1 & O1 & C1); [congruence|].
  set (s1 := set_hnd (Nat.div2 (valid_of h)) (Some (retarget (valid_of h) (Some o) x)) s) in *.
  assert (Hx : hnd s1 h = Some (retarget (valid_of h) (Some o) x)).
  { unfold s1, hnd, set_hnd. cbn [hands]. rewrite div_valid. apply get_same. apply (hnd_lt _ _ _ H). }
  assert (Ht : h_type (retarget (valid_of h) (Some o) x) = h_type x) by (unfold retarget; now rewrite even_valid).
  destruct (attach_inv s1 (valid_of h) o y I1) as (s2 & P & I2 & F2 & S2 & L2 & Hh2 & N2).
  - unfold cell. now rewrite C1.
  - exact T1.
  - unfold obj. now rewrite O1.
  - exists (retarget (valid_of h) (Some o) x). rewrite div_valid, even_valid. split; [exact Hx|]. now rewrite Ht.
  - exists s2. split; [exact P|]. split; [|split; [exact L2|]].
    + apply (good_trans none (vcell h) none none (vcell h) none s s1 s2); auto; try (split; assumption); unfold none; tauto.
    + split; [|split; [rewrite N2; unfold s1; reflexivity|rewrite Hh2; unfold s1, set_hnd; cbn [hands]; apply upd_len]].
      exists (retarget (valid_of h) (Some o) x). unfold hnd in *. rewrite Hh2. auto.
Qed.
Lemma aim_parent_ok s h x o y : inv s -> hnd s h = Some x -> cell s (parent_of h) = Some false -> obj s o = Some y -> o_type y = -1 -> h_type x <> -1 ->
  exists s', (let! s2 := set_parent h (Some o) s in AttachValidFlag o (parent_of h) s2) = Some s' /\
    good (pcell h) none s s' /\ link s' (parent_of h) = Some o /\ (exists x', hnd s' h = Some x' /\ h_type x' = h_type x) /\
    length (objs s') = length (objs s) /\ length (hands s') = length (hands s).
Proof.
  intros I H C O T Hn. rewrite (set_parent_eq h (Some o) s x H). cbn [bind].
  assert (H' : hnd s (Nat.div2 (parent_of h)) = Some x) by now rewrite div_parent.
  destruct (retarget_inv s (parent_of h) (Some o) x I H') as (I1 & F1 & S1 & T1 & O1 & C1); [congruence|].
  set (s1 := set_hnd (Nat.div2 (parent_of h)) (Some (retarget (parent_of h) (Some o) x)) s) in *.
  assert (Hx : hnd s1 h = Some (retarget (parent_of h) (Some o) x)).
  { unfold s1, hnd, set_hnd. cbn [hands]. rewrite div_parent. apply get_same. apply (hnd_lt _ _ _ H). }
  assert (Ht : h_type (retarget (parent_of h) (Some o) x) = h_type x) by (unfold retarget; now rewrite even_parent).
  destruct (attach_inv s1 (parent_of h) o y I1) as (s2 & P & I2 & F2 & S2 & L2 & Hh2 & N2).
  - unfold cell. now rewrite C1.
  - exact T1.
  - unfold obj. now rewrite O1.
  - exists (retarget (parent_of h) (Some o) x). rewrite div_parent, even_parent. split; [exact Hx|]. now rewrite Ht.
  - exists s2. split; [exact P|]. split; [|split; [exact L2|]].
    + apply (good_trans none (pcell h) none none (pcell h) none s s1 s2); auto; try (split; assumption); unfold none; tauto.
    + split; [|split; [rewrite N2; unfold s1; reflexivity|rewrite Hh2; unfold s1, set_hnd; cbn [hands]; apply upd_len]].
      exists (retarget (parent_of h) (Some o) x). unfold hnd in *. rewrite Hh2. auto.
Qed.

(* a free handle forgets its object *)
Lemma forget_ok s h x : inv s -> hnd s h = Some x -> cell s (valid_of h) = Some false ->
  exists s', (let! s2 := set_target h None s in put (valid_of h) false s2) = Some s' /\ good none none s s' /\
    cell s' (valid_of h) = Some false /\ (exists x', hnd s' h = Some x' /\ h_type x' = h_type x) /\
    length (hands s') = length (hands s) /\ objs s' = objs s.
Proof.
  intros I H C. rewrite (set_target_eq h None s x H). cbn [bind].
  assert (H' : hnd s (Nat.div2 (valid_of h)) = Some x) by now rewrite div_valid.
  destruct (retarget_inv s (valid_of h) None x I H') as (I1 & F1 & S1 & T1 & O1 & C1); [congruence|].
  assert (C' : cell (set_hnd (Nat.div2 (valid_of h)) (Some (retarget (valid_of h) None x)) s) (valid_of h) = Some false) by (unfold cell; now rewrite C1).
  rewrite (put_same _ _ _ C'). eexists. split; [reflexivity|]. split; [split; assumption|]. split; [exact C'|]. split; [|split; [unfold set_hnd; cbn [hands]; apply upd_len|reflexivity]].
  exists (retarget (valid_of h) None x). split; [|unfold retarget; now rewrite even_valid].
  unfold hnd, set_hnd. cbn [hands]. rewrite div_valid. apply get_same. apply (hnd_lt _ _ _ H).
Qed.
Lemma forget_parent_ok s h x : inv s -> hnd s h = Some x -> cell s (parent_of h) = Some false ->
  exists s', (let! s2 := set_parent h None s in put (parent_of h) false s2) = Some s' /\ good none none s s' /\
    cell s' (parent_of h) = Some false /\ (exists x', hnd s' h = Some x' /\ h_type x' = h_type x).
Proof.
  intros I H C. rewrite (set_parent_eq h None s x H). cbn [bind].
  assert (H' : hnd s (Nat.div2 (parent_of h)) = Some x) by now rewrite div_parent.
  destruct (retarget_inv s (parent_of h) None x I H') as (I1 & F1 & S1 & T1 & O1 & C1); [congruence|].
  assert (C' : cell (set_hnd (Nat.div2 (parent_of h)) (Some (retarget (parent_of h) None x)) s) (parent_of h) = Some false) by (unfold cell; now rewrite C1).
  rewrite (put_same _ _ _ C'). eexists. split; [reflexivity|]. split; [split; assumption|]. split; [exact C'|].
  exists (retarget (parent_of h) None x). split; [|unfold retarget; now rewrite even_parent].
  unfold hnd, set_hnd. cbn [hands]. rewrite div_parent. apply get_same. apply (hnd_lt _ _ _ H).
Qed.

(** The lists of the models *)

Definition store (s : st) : Prop :=
  (forall m x, obj s m = Some x -> NoDup (o_ents x) /\ (forall e, In e (o_ents x) -> o_type x = -1 /\ entity s e)) /\
  (forall m k e, stores s m e -> stores s k e -> m = k).

Lemma stores_ents s m e : stores s m e <-> In e (ents s m).
Proof.
  unfold stores, ents. split; [intros (x & -> & H); exact H|]. destruct (obj s m) as [x|]; [eauto|intros []].
Qed.

Lemma entity_kept (K D : nat -> Prop) s s' e : frame K D s s' -> entity s e -> ~ D e -> entity s' e.
Proof.
  intros F (t & (x & O & T) & N) ND. destruct (f_obj _ _ _ _ F e (obj_lt _ _ _ O)) as [_ X]. destruct (X x O) as [_ Y].
  destruct (Y ND) as (x' & O' & T'). exists t. split; [exists x'; split; [assumption|congruence]|assumption].
Qed.
Lemma type_kept (K D : nat -> Prop) s s' o t : frame K D s s' -> of_type s o t -> ~ D o -> of_type s' o t.
Proof.
  intros F (x & O & T) ND. destruct (f_obj _ _ _ _ F o (obj_lt _ _ _ O)) as [_ X]. destruct (X x O) as [_ Y].
  destruct (Y ND) as (x' & O' & T'). exists x'. split; [assumption|congruence].
Qed.

Lemma keep_store (K D : nat -> Prop) s s' : store s -> good K D s s' -> (forall m e, stores s m e -> D e -> D m) -> store s'.
Proof.
  intros [S1 S2] [I F H] HD.
  assert (B : forall m x' e, obj s' m = Some x' -> In e (o_ents x') -> exists x, obj s m = Some x /\ o_ents x = o_ents x' /\ ~ D m /\ o_type x' = o_type x).
  { intros m x' e O He. pose proof (H m x' O) as E. unfold ents in E. destruct (obj s m) as [x|] eqn:Om; [|rewrite E in He; destruct He].
    destruct (f_obj _ _ _ _ F m (obj_lt _ _ _ Om)) as [_ X]. destruct (X x Om) as [X1 X2].
    assert (ND : ~ D m) by (intros Y; rewrite (X1 Y) in O; discriminate). destruct (X2 ND) as (x2 & O2 & T2).
    exists x. repeat split; auto. congruence. }
  split.
  - intros m x' O. split.
    + rewrite (H m x' O). unfold ents. destruct (obj s m) as [x|] eqn:Om; [apply (S1 m x Om)|constructor].
    + intros e He. destruct (B m x' e O He) as (x & Om & E & ND & T). destruct (S1 m x Om) as [_ S3].
      rewrite <- E in He. destruct (S3 e He) as [T1 En]. split; [congruence|]. apply (entity_kept K D s s' e F En).
      intros X. apply ND, (HD m e); [exists x; auto|assumption].
  - intros m k e (x & Om & Hm) (y & Ok & Hk). destruct (B m x e Om Hm) as (x0 & Om0 & Em & _). destruct (B k y e Ok Hk) as (y0 & Ok0 & Ek & _).
    apply (S2 m k e); [exists x0|exists y0]; split; auto; congruence.
Qed.

Definition add_ent (m e : nat) (x : object) (s : st) : st := set_obj m (Some (mkObj (o_type x) (o_flags x) (o_ents x ++ [e]))) s.

Lemma add_ent_ok s m e x : inv s -> store s -> obj s m = Some x -> o_type x = -1 -> entity s e -> (forall k, ~ stores s k e) ->
  let s' := add_ent m e x s in
  inv s' /\ frame none none s s' /\ store s' /\ (forall k, ents s' k = if Nat.eqb m k then ents s m ++ [e] else ents s k).
Proof.
  intros I [S1 S2] O T En Hn s'. destruct (ents_inv s m x (o_ents x ++ [e]) I O) as (I' & F & Ho). fold (add_ent m e x s) in I', F, Ho. fold s' in I', F, Ho.
  assert (He : forall k, ents s' k = if Nat.eqb m k then ents s m ++ [e] else ents s k).
  { intros k. unfold ents. rewrite Ho. destruct (Nat.eqb m k); [now rewrite O|reflexivity]. }
  split; [assumption|]. split; [assumption|]. split; [|assumption]. split.
  - intros k y E. rewrite Ho in E. destruct (Nat.eqb_spec m k) as [<-|Hk].
    + injection E as <-. cbn [o_ents o_type]. destruct (S1 m x O) as [N P]. split.
      * apply NoDup_rev in N. rewrite <- (rev_involutive (o_ents x ++ [e])). apply NoDup_rev. rewrite rev_app_distr. cbn.
        constructor; [|exact N]. rewrite <- in_rev. intros X. apply (Hn m). exists x. auto.
      * intros e' He'. split; [assumption|]. apply (entity_kept none none s s' e' F); [|intros []].
        apply in_app_iff in He'. destruct He' as [He'|[<-|[]]]; [now apply P|assumption].
    + destruct (S1 k y E) as [N P]. split; [assumption|]. intros e' He'. destruct (P e' He') as [P1 P2]. split; [assumption|].
      now apply (entity_kept none none s s' e' F).
  - intros a b e' Ha Hb. apply stores_ents in Ha. apply stores_ents in Hb. rewrite He in Ha, Hb.
    destruct (Nat.eqb_spec m a) as [<-|], (Nat.eqb_spec m b) as [<-|]; auto.
    + apply in_app_iff in Ha. destruct Ha as [Ha|[<-|[]]]; [|exfalso; apply (Hn b); now apply stores_ents].
      apply (S2 m b e'); now apply stores_ents.
    + apply in_app_iff in Hb. destruct Hb as [Hb|[<-|[]]]; [|exfalso; apply (Hn a); now apply stores_ents].
      apply (S2 a m e'); now apply stores_ents.
    + apply (S2 a b e'); now apply stores_ents.
Qed.

Lemma frame_none s s1 s2 : inv s -> inv s1 -> inv s2 -> frame none none s s1 -> frame none none s1 s2 -> frame none none s s2.
Proof.
  intros I I1 I2 F1 F2. apply (frame_weaken (fun x => none x \/ none x) none (fun x => none x \/ none x) none); [unfold none; tauto|unfold none; tauto|].
  now apply (frame_trans none none none none s s1 s2).
Qed.

Lemma NewEntity_ok s m x t : inv s -> store s -> obj s m = Some x -> o_type x = -1 -> t <> -1 ->
  exists s', NewEntity m t s = Some s' /\ inv s' /\ store s' /\ frame none none s s' /\ of_type s' (fresh s) t /\
    (forall k, ents s' k = if Nat.eqb m k then ents s m ++ [fresh s] else ents s k) /\
    hands s' = hands s /\ cells s' = cells s /\ length (objs s') = S (length (objs s)).
Proof.
  intros I S O T Ht. unfold NewEntity. rewrite O. cbn [bind]. destruct (make_inv s t I) as (I1 & F1 & S1).
  assert (Hm : Nat.eqb m (fresh s) = false) by (apply Nat.eqb_neq; pose proof (obj_lt _ _ _ O); unfold fresh; lia).
  assert (O1 : obj (make t s) m = Some x) by (now rewrite make_obj, Hm).
  assert (Of : obj (make t s) (fresh s) = Some (mkObj t [] [])) by (now rewrite make_obj, Nat.eqb_refl).
  assert (St1 : store (make t s)).
  { apply (keep_store none none s); [assumption|split; assumption|]. intros a b _ []. }
  destruct (add_ent_ok (make t s) m (fresh s) x I1 St1 O1 T) as (I2 & F2 & S2 & E2).
  - exists t. split; [|assumption]. exists (mkObj t [] []). auto.
  - intros k (y & Oy & Hy). rewrite make_obj in Oy. destruct (Nat.eqb k (fresh s)); [injection Oy as <-; destruct Hy|].
    destruct S as [S _]. destruct (S k y Oy) as [_ P]. destruct (P _ Hy) as [_ (t' & (z & Z & _) & _)].
    apply obj_lt in Z. unfold fresh in Z. lia.
  - fold (add_ent m (fresh s) x (make t s)). eexists. split; [reflexivity|]. split; [assumption|]. split; [assumption|].
    split; [now apply (frame_none s (make t s))|]. split; [|split; [|split; [|split]]].
    + apply (type_kept none none (make t s) _ (fresh s) t F2); [|intros []]. exists (mkObj t [] []). auto.
    + intros k. rewrite E2. assert (Ek : forall a, ents (make t s) a = ents s a).
      { intros a. unfold ents. rewrite make_obj. destruct (Nat.eqb_spec a (fresh s)) as [->|]; [|reflexivity].
        unfold obj, fresh. now rewrite get_beyond. }
      now rewrite !Ek.
    + reflexivity.
    + reflexivity.
    + unfold add_ent, set_obj, make. cbn [objs]. rewrite upd_len, app_length. cbn. lia.
Qed.
