(* The claims about handles. *)
From Coq Require Import List Bool ZArith Lia.
From Verif Require Import HandleModel HandleSpec HandleFacts HandleOps HandleStep HandleRun HandleAll.
Import ListNotations.
Open Scope Z_scope.

Definition books (s : st) : Prop := inv s /\ store s.
Definition K_of (o : op) (c : nat) : Prop :=
  (exists h, c = valid_of h /\ concerns o h) \/ (exists h, c = parent_of h /\ concerns_parent o h).

Lemma not_minus t : In t handle_types -> t <> -1.
Proof. intros H ->. cbn in H. repeat destruct H as [H|H]; try discriminate. exact H. Qed.
Lemma api_zhas t : In t api_types <-> zhas t api_types = true.
Proof. unfold zhas. rewrite existsb_exists. split; [intros H; exists t; split; [assumption|apply Z.eqb_refl]|]. intros (y & H & E). apply Z.eqb_eq in E. now subst y. Qed.
Lemma api_minus t : In t api_types -> t <> -1.
Proof. intros H ->. cbn in H. repeat destruct H as [H|H]; try discriminate. exact H. Qed.

Lemma kept_as (K D : nat -> Prop) o s s' : kept K D s s' -> (forall c, K c -> K_of o c) -> (forall e, D e <-> dies s o e) -> kept (K_of o) (dies s o) s s'.
Proof. intros H A B. now apply (kept_weaken K (K_of o) D (dies s o)). Qed.
Lemma v_of o h : concerns o h -> forall c, vcell h c -> K_of o c.
Proof. intros H c ->. left. eauto. Qed.
Lemma p_of o h : concerns_parent o h -> forall c, pcell h c -> K_of o c.
Proof. intros H c ->. right. eauto. Qed.
Lemma b_of o h : concerns o h -> concerns_parent o h -> forall c, bcell h c -> K_of o c.
Proof. intros A B c <-. destruct (cell_cases c) as [E|E]; [left|right]; eauto. Qed.

Lemma step_ok s o : books s -> sane s o -> exists s', run o s = Some s' /\ kept (K_of o) (dies s o) s s'.
Proof.
  intros [I S] H. destruct o; cbn [sane] in H; cbn [run dies].
  - eexists. split; [reflexivity|]. apply (kept_as none none); [apply make_kept; assumption|intros c []|cbn; tauto].
  - eexists. split; [reflexivity|]. apply (kept_as none none); [apply make_kept; assumption|intros c []|cbn; tauto].
  - destruct H as [(t & (x & O & T) & N) Hn]. destruct (kill_entity_ok s e x I S O) as (s' & E & I' & S' & F & _); [congruence|assumption|].
    exists s'. split; [assumption|]. apply (kept_as none (fun o => o = e)); [now split|intros c []|cbn; tauto].
  - destruct H as (x & O & T). destruct (kill_model_ok s m x I S O T) as (s' & E & I' & S' & F & _).
    exists s'. split; [assumption|]. apply (kept_as none (fun o => o = m \/ stores s m o)); [now split|intros c []|cbn; tauto].
  - destruct H as [(x & O & T) Ht]. destruct (NewEntity_ok s m x t I S O T Ht) as (s' & E & I' & S' & F & _).
    exists s'. split; [assumption|]. apply (kept_as none none); [now split|intros c []|cbn; tauto].
  - destruct H as [(x & O & T) [En Hu]]. destruct (AddEntity_ok s m x e I S O T En Hu) as (s' & E & I' & S' & F & _).
    exists s'. split; [assumption|]. apply (kept_as none none); [now split|intros c []|cbn; tauto].
  - destruct H as (x & O & T). destruct (DelEntity_ok s m x e I S O) as (s' & E & I' & S' & F & _).
    exists s'. split; [assumption|]. apply (kept_as none (fun o => o = e /\ stores s m o)); [now split|intros c []|cbn; tauto].
  - destruct H as (x & O & T). destruct (UnlinkEntity_ok s m x e I S O) as (s' & E & I' & S' & F & _).
    exists s'. split; [assumption|]. apply (kept_as none none); [now split|intros c []|cbn; tauto].
  - destruct H as (x & O & T). destruct (Clear_ok s m x I S O) as (s' & E & I' & S' & F & _).
    exists s'. split; [assumption|]. apply (kept_as none (stores s m)); [now split|intros c []|cbn; tauto].
  - destruct H as [Ht Hp]. destruct (HandNew_ok s t p create I S (not_minus t Ht) Hp) as (s' & E & K & _).
    exists s'. split; [assumption|]. apply (kept_as none none); [assumption|intros c []|cbn; tauto].
  - destruct H as [Ht Hd]. destruct (HandNewVia_ok s t d create I S (not_minus t Ht) Hd) as (s' & E & K & _).
    exists s'. split; [assumption|]. apply (kept_as none none); [assumption|intros c []|cbn; tauto].
  - destruct H as (t & (x & Hx & T) & N). destruct (HandDestroy_ok s h x I S Hx) as (s' & E & K & _).
    exists s'. split; [assumption|]. apply (kept_as (bcell h) none); [assumption|apply b_of; reflexivity|cbn; tauto].
  - destruct H as [(t & (x & Hx & T) & N) (t' & (y & Y & Ty) & N')]. destruct (Attach_ok s h x e y I S Hx Y) as (s' & E & K & _).
    rewrite E. exists s'. split; [reflexivity|]. apply (kept_as (vcell h) none); [assumption|apply v_of; reflexivity|cbn; tauto].
  - destruct H as (t & (x & Hx & T) & N). destruct (Detach_ok s h x I S Hx) as (s' & E & K & _).
    exists s'. split; [assumption|]. apply (kept_as (vcell h) none); [assumption|apply v_of; reflexivity|cbn; tauto].
  - destruct H as [(t & (x & Hx & T) & N) Hn]. destruct (HandDel_ok s h x I S Hx) as (s' & E & K & _); [congruence|assumption|].
    exists s'. split; [assumption|]. apply (kept_as (vcell h) (fun e => attached s h = Some e)); [assumption|apply v_of; reflexivity|cbn; tauto].
  - destruct H as (t & (x & Hx & T) & N). destruct (HandNewEntity_ok s h x I S Hx) as (s' & E & K & _); [congruence|].
    exists s'. split; [assumption|]. apply (kept_as (vcell h) none); [assumption|apply v_of; reflexivity|cbn; tauto].
  - destruct H as [(t & (x & Hx & T) & N) Hp]. destruct (SetParent_ok s h x p I S Hx) as (s' & E & K & _); [congruence|assumption|].
    exists s'. split; [assumption|]. apply (kept_as (pcell h) none); [assumption|apply p_of; reflexivity|cbn; tauto].
  - destruct H as [(t & (x & Hx & T) & N) Hd]. destruct (SetParentVia_ok s h x d I S Hx) as (s' & E & K & _); [congruence|assumption|].
    exists s'. split; [assumption|]. apply (kept_as (pcell h) none); [assumption|apply p_of; reflexivity|cbn; tauto].
  - assert (X : exists x, hnd s h = Some x) by (destruct H as [(t & (x & Hx & _) & _)|(x & Hx & _)]; eauto). destruct X as (x & Hx).
    destruct (raw_ok s h x I S Hx) as (s' & E & K & _). rewrite E.
    exists s'. split; [reflexivity|]. apply (kept_as none none); [assumption|intros c []|cbn; tauto].
  - destruct (ModelHandNew_ok s I S) as (s' & E & K & _).
    exists s'. split; [assumption|]. apply (kept_as none none); [assumption|intros c []|cbn; tauto].
  - destruct H as (x & Hx & T). destruct (ModelHandDestroy_ok s d x I S Hx T) as (s' & E & K & _).
    exists s'. split; [assumption|]. eapply kept_as; [exact K|apply b_of; reflexivity|]. cbn. tauto.
  - destruct H as [(x & Hx & T) Ht]. destruct (NewAPIEntity_ok s d x t I S Hx T) as (b & s' & E & K & _).
    { intros A. specialize (Ht A). split; [now apply api_zhas|now apply api_minus]. }
    rewrite E. exists s'. split; [reflexivity|]. apply (kept_as none none); [assumption|intros c []|cbn; tauto].
Qed.

Lemma empty_books : books empty.
Proof.
  split; [apply empty_inv|]. split.
  - intros m x H. unfold obj, get in H. cbn in H. now destruct m.
  - intros m k e (x & H & _). unfold obj, get in H. cbn in H. now destruct m.
Qed.
Lemma runs_books l : forall s, books s -> sane_run l s -> exists s', runs l s = Some s' /\ books s'.
Proof.
  induction l as [|o l IH]; intros s B H; [exists s; auto|]. destruct H as [Ho Hl]. destruct (step_ok s o B Ho) as (s1 & E & K).
  cbn [runs]. rewrite E. cbn [bind]. apply IH; [split; apply K|auto].
Qed.
Lemma reached_books s : reached s -> books s.
Proof. intros (l & H & R). destruct (runs_books l empty empty_books H) as (s' & E & B). congruence. Qed.

(** Valid handles *)

Lemma handle_sound s h t : books s -> handle s h t ->
  (IsValid s h <-> exists e, attached s h = Some e) /\ (forall e, attached s h = Some e -> of_type s e t) /\ (forall m, parent s h = Some m -> model s m).
Proof.
  intros [I S] (x & H & T). split; [|split].
  - unfold IsValid. rewrite attached_link. split.
    + intros C. destruct (i_link s I _ C) as (o & y & Tg & _). exists o. unfold link. now rewrite C.
    + intros (e & L). now destruct (link_live s _ e I L) as (y & _ & _ & _ & C).
  - intros e A. rewrite <- T. now apply (attached_type s h).
  - intros m A. now apply (parent_model s h).
Qed.

Theorem handles_sound l : sane_run l empty ->
  exists s, runs l empty = Some s /\ forall h t, handle s h t ->
    (IsValid s h <-> exists e, attached s h = Some e) /\
    (forall e, attached s h = Some e -> of_type s e t) /\ (forall m, parent s h = Some m -> model s m).
Proof.
  intros H. destruct (runs_books l empty empty_books H) as (s & E & B). exists s. split; [assumption|]. intros h t. now apply handle_sound.
Qed.

Theorem sane_runs s o : reached s -> sane s o -> exists s', run o s = Some s' /\ reached s'.
Proof.
  intros R H. pose proof (reached_books s R) as B. destruct (step_ok s o B H) as (s' & E & _). exists s'. split; [assumption|].
  destruct R as (l & Hl & Rl). exists (l ++ [o]). assert (G : forall s0, sane_run l s0 -> runs l s0 = Some s -> sane_run (l ++ [o]) s0 /\ runs (l ++ [o]) s0 = Some s').
  { clear Hl Rl. induction l as [|a l IH]; intros s0 Hs Rs.
    - cbn in Rs. injection Rs as ->. cbn. rewrite E. cbn. split; [split; [assumption|intros s1 _; exact Logic.I]|reflexivity].
    - cbn [runs app sane_run] in *. destruct Hs as [Ha Hs]. destruct (run a s0) as [s1|]; [|discriminate]. cbn [bind] in *.
      destruct (IH s1 (Hs s1 eq_refl) Rs) as [X Y]. split; [|assumption]. split; [assumption|]. intros s2 [= <-]. exact X. }
  now apply G.
Qed.

Lemma handle_stays (K D : nat -> Prop) s s' h t c : kept K D s s' -> inv s -> Nat.div2 c = h -> ~ K c -> handle s h t -> handle s' h t.
Proof.
  intros [I' S' F] I Ec HK (x & H & T). assert (C : cell s c <> None) by (apply (live_cell s c x); [assumption|now rewrite Ec]).
  destruct (cell s c) as [b|] eqn:Cb; [|congruence]. destruct (f_link _ _ _ _ F c HK (cell_lt _ _ _ Cb)) as (A & _ & _).
  destruct (hnd s' h) as [x'|] eqn:H'; [|exfalso; assert (Q : cell s' c = None) by (apply (i_dead s' I'); now rewrite Ec); apply A in Q; congruence].
  exists x'. split; [assumption|]. rewrite <- T. now apply (f_type _ _ _ _ F h x H).
Qed.

Lemma link_follows o s s' c : kept (K_of o) (dies s o) s s' -> inv s -> ~ K_of o c -> cell s c <> None -> follows s o (link s c) (link s' c).
Proof.
  intros [I' S' F] I HK C. destruct (cell s c) as [b|] eqn:Cb; [|congruence]. destruct (f_link _ _ _ _ F c HK (cell_lt _ _ _ Cb)) as (_ & A & B).
  unfold follows. destruct (link s c) as [e|] eqn:L; [apply B; reflexivity|now apply A].
Qed.

Lemma K_valid o h : K_of o (valid_of h) <-> concerns o h.
Proof.
  split; [|intros H; left; eauto]. intros [(k & E & H)|(k & E & _)]; [|now apply vp in E].
  replace h with k; [assumption|]. unfold valid_of in E. lia.
Qed.
Lemma K_parent o h : K_of o (parent_of h) <-> concerns_parent o h.
Proof.
  split; [|intros H; right; eauto]. intros [(k & E & _)|(k & E & H)]; [symmetry in E; now apply vp in E|].
  replace h with k; [assumption|]. unfold parent_of in E. lia.
Qed.

Theorem handle_follows s o s' h t : reached s -> sane s o -> run o s = Some s' -> handle s h t ->
  (~ concerns o h -> handle s' h t /\ follows s o (attached s h) (attached s' h)) /\
  (~ concerns_parent o h -> handle s' h t /\ follows s o (parent s h) (parent s' h)).
Proof.
  intros R Sa E Hh. pose proof (reached_books s R) as B. destruct (step_ok s o B Sa) as (s1 & E1 & K). rewrite E in E1. injection E1 as <-.
  destruct B as [I S]. pose proof Hh as (x & Hx & T). split; intros Hc.
  - assert (HK : ~ K_of o (valid_of h)) by now rewrite K_valid. split; [apply (handle_stays _ _ s s' h t (valid_of h) K I (div_valid h) HK Hh)|].
    rewrite !attached_link. apply link_follows; auto. apply (live_cell s _ x); auto. now rewrite div_valid.
  - assert (HK : ~ K_of o (parent_of h)) by now rewrite K_parent. split; [apply (handle_stays _ _ s s' h t (parent_of h) K I (div_parent h) HK Hh)|].
    rewrite !parent_link. apply link_follows; auto. apply (live_cell s _ x); auto. now rewrite div_parent.
Qed.

Theorem exactly_dies s o s' e t : reached s -> sane s o -> run o s = Some s' -> of_type s e t ->
  (dies s o e -> ~ alive s' e) /\ (~ dies s o e -> of_type s' e t).
Proof.
  intros R Sa E (x & O & T). pose proof (reached_books s R) as B. destruct (step_ok s o B Sa) as (s1 & E1 & K). rewrite E in E1. injection E1 as <-.
  destruct (f_obj _ _ _ _ (k_frame _ _ _ _ K) e (obj_lt _ _ _ O)) as [_ Q]. destruct (Q x O) as [Q1 Q2]. split.
  - intros D (y & Y). rewrite (Q1 D) in Y. discriminate.
  - intros D. destruct (Q2 D) as (y & Y & Ty). exists y. split; [assumption|congruence].
Qed.

(* nothing destroyed comes back *)
Theorem never_back s o s' : reached s -> sane s o -> run o s = Some s' ->
  (forall e, (e < length (objs s))%nat -> ~ alive s e -> ~ alive s' e) /\
  (forall h, (h < length (hands s))%nat -> hnd s h = None -> hnd s' h = None).
Proof.
  intros R Sa E. pose proof (reached_books s R) as B. destruct (step_ok s o B Sa) as (s1 & E1 & K). rewrite E in E1. injection E1 as <-.
  destruct K as [I' S' F]. split.
  - intros e He Ha (y & Y). destruct (f_obj _ _ _ _ F e He) as [Q _]. assert (N : obj s e = None) by (destruct (obj s e) as [x|] eqn:O; [elim Ha; exists x; exact O|reflexivity]).
    rewrite (Q N) in Y. discriminate.
  - apply (f_gone _ _ _ _ F).
Qed.

(** What the operations on a handle do *)

Theorem attach_effect s h t e te : reached s -> handle s h t -> of_type s e te ->
  exists s', Attach h e s = Some (t =? te, s') /\ attached s' h = (if t =? te then Some e else attached s h).
Proof.
  intros R (x & H & T) (y & Y & Ty). destruct (reached_books s R) as [I S]. destruct (Attach_ok s h x e y I S H Y) as (s' & E & _ & L & _).
  rewrite T, Ty in *. exists s'. split; [assumption|]. now rewrite !attached_link.
Qed.
Theorem detach_effect s h t : reached s -> handle s h t -> exists s', Detach h s = Some s' /\ attached s' h = None /\ handle s' h t.
Proof.
  intros R (x & H & T). destruct (reached_books s R) as [I S]. destruct (Detach_ok s h x I S H) as (s' & E & _ & L & (x' & H' & T')). exists s'. split; [assumption|].
  split; [now rewrite attached_link|]. exists x'. split; [assumption|congruence].
Qed.
Theorem delete_effect s h : reached s -> sane s (HDel h) -> exists s', HandDel h s = Some s' /\ attached s' h = None /\ forall e, attached s h = Some e -> ~ alive s' e.
Proof.
  intros R Sa. pose proof (reached_books s R) as [I S]. destruct Sa as [(t & (x & H & T) & N) Hn]. destruct (HandDel_ok s h x I S H) as (s' & E & K & L & _); [congruence|assumption|].
  exists s'. split; [assumption|]. split; [now rewrite attached_link|]. intros e A (y & Y). destruct (attached_type s h x e I H A) as (z & Z & _).
  destruct (f_obj _ _ _ _ (k_frame _ _ _ _ K) e (obj_lt _ _ _ Z)) as [_ Q]. destruct (Q z Z) as [Q1 _]. rewrite (Q1 A) in Y. discriminate.
Qed.
Theorem new_entity_effect s h t : reached s -> handle s h t -> t <> -1 ->
  exists s' e, HandNewEntity h s = Some s' /\ ~ alive s e /\ attached s' h = Some e /\ of_type s' e t /\
    (forall m, stores s' m e <-> parent s h = Some m).
Proof.
  intros R (x & H & T) N. pose proof (reached_books s R) as [I S]. destruct (HandNewEntity_ok s h x I S H) as (s' & E & K & L & O & P1 & P2); [congruence|].
  exists s', (fresh s). split; [assumption|]. split; [intros (y & Y); apply obj_lt in Y; unfold fresh in Y; lia|].
  split; [now rewrite attached_link|]. split; [congruence|]. intros m. split; [|apply P1].
  intros Hs. destruct (parent s h) as [k|] eqn:P; [|now elim (P2 eq_refl m)]. f_equal. destruct K as [_ [_ U] _]. apply (U k m (fresh s)); auto.
Qed.
Theorem new_handle_effect s t p c : reached s -> sane s (HNew t p c) ->
  exists s' h, HandNew t p c s = Some s' /\ hnd s h = None /\ handle s' h t /\ parent s' h = p /\
    (c = false -> attached s' h = None) /\ (c = true -> exists e, ~ alive s e /\ attached s' h = Some e /\ of_type s' e t).
Proof.
  intros R [Ht Hp]. pose proof (reached_books s R) as [I S]. destruct (HandNew_ok s t p c I S (not_minus t Ht) Hp) as (s' & E & K & (x & H & T) & L & O & P & _).
  exists s', (length (hands s)). split; [assumption|]. split; [apply get_beyond, le_n|]. split; [exists x; auto|]. rewrite parent_link, attached_link. split; [assumption|].
  split; intros ->; [assumption|]. exists (fresh s). split; [intros (y & Y); apply obj_lt in Y; unfold fresh in Y; lia|]. auto.
Qed.
Theorem set_parent_effect s h p : reached s -> sane s (HSetParent h p) -> exists s', SetParent h p s = Some s' /\ parent s' h = p.
Proof.
  intros R [(t & (x & H & T) & N) Hp]. pose proof (reached_books s R) as [I S]. destruct (SetParent_ok s h x p I S H) as (s' & E & K & L); [congruence|assumption|].
  exists s'. split; [assumption|]. now rewrite parent_link.
Qed.
Theorem set_parent_via_effect s h d : reached s -> sane s (HSetParentVia h d) -> exists s', SetParentVia h d s = Some s' /\ parent s' h = attached s d.
Proof.
  intros R [(t & (x & H & T) & N) Hd]. pose proof (reached_books s R) as [I S]. destruct (SetParentVia_ok s h x d I S H) as (s' & E & K & L); [congruence|assumption|].
  exists s'. split; [assumption|]. now rewrite parent_link.
Qed.
Theorem model_handle_effect s : reached s ->
  exists s' d m, ModelHandNew s = Some s' /\ hnd s d = None /\ mhandle s' d /\ ~ alive s m /\ attached s' d = Some m /\ model s' m.
Proof.
  intros R. pose proof (reached_books s R) as [I S]. destruct (ModelHandNew_ok s I S) as (s' & E & K & H & L & M).
  exists s', (length (hands s)), (fresh s). split; [assumption|]. split; [apply get_beyond, le_n|]. split; [assumption|].
  split; [intros (y & Y); apply obj_lt in Y; unfold fresh in Y; lia|]. rewrite attached_link. auto.
Qed.

(** Flags by themselves *)

Lemma attach_flag o c s s1 : AttachValidFlag o c s = Some s1 ->
  cell s1 c = Some true /\ exists x x1, obj s o = Some x /\ obj s1 o = Some x1 /\ In c (o_flags x1) /\ (forall k, k <> o -> obj s1 k = obj s k) /\
    (forall k, k <> c -> cell s1 k = cell s k).
Proof.
  unfold AttachValidFlag. destruct (obj s o) as [x|] eqn:O; [|discriminate]. cbn [bind]. unfold put. destruct (cell s c) as [b|] eqn:C; [|discriminate]. cbn [bind].
  assert (Cc : forall k, get (upd (cells s) c (Some true)) k = if Nat.eqb c k then Some true else cell s k).
  { intros k. rewrite get_upd. pose proof (cell_lt _ _ _ C). destruct (Nat.eqb_spec c k); cbn [andb]; [|reflexivity]. now destruct (Nat.ltb_spec c (length (cells s))); [|lia]. }
  destruct (has c (o_flags x)) eqn:Hb; intros [= <-].
  - split; [unfold cell; cbn [cells]; now rewrite Cc, Nat.eqb_refl|]. exists x, x. split; [reflexivity|]. split; [exact O|]. split; [now apply has_in|]. split; [reflexivity|].
    intros k Hk. unfold cell. cbn [cells]. rewrite Cc. now destruct (Nat.eqb_spec c k); [congruence|].
  - split; [unfold cell, set_obj; cbn [cells]; now rewrite Cc, Nat.eqb_refl|].
    exists x, (mkObj (o_type x) (o_flags x ++ [c]) (o_ents x)). split; [reflexivity|].
    split; [unfold obj, set_obj; cbn [objs]; apply get_same, (obj_lt _ _ _ O)|]. split; [apply in_or_app; cbn; auto|]. split.
    + intros k Hk. unfold obj, set_obj. cbn [objs]. apply get_other; congruence.
    + intros k Hk. unfold cell, set_obj. cbn [cells]. rewrite Cc. now destruct (Nat.eqb_spec c k); [congruence|].
Qed.

Theorem attach_twice o c s s1 : AttachValidFlag o c s = Some s1 -> AttachValidFlag o c s1 = Some s1.
Proof.
  intros H. destruct (attach_flag o c s s1 H) as (C & x & x1 & O & O1 & Hc & _). unfold AttachValidFlag. rewrite O1. cbn [bind].
  rewrite (put_same s1 c true C). cbn [bind]. now rewrite (proj2 (has_in c (o_flags x1)) Hc).
Qed.

Lemma put_all_cells l : forall s s1, put_all l s = Some s1 -> (forall c, In c l -> cell s1 c = Some false) /\ (forall c, ~ In c l -> cell s1 c = cell s c).
Proof.
  induction l as [|k l IH]; intros s s1; cbn [put_all]; [intros [= <-]; split; [intros c []|auto]|].
  unfold put. destruct (cell s k) as [b|] eqn:C; [|discriminate]. cbn [bind]. intros H. destruct (IH _ _ H) as [A B].
  assert (Cc : forall j, cell (mkSt (upd (cells s) k (Some false)) (objs s) (hands s)) j = if Nat.eqb k j then Some false else cell s j).
  { intros j. unfold cell. cbn [cells]. rewrite get_upd. pose proof (cell_lt _ _ _ C). destruct (Nat.eqb_spec k j); cbn [andb]; [|reflexivity]. now destruct (Nat.ltb_spec k (length (cells s))); [|lia]. }
  split.
  - intros c Hc. destruct (in_dec Nat.eq_dec c l) as [Hl|Hl]; [now apply A|]. destruct Hc as [<-|Hc]; [|contradiction]. rewrite (B k Hl), Cc. now rewrite Nat.eqb_refl.
  - intros c Hc. rewrite B by (intros X; apply Hc; now right). rewrite Cc. destruct (Nat.eqb_spec k c) as [<-|]; [elim Hc; now left|reflexivity].
Qed.

Theorem kill_flags o s s1 x : obj s o = Some x -> kill o s = Some s1 ->
  (forall c, In c (o_flags x) -> cell s1 c = Some false) /\ (forall c, ~ In c (o_flags x) -> cell s1 c = cell s c) /\
  obj s1 o = None /\ (forall k, k <> o -> obj s1 k = obj s k).
Proof.
  intros O. unfold kill. rewrite O. cbn [bind]. destruct (put_all (o_flags x) s) as [a|] eqn:P; [|discriminate]. cbn [bind]. intros [= <-].
  destruct (put_all_cells _ _ _ P) as [A B]. pose proof (put_all_obj _ _ _ P) as Ob.
  split; [exact A|]. split; [exact B|]. unfold obj, set_obj. cbn [objs]. rewrite Ob. split.
  - rewrite get_upd. destruct (Nat.eqb_spec o o); [|congruence]. cbn [andb]. pose proof (obj_lt _ _ _ O). now destruct (Nat.ltb_spec o (length (objs s))); [|lia].
  - intros k Hk. apply get_other; congruence.
Qed.

Theorem attach_kill o c s s1 s2 : AttachValidFlag o c s = Some s1 -> kill o s1 = Some s2 -> cell s2 c = Some false /\ ~ alive s2 o.
Proof.
  intros H K. destruct (attach_flag o c s s1 H) as (_ & x & x1 & _ & O1 & Hc & _). destruct (kill_flags o s1 s2 x1 O1 K) as (A & _ & D & _).
  split; [now apply A|]. intros (y & Y). congruence.
Qed.

(* one flag for two objects *)
Theorem shared_flag a b c s s1 s2 s3 : a <> b -> AttachValidFlag a c s = Some s1 -> AttachValidFlag b c s1 = Some s2 -> kill a s2 = Some s3 ->
  cell s3 c = Some false /\ alive s3 b.
Proof.
  intros N H1 H2 K. destruct (attach_flag a c s s1 H1) as (_ & x & x1 & _ & O1 & Hc & _). destruct (attach_flag b c s1 s2 H2) as (_ & y & y1 & _ & P1 & _ & Q & _).
  assert (O2 : obj s2 a = Some x1) by (now rewrite Q). destruct (kill_flags a s2 s3 x1 O2 K) as (A & _ & _ & B). split; [now apply A|]. exists y1. now rewrite B by congruence.
Qed.

(* a flag which was destroyed without being detached *)
Theorem stale_flag o c s x : obj s o = Some x -> In c (o_flags x) -> cell s c = None -> kill o s = None.
Proof.
  intros O Hc C. unfold kill. rewrite O. cbn [bind]. assert (X : forall l s, In c l -> cell s c = None -> put_all l s = None).
  { clear. induction l as [|k l IH]; intros s H C; [destruct H|]. destruct H as [->|H]; cbn [put_all]; unfold put.
    - now rewrite C.
    - destruct (cell s k) as [b|] eqn:Ck; [|reflexivity]. cbn [bind]. apply IH; [assumption|]. unfold cell. cbn [cells]. rewrite get_other; [assumption|congruence]. }
  now rewrite (X _ s Hc C).
Qed.

(** Entities deleted behind their model's back *)

Lemma kill_dead o s s1 e : kill o s = Some s1 -> obj s e = None -> obj s1 e = None.
Proof.
  intros H E. destruct (obj s o) as [x|] eqn:O; [|unfold kill in H; rewrite O in H; discriminate]. destruct (kill_flags o s s1 x O H) as (_ & _ & _ & B). rewrite B; congruence.
Qed.
Lemma kill_all_dead l e : forall s, In e l -> obj s e = None -> kill_all l s = None.
Proof.
  induction l as [|o l IH]; intros s H E; [destruct H|]. cbn [kill_all]. destruct (kill o s) as [s1|] eqn:K; [|reflexivity]. cbn [bind].
  destruct H as [->|H]; [unfold kill in K; rewrite E in K; discriminate|]. apply IH; [assumption|]. eapply kill_dead; eauto.
Qed.
Lemma dangling_clear s m e : stores s m e -> ~ alive s e -> Clear m s = None /\ kill_model m s = None.
Proof.
  intros (x & O & Hx) Ha. assert (E : obj s e = None) by (destruct (obj s e) as [y|] eqn:Y; [elim Ha; exists y; exact Y|reflexivity]).
  split; [unfold Clear; rewrite O; cbn [bind]; now rewrite (kill_all_dead _ e s Hx E)|].
  unfold kill_model. rewrite O. cbn [bind]. destruct (put_all (o_flags x) s) as [a|] eqn:P; [|reflexivity]. cbn [bind]. pose proof (put_all_obj _ _ _ P) as Ob.
  unfold Clear, obj. rewrite Ob. fold (obj s m). rewrite O. cbn [bind]. rewrite (kill_all_dead _ e a Hx); [reflexivity|]. unfold obj. now rewrite Ob.
Qed.

Lemma dangling_handle s d m e : inv s -> attached s d = Some m -> stores s m e -> ~ alive s e -> ModelHandDestroy d s = None.
Proof.
  intros I A St Ha. unfold ModelHandDestroy. destruct (hnd s d) as [x|] eqn:H; [|unfold attached in A; rewrite H in A; discriminate]. cbn [bind].
  destruct (loose_ok s d x I H) as (s1 & E & [I1 F Sm] & _). rewrite E, A. cbn [bind].
  assert (S1 : stores s1 m e) by now apply (stored_same_stores (vcell d) s s1 m e F Sm).
  assert (A1 : ~ alive s1 e).
  { intros (y & Y). destruct St as (z & Oz & Hz). destruct (Nat.lt_ge_cases e (length (objs s))) as [Hl|Hl].
    - destruct (f_obj _ _ _ _ F e Hl) as [Q _]. rewrite Q in Y; [discriminate|]. destruct (obj s e) as [w|] eqn:W; [elim Ha; exists w; exact W|reflexivity].
    - assert (L : length (objs s1) = length (objs s)) by (destruct (loose_ok s d x I H) as (s2 & E2 & _ & _ & _ & L); congruence). apply obj_lt in Y. lia. }
  now rewrite (proj2 (dangling_clear s1 m e S1 A1)).
Qed.

Theorem delete_stored s h e m : reached s -> ehandle s h -> attached s h = Some e -> stores s m e ->
  exists s', HandDel h s = Some s' /\ attached s' h = None /\ ~ alive s' e /\ stores s' m e /\
    run (MClear m) s' = None /\ run (DeleteModel m) s' = None /\ (forall d, attached s' d = Some m -> run (DDestroy d) s' = None).
Proof.
  intros R (t & (x & H & T) & Nt) A St. pose proof (reached_books s R) as [I S]. unfold HandDel. rewrite H, A. cbn [bind].
  destruct (loose_ok s h x I H) as (s1 & E1 & [I1 F1 Sm1] & C1 & H1 & L1). rewrite E1. cbn [bind].
  destruct (type_kept (vcell h) none s s1 e (h_type x) F1 (attached_type s h x e I H A) (fun X => X)) as (y & Y & Ty).
  destruct (kill_inv s1 e y I1 Y) as (s2 & E2 & I2 & F2 & Sm2 & H2 & L2 & K2). rewrite E2. cbn [bind].
  assert (Hx : hnd s2 h = Some x) by (unfold hnd; now rewrite H2, H1).
  assert (G2 : good none (fun k => k = e) s1 s2) by now split.
  assert (C2 : cell s2 (valid_of h) = Some false) by (apply (stay_free none (fun k => k = e) s1 s2); auto).
  destruct (forget_ok s2 h x I2 Hx C2) as (s3 & E3 & [I3 F3 Sm3] & C3 & _ & _ & O3). exists s3. split; [exact E3|].
  assert (D : ~ alive s3 e).
  { intros (z & Z). unfold obj in Z. rewrite O3 in Z. fold (obj s2 e) in Z. destruct (f_obj _ _ _ _ F2 e (obj_lt _ _ _ Y)) as [_ Q]. destruct (Q y Y) as [Q1 _]. rewrite (Q1 eq_refl) in Z. discriminate. }
  assert (Hm : m <> e). { intros ->. destruct St as (z & Z & Hz). destruct S as [S _]. destruct (S e z Z) as [_ P]. destruct (P e Hz) as [Tz (t' & (w & W & Tw) & N')]. congruence. }
  assert (St1 : stores s1 m e) by now apply (stored_same_stores (vcell h) s s1 m e F1 Sm1).
  assert (St2 : stores s2 m e). { destruct St1 as (z & Z & Hz). exists z. rewrite K2; auto. }
  assert (St3 : stores s3 m e) by (destruct St2 as (z & Z & Hz); exists z; unfold obj; rewrite O3; auto).
  split; [rewrite attached_link; unfold link; now rewrite C3|]. split; [assumption|]. split; [assumption|].
  destruct (dangling_clear s3 m e St3 D) as [Q1 Q2]. split; [exact Q1|]. split; [exact Q2|]. intros d Ad. now apply (dangling_handle s3 d m e).
Qed.

(** [NewAPIEntity] *)

Definition grows (s s' : st) : Prop := forall m e, stores s m e -> stores s' m e.
Lemma grows_refl s : grows s s. Proof. intros m e H. exact H. Qed.
Lemma grows_trans a b c : grows a b -> grows b c -> grows a c. Proof. unfold grows. auto. Qed.
Lemma grows_objs s s' : objs s' = objs s -> grows s s'.
Proof. intros H m e (x & O & Hx). exists x. unfold obj in *. rewrite H. auto. Qed.
Lemma grows_set s o x y : obj s o = Some x -> (forall e, In e (o_ents x) -> In e (o_ents y)) -> grows s (set_obj o (Some y) s).
Proof.
  intros O H m e (z & Z & Hz). destruct (Nat.eq_dec o m) as [<-|N].
  - exists y. split; [unfold obj, set_obj; cbn [objs]; apply get_same, (obj_lt _ _ _ O)|]. apply H. congruence.
  - exists z. split; [|assumption]. unfold obj, set_obj. cbn [objs]. now rewrite get_other.
Qed.
Lemma grows_attach o c s s' : AttachValidFlag o c s = Some s' -> grows s s'.
Proof.
  unfold AttachValidFlag. destruct (obj s o) as [x|] eqn:O; [|discriminate]. cbn [bind]. destruct (put c true s) as [s1|] eqn:P; [|discriminate]. cbn [bind].
  pose proof (put_obj _ _ _ _ P) as Ob. assert (G : grows s s1) by now apply grows_objs.
  destruct (has c (o_flags x)); intros [= <-]; [assumption|]. apply (grows_trans s s1); [assumption|].
  apply (grows_set s1 o x); [unfold obj; now rewrite Ob|auto].
Qed.
Lemma grows_detach o c s s' : DetachValidFlag o c s = Some s' -> grows s s'.
Proof.
  unfold DetachValidFlag. destruct (obj s o) as [x|] eqn:O; [|discriminate]. cbn [bind]. destruct (has c (o_flags x)); [|intros [= <-]; apply grows_refl].
  destruct (put c false s) as [s1|] eqn:P; [|discriminate]. cbn [bind]. pose proof (put_obj _ _ _ _ P) as Ob. intros [= <-].
  apply (grows_trans s s1); [now apply grows_objs|]. apply (grows_set s1 o x); [unfold obj; now rewrite Ob|auto].
Qed.
Lemma grows_make t s : grows s (make t s).
Proof.
  intros m e (x & O & Hx). exists x. split; [|assumption]. rewrite make_obj. destruct (Nat.eqb_spec m (fresh s)) as [->|]; [|assumption].
  apply obj_lt in O. unfold fresh in O. lia.
Qed.
Lemma grows_new m t s s' : NewEntity m t s = Some s' -> grows s s'.
Proof.
  unfold NewEntity. destruct (obj s m) as [x|] eqn:O; [|discriminate]. cbn [bind]. intros [= <-]. apply (grows_trans s (make t s)); [apply grows_make|].
  apply (grows_set _ m x); [|intros e He; cbn [o_ents]; apply in_or_app; auto]. rewrite make_obj. destruct (Nat.eqb_spec m (fresh s)) as [->|]; [|assumption].
  apply obj_lt in O. unfold fresh in O. lia.
Qed.
Lemma grows_target h t s s' : set_target h t s = Some s' -> grows s s'.
Proof. unfold set_target. destruct (hnd s h); [|discriminate]. intros [= <-]. now apply grows_objs. Qed.
Lemma grows_parent h t s s' : set_parent h t s = Some s' -> grows s s'.
Proof. unfold set_parent. destruct (hnd s h); [|discriminate]. intros [= <-]. now apply grows_objs. Qed.
Lemma grows_attachop h e s b s' : Attach h e s = Some (b, s') -> grows s s'.
Proof.
  unfold Attach. destruct (hnd s h) as [x|]; [|discriminate]. destruct (obj s e) as [y|]; [|discriminate]. cbn [bind].
  destruct (negb _); [intros [= _ <-]; apply grows_refl|]. unfold loose.
  assert (X : forall s1, match attached s h with Some o => DetachValidFlag o (valid_of h) s | None => Some s end = Some s1 -> grows s s1).
  { intros s1. destruct (attached s h); [apply grows_detach|intros [= <-]; apply grows_refl]. }
  destruct (match attached s h with Some o => _ | None => _ end) as [s1|]; [|discriminate]. cbn [bind].
  destruct (set_target h (Some e) s1) as [s2|] eqn:E2; [|discriminate]. cbn [bind]. destruct (AttachValidFlag e (valid_of h) s2) as [s3|] eqn:E3; [|discriminate].
  cbn [bind]. intros [= _ <-]. apply (grows_trans s s1); [auto|]. apply (grows_trans s1 s2); [eapply grows_target; eauto|eapply grows_attach; eauto].
Qed.
Lemma grows_base t p s s' : base_new t p s = Some s' -> grows s s'.
Proof.
  unfold base_new. assert (B : grows s (blank t s)) by now apply grows_objs. destruct p as [m|]; [|intros [= <-]; assumption].
  destruct (set_parent _ _ _) as [s2|] eqn:E2; [|discriminate]. cbn [bind]. intros H. apply (grows_trans s (blank t s)); [assumption|].
  apply (grows_trans _ s2); [eapply grows_parent; eauto|eapply grows_attach; eauto].
Qed.
Lemma grows_hold h t p s s' : hold_new h t p s = Some s' -> grows s s'.
Proof.
  unfold hold_new. assert (X : forall s1, match p with Some m => NewEntity m t s | None => Some (make t s) end = Some s1 -> grows s s1).
  { intros s1. destruct p; [apply grows_new|intros [= <-]; apply grows_make]. }
  destruct (match p with Some m => _ | None => _ end) as [s1|]; [|discriminate]. cbn [bind].
  destruct (set_target _ _ _) as [s2|] eqn:E2; [|discriminate]. cbn [bind]. intros H. apply (grows_trans s s1); [auto|].
  apply (grows_trans s1 s2); [eapply grows_target; eauto|eapply grows_attach; eauto].
Qed.

Theorem api_two s d t m : reached s -> mhandle s d -> attached s d = Some m -> In t api_types ->
  exists s' h e e2, NewAPIEntity d t s = Some (true, s') /\ hnd s h = None /\ handle s' h t /\ attached s' h = Some e /\ parent s' h = Some m /\
    e <> e2 /\ ~ alive s e /\ ~ alive s e2 /\ stores s' m e /\ stores s' m e2 /\ of_type s' e t /\ of_type s' e2 t /\
    (forall k j, handle s' k j -> attached s' k <> Some e2).
Proof.
  intros R (x & H & T) A Ht. pose proof (reached_books s R) as [I S]. pose proof (api_minus t Ht) as Hn. apply api_zhas in Ht.
  destruct (attached_type s d x m I H A) as (y & Y & Ty). rewrite T in Ty.
  destruct (NewEntity_ok s m y t I S Y Ty Hn) as (s1 & E1 & I1 & S1 & F1 & O1 & En & H1 & C1 & L1).
  assert (K1 : kept none none s s1) by now split.
  assert (M1 : forall k, Some m = Some k -> model s1 k) by (intros k [= <-]; apply (type_kept none none s s1); auto; exists y; auto).
  set (h := length (hands s)).
  destruct (base_new_ok s1 t (Some m) I1 S1 Hn M1) as (s2 & E2 & K2 & (z & Hz & Tz) & Cv & Lp & N2 & Ob2). rewrite H1 in *. fold h in Hz, Cv, Lp, N2.
  assert (M2 : forall k, Some m = Some k -> model s2 k) by (intros k Ek; apply (type_kept none none s1 s2); [apply K2|now apply M1|intros []]).
  destruct (hold_new_ok s2 h z (Some m) (k_inv _ _ _ _ K2) (k_store _ _ _ _ K2) Hz) as (s3 & E3 & K3 & L3 & O3 & (z3 & Hz3 & Tz3) & N3 & P3 & _); [congruence|assumption|assumption|].
  assert (Fr : fresh s2 = Datatypes.S (fresh s)) by (unfold fresh; now rewrite Ob2, L1). rewrite Fr, Tz in *.
  assert (K12 : kept none none s s2) by (apply (kept_none none none none s s1 s2); auto; unfold none; tauto).
  assert (K13 : kept (vcell h) none s s3) by (apply (kept_none none (vcell h) (vcell h) s s2 s3); auto; unfold none; tauto).
  destruct (type_kept none none s1 s2 (fresh s) t (k_frame _ _ _ _ K2) O1 (fun X => X)) as (w2 & W2 & Tw2).
  destruct (type_kept (vcell h) none s2 s3 (fresh s) t (k_frame _ _ _ _ K3) (ex_intro _ w2 (conj W2 Tw2)) (fun X => X)) as (w & W & Tw).
  destruct (Attach_ok s3 h z3 (fresh s) w (k_inv _ _ _ _ K3) (k_store _ _ _ _ K3) Hz3 W) as (s4 & E4 & K4 & L4 & N4 & (z4 & Z4 & T4)).
  rewrite Tz3, Tw, Z.eqb_refl in *.
  assert (K14 : kept (vcell h) none s s4) by (apply (kept_none (vcell h) (vcell h) (vcell h) s s3 s4); auto; tauto).
  assert (NA : forall o, (fresh s <= o)%nat -> ~ alive s o) by (intros o Ho (q & Q); apply obj_lt in Q; unfold fresh in Ho; lia).
  exists s4, h, (fresh s), (Datatypes.S (fresh s)).
  split. { unfold NewAPIEntity, HandNew. rewrite H, A. cbn [bind]. rewrite E1. cbn [bind]. rewrite Ht, H1, E2. cbn [bind]. fold h. rewrite E3. cbn [bind]. exact E4. }
  split; [apply get_beyond, le_n|]. split; [exists z4; auto|]. split; [now rewrite attached_link|].
  split. { rewrite parent_link. apply (stay_link (vcell h) none s3 s4 _ _ K4); [apply K3|intros X; exact (vp _ _ (eq_sym X))|intros []|].
           apply (stay_link (vcell h) none s2 s3 _ _ K3); [apply K2|intros X; exact (vp _ _ (eq_sym X))|intros []|assumption]. }
  split; [lia|]. split; [apply NA; lia|]. split; [apply NA; lia|].
  assert (G34 : grows s3 s4) by (eapply grows_attachop; eauto).
  split. { apply G34. apply (grows_hold _ _ _ _ _ E3). apply (grows_base _ _ _ _ E2). apply stores_ents. rewrite En, Nat.eqb_refl. apply in_or_app. cbn. auto. }
  split; [apply G34, P3; reflexivity|]. split; [apply (type_kept (vcell h) none s3 s4); [apply K4|exists w; auto|intros []]|].
  split; [apply (type_kept (vcell h) none s3 s4); [apply K4|assumption|intros []]|].
  intros k j (q & Q & Tq) Ak. rewrite attached_link in Ak. destruct (Nat.eq_dec k h) as [->|Hk]; [rewrite L4 in Ak; injection Ak; lia|].
  assert (Hl : (k < length (hands s))%nat) by (apply hnd_lt in Q; rewrite N4, N3, N2 in Q; unfold h in *; lia).
  assert (HK : ~ vcell h (valid_of k)) by (unfold vcell, valid_of; lia).
  destruct (f_link _ _ _ _ (k_frame _ _ _ _ K14) (valid_of k) HK) as (_ & B1 & B2). { rewrite (i_len s I). unfold valid_of. lia. }
  destruct (link s (valid_of k)) as [o|] eqn:Lk; [|rewrite (B1 eq_refl) in Ak; discriminate].
  destruct (B2 o eq_refl) as [_ B3]. rewrite (B3 (fun X => X)) in Ak. injection Ak as ->. destruct (link_live s _ _ I Lk) as (q' & Q' & _). apply (NA (Datatypes.S (fresh s))); [lia|exists q'; assumption].
Qed.

Theorem api_refused s d t m : reached s -> mhandle s d -> attached s d = Some m -> ~ In t api_types ->
  exists s' e, NewAPIEntity d t s = Some (false, s') /\ ~ alive s e /\ ~ alive s' e /\ stores s' m e /\ attached s' d = Some m /\
    run (MClear m) s' = None /\ run (DeleteModel m) s' = None /\ run (DDestroy d) s' = None.
Proof.
  intros R (x & H & T) A Ht. pose proof (reached_books s R) as [I S]. assert (Hz : zhas t api_types = false) by (destruct (zhas t api_types) eqn:Z; [elim Ht; now apply api_zhas|reflexivity]).
  destruct (attached_type s d x m I H A) as (y & Y & Ty). unfold NewAPIEntity. rewrite H, A. cbn [bind]. unfold NewEntity. rewrite Y. cbn [bind]. rewrite Hz.
  destruct (make_inv s t I) as (I1 & F1 & Sm1). assert (Hm : Nat.eqb m (fresh s) = false) by (apply Nat.eqb_neq; pose proof (obj_lt _ _ _ Y); unfold fresh; lia).
  assert (Y1 : obj (make t s) m = Some y) by (now rewrite make_obj, Hm).
  assert (Of : obj (make t s) (fresh s) = Some (mkObj t [] [])) by (now rewrite make_obj, Nat.eqb_refl).
  destruct (ents_inv (make t s) m y (o_ents y ++ [fresh s]) I1 Y1) as (I2 & F2 & Ho). set (s2 := set_obj m _ (make t s)) in *.
  assert (Oe : obj s2 (fresh s) = Some (mkObj t [] [])) by (rewrite Ho, Hm; exact Of).
  destruct (kill_inv s2 (fresh s) _ I2 Oe) as (s3 & E3 & I3 & F3 & Sm3 & H3 & L3 & K3). rewrite E3. cbn [bind]. exists s3, (fresh s). split; [reflexivity|].
  apply Nat.eqb_neq in Hm.
  split; [intros (q & Q); apply obj_lt in Q; unfold fresh in Q; lia|].
  assert (D : ~ alive s3 (fresh s)).
  { intros (q & Q). destruct (f_obj _ _ _ _ F3 (fresh s) (obj_lt _ _ _ Oe)) as [_ W]. destruct (W _ Oe) as [W1 _]. rewrite (W1 eq_refl) in Q. discriminate. }
  split; [assumption|]. assert (St : stores s3 m (fresh s)).
  { exists (mkObj (o_type y) (o_flags y) (o_ents y ++ [fresh s])). split; [rewrite K3 by assumption; now rewrite Ho, Nat.eqb_refl|cbn [o_ents]; apply in_or_app; cbn; auto]. }
  split; [assumption|]. assert (Ad : attached s3 d = Some m).
  { rewrite attached_link in *. destruct (link_live s _ _ I A) as (q & Q & _ & _ & C). pose proof (cell_lt _ _ _ C) as Cl.
    destruct (f_link _ _ _ _ F1 (valid_of d) (fun X => X) Cl) as (_ & _ & B1). destruct (B1 m A) as [_ B1']. specialize (B1' (fun X => X)).
    destruct (f_link _ _ _ _ F2 (valid_of d) (fun X => X) Cl) as (_ & _ & B2). destruct (B2 m B1') as [_ B2']. specialize (B2' (fun X => X)).
    destruct (f_link _ _ _ _ F3 (valid_of d) (fun X => X) Cl) as (_ & _ & B3). destruct (B3 m B2') as [_ B3']. now apply B3'. }
  split; [assumption|]. destruct (dangling_clear s3 m (fresh s) St D) as [Q1 Q2]. split; [exact Q1|]. split; [exact Q2|]. now apply (dangling_handle s3 d m (fresh s)).
Qed.
