(** Careful programs keep the invariant; who owns an argument afterwards. *)

From Coq Require Import List Bool Arith Lia Permutation.
From Verif Require Import GhModel GhSpec GhTree GhInv GhOps GhStore GhFacts.
Import ListNotations.

Definition all_owned (F : forest) : Prop := forall t o, In (t, o) F -> o <> None.

Lemma all_owned_perm F F' : Permutation F F' -> all_owned F -> all_owned F'.
Proof. intros P A t o J. apply (A t o). now apply (Permutation_in _ (Permutation_sym P)). Qed.
Lemma all_owned_tl e F : all_owned (e :: F) -> all_owned F.
Proof. intros A t o J. apply (A t o). now right. Qed.
Lemma all_owned_mk t h F : all_owned F -> all_owned ((t, Some h) :: F).
Proof. intros A t' o [J|J]; [injection J as <- <-; discriminate|eauto]. Qed.

Lemma nobodys_tree s F p : Inv s F -> nobodys s p -> exists t, In (t, None) F /\ root t = p.
Proof.
  intros I (Lp & NH & NO). destruct (live_tree _ _ _ I Lp) as (t & o & J & Jp).
  assert (root t = p).
  { destruct (Nat.eq_dec (root t) p); [assumption|]. exfalso. apply NH. eapply in_held; [exact (i_repr _ _ I _ _ J)|exact Jp|congruence]. }
  subst p. exists t. split; [|reflexivity]. destruct o as [h|]; [|assumption]. exfalso. apply (NO h). eapply tree_owns; eassumption.
Qed.

Lemma detach_flag_comm p q g v s s1 : p <> q -> detach_flag q g s = Some s1 ->
  exists s2, detach_flag q g (set_obj p v s) = Some s2 /\ obj s2 p = v /\ (forall r, r <> p -> obj s2 r = obj s1 r) /\
    hs s2 = hs s1 /\ nxt s2 = nxt s1 /\ nxh s2 = nxh s1.
Proof.
  intros NE. unfold detach_flag. cbn [set_obj obj]. rewrite put_ne by congruence. destruct (obj s q) as [x|]; cbn [bind]; [|discriminate].
  destruct (has g (flags x)).
  - unfold write_flag. cbn [hs]. cbn [set_obj hs]. destruct (hs s g) as [y|]; cbn [bind]; [|discriminate]. intros E. injection E as <-.
    eexists. split; [reflexivity|]. cbn [set_obj set_hnd obj hs nxt nxh]. rewrite (put_ne _ q) by assumption. rewrite put_eq.
    split; [reflexivity|]. split; [|auto]. intros r N. unfold put. destruct (r =? q); [reflexivity|].
    destruct (Nat.eqb_spec r p); [contradiction|reflexivity].
  - intros E. injection E as <-. eexists. split; [reflexivity|]. cbn [set_obj obj hs nxt nxh]. rewrite put_eq.
    split; [reflexivity|]. split; [intros; now apply put_ne|auto].
Qed.

Lemma stored_held s p k q g : obj s p = Some (put_geo k q g) -> is_out g = true -> held s q.
Proof.
  intros E O. exists p. eexists. split; [exact E|]. destruct g; [discriminate|].
  destruct k; cbn [put_geo add_seg add_cut add_hole listed]; rewrite !in_app_iff; cbn [In]; auto 6.
Qed.

Lemma loose_nobodys s F t : Inv s F -> In (t, None) F -> nobodys s (root t).
Proof.
  intros I J. split; [|split].
  - destruct (root_obj _ _ _ _ I J) as (g & E & _). unfold live. congruence.
  - intros (r & Lr). destruct (lists_tree _ _ _ _ I Lr) as (t' & o' & J' & _ & Q & NE).
    destruct (same_entry s F t None t' o' (root t) I J J' (root_in t) Q) as [-> _]. congruence.
  - intros h O. destruct (owns_tree _ _ _ _ I O) as (t' & J' & E).
    destruct (same_entry s F t None t' (Some h) (root t) I J J'); [apply root_in|rewrite <- E; apply root_in|discriminate].
Qed.

Lemma add_any_ok w f s F h a : core_ok w f -> Inv s F -> outline_handle s h -> good_arg s h w a ->
  exists s' b F', add_any f h a s = Some (s', b) /\ Inv s' F' /\ (all_owned F -> all_owned F') /\ handed s s' h a b.
Proof.
  intros C I (x & Ex & Kx) G. unfold add_any. rewrite Ex. cbn [bind]. destruct (has_obj x) as [o|] eqn:V.
  2:{ exists s, false, F. split; [reflexivity|]. split; [assumption|]. split; [auto|]. split; [auto|].
      destruct a; [split; [discriminate|auto]|]. exact (proj1 G). }
  destruct (handle_tree _ _ _ _ _ I Ex V) as (t & F1 & P & Rt & Ex' & Fk).
  assert (Nt : is_node t = true) by (destruct (hk x), t; try discriminate; try reflexivity; congruence).
  assert (Vh : valid s h). { exists x. split; [assumption|]. rewrite Ex'. reflexivity. }
  assert (Oh : forall q, owns s h q -> q = root t).
  { intros q O. destruct O as (y & Ey & _ & Py). rewrite Ex in Ey. injection Ey as <-. rewrite Ex' in Py. cbn in Py. congruence. }
  subst o. destruct a as [g|p].
  - destruct G as [NE G].
    assert (Gy : exists y, hs s g = Some y /\ forall u, kfits (hk y) u = true -> is_node u = w).
    { destruct w; destruct G as (y & Ey & Ky); exists y; (split; [assumption|]).
      - intros u Fu. destruct (hk y), u; try discriminate; try reflexivity; congruence.
      - intros u Fu. rewrite Ky in Fu. destruct u; [reflexivity|discriminate]. }
    destruct Gy as (y & Ey & Ky). unfold get_raw. rewrite Ey. cbn [bind hp].
    set (s1 := set_hnd g (Some (mkHnd (hk y) (hv y) (has_obj y))) s).
    destruct (has_obj y) as [q|] eqn:Vy.
    + assert (I1 : Inv s1 F).
      { apply (Inv_hs s); try assumption; try reflexivity. intros k. unfold s1. cbn [set_hnd hs]. unfold put.
        destruct (Nat.eqb_spec k g) as [->|]; [|reflexivity]. rewrite Ey. f_equal. unfold has_obj in Vy.
        destruct (hv y) eqn:E; [|discriminate]. rewrite <- Vy. destruct y; cbn in *; congruence. }
      assert (Hs1 : forall k, hs s1 k = hs s k).
      { intros k. unfold s1. cbn [set_hnd hs]. unfold put.
        destruct (Nat.eqb_spec k g) as [->|]; [|reflexivity]. rewrite Ey. f_equal. unfold has_obj in Vy.
        destruct (hv y) eqn:E; [|discriminate]. rewrite <- Vy. destruct y; cbn in *; congruence. }
      apply (Inv_perm _ _ _ P) in I1. apply (Inv_perm _ _ _ P) in I.
      destruct (handle_tree _ _ _ _ _ I Ey Vy) as (ta & F' & P' & Ra & Ey' & Fa).
      assert (J : In (ta, Some g) F1).
      { assert (J : In (ta, Some g) ((t, Some h) :: F1)) by (apply (Permutation_in _ (Permutation_sym P')); now left).
        destruct J as [J|J]; [congruence|assumption]. }
      destruct (pick _ _ J) as (F2 & P2).
      assert (I2 : Inv s1 ((t, Some h) :: (ta, Some g) :: F2)) by (eapply Inv_perm; [apply perm_skip; exact P2|assumption]).
      clear P' F'. subst q.
      assert (Na : is_node ta = w) by auto.
      assert (AO : all_owned F -> all_owned F2).
      { intros A. apply (all_owned_perm _ _ P) in A. apply all_owned_tl in A. apply (all_owned_perm _ _ P2) in A. now apply all_owned_tl in A. }
      assert (Og : forall r, owns s g r -> r = root ta).
      { intros r (z & Ez & _ & Pz). rewrite Ey in Ez. injection Ez as <-. rewrite Ey' in Pz. cbn in Pz. congruence. }
      assert (Vg : valid s g). { exists y. split; [assumption|]. rewrite Ey'. reflexivity. }
      destruct (C _ _ _ _ _ _ I2 Nt Na) as (s2 & b & E & Out). rewrite E. cbn [bind].
      destruct Out as [t' ta' T Ta I3 H3|t' T I3 O3 H3|k s3 p b ss cs hh ta3 gg T Ta I3 H3 Sk Eg Es].
      * exists s2, false. eexists. split; [reflexivity|]. split; [exact I3|].
        split; [intros A; apply all_owned_mk, all_owned_mk; auto|]. split.
        -- intros r O. rewrite (Oh r O), (proj1 T). eapply tree_owns; [exact I3|now left].
        -- split; [discriminate|]. intros r O. rewrite (Og r O), (proj1 Ta). eapply tree_owns; [exact I3|right; now left].
      * assert (Hg : hs s2 g = Some (mkHnd (hk y) false (Some (root ta)))).
        { rewrite H3. unfold clr. cbn [own has]. rewrite Nat.eqb_refl. cbn [orb]. rewrite Hs1, Ey, Ey'. reflexivity. }
        unfold detach. rewrite Hg. cbn [bind has_obj hv hk].
        eexists _, true, _. split; [reflexivity|]. split; [eapply Inv_hnd; [exact I3|exact Hg|reflexivity|reflexivity]|].
        split; [intros A; apply all_owned_mk; auto|]. split.
        -- intros r O. rewrite (Oh r O), (proj1 T). destruct (tree_owns _ _ h t' I3) as (z & Ez & Vz & Pz); [now left|].
           exists z. cbn [set_hnd hs]. rewrite put_ne by congruence. auto.
        -- split; [auto|]. intros r O. rewrite (Og r O). split; [exists (hk y); apply put_eq|]. left. intros X. now apply X.
      * subst s2. pose proof (swap_inv _ _ _ _ I3) as I4. destruct (let_go _ _ _ _ I4) as (k' & sL & E1 & E2 & H5 & H6 & O6 & I5).
        rewrite <- (proj1 Ta) in *.
        assert (NEp : p <> root ta).
        { pose proof (i_dup _ _ I3) as D. rewrite !fids_cons in D. intros Epq. apply (NoDup_app_out _ _ p D); [now left|].
          rewrite Epq, (proj1 Ta). apply in_or_app; left. apply root_in. }
        destruct (detach_flag_comm p (root ta) g (Some (put_geo k (root ta) gg)) s3 sL NEp E2) as (s4 & E4 & O4 & O4' & H4 & N4 & Nh4).
        unfold detach. cbn [set_obj hs]. rewrite E1. cbn [bind has_obj hv hp hk]. fold (set_obj p (Some (put_geo k (root ta) gg)) s3).
        rewrite E4. cbn [bind].
        assert (I6 : Inv s4 ((put_tree k p b ss cs hh ta3, Some h) :: F2)).
        { apply (store_loose sL s4 k p b ss cs hh (Some h) ta3 F2 gg); try assumption.
          - now apply swap_inv.
          - eapply slot_same; eassumption.
          - rewrite O6 by assumption. assumption.
          - rewrite <- (proj1 Ta). assumption.
          - intros r. now rewrite H4. }
        eexists _, true, _. split; [reflexivity|].
        assert (Hg : hs s4 g = Some (mkHnd k' false (Some (root ta)))) by (rewrite H4; assumption).
        split; [eapply Inv_hnd; [exact I6|exact Hg|reflexivity|reflexivity]|].
        split; [intros A; apply all_owned_mk; auto|]. split.
        -- intros r O. rewrite (Oh r O). assert (Rp : root t = root (put_tree k p b ss cs hh ta3)) by (rewrite (proj1 T); destruct k; reflexivity).
           rewrite Rp. destruct (tree_owns _ _ h _ I6 (or_introl eq_refl)) as (z & Ez & Vz & Pz).
           exists z. cbn [set_hnd hs]. rewrite put_ne by congruence. auto.
        -- split; [auto|]. intros r O. rewrite (Og r O). split; [exists k'; apply put_eq|]. right.
           apply (stored_held _ p k _ gg); [exact O4|].
           destruct (root_obj s3 _ _ _ I3 (or_introl eq_refl)) as (g2 & Eg2 & Og2 & _). cbn [root is_node] in Eg2, Og2. congruence.
    + assert (I1 : Inv s1 F).
      { assert (E := handle_none _ _ _ _ I Ey Vy). apply (Inv_hnd s F g y); try assumption; reflexivity. }
      exists s1, false, F. split; [reflexivity|]. split; [assumption|]. split; [auto|]. split.
      * intros r (z & Ez & Vz & Pz). exists z. unfold s1. cbn [set_hnd hs]. rewrite put_ne; [auto|].
        intros ->. rewrite Ey in Ez. injection Ez as <-. unfold has_obj in Vy. rewrite Vz in Vy. congruence.
      * split; [discriminate|]. intros r (z & Ez & Vz & Pz). exfalso. rewrite Ey in Ez. injection Ez as <-.
        unfold has_obj in Vy. rewrite Vz in Vy. congruence.
  - destruct G as [NB (g & Eg & Og)]. destruct (nobodys_tree _ _ _ I NB) as (ta & J & Ra). subst p.
    apply (Permutation_in _ P) in J. destruct J as [J|J]; [discriminate|].
    apply (Inv_perm _ _ _ P) in I. destruct (pick _ _ J) as (F2 & P2).
    assert (I2 : Inv s ((t, Some h) :: (ta, None) :: F2)) by (eapply Inv_perm; [apply perm_skip; exact P2|assumption]).
    assert (Na : is_node ta = w).
    { destruct (root_obj s ta None _ I2) as (g2 & E2 & O2 & _); [right; now left|]. congruence. }
    assert (AO : ~ all_owned F).
    { intros A. apply (all_owned_perm _ _ P) in A. apply (A ta None); [now right|reflexivity]. }
    destruct (C _ _ _ _ _ _ I2 Nt Na) as (s2 & b & E & Out). rewrite E.
    destruct Out as [t' ta' T Ta I3 H3|t' T I3 O3 H3|k s3 p b ss cs hh ta3 gg T Ta I3 H3 Sk Eg' Es].
    + exists s2, false. eexists. split; [reflexivity|]. split; [exact I3|]. split; [intros A; contradiction|]. split.
      * intros r O. rewrite (Oh r O), (proj1 T). eapply tree_owns; [exact I3|now left].
      * rewrite (proj1 Ta). eapply loose_nobodys; [exact I3|right; now left].
    + exists s2, true. eexists. split; [reflexivity|]. split; [exact I3|]. split; [intros A; contradiction|]. split.
      * intros r O. rewrite (Oh r O), (proj1 T). eapply tree_owns; [exact I3|now left].
      * split; [assumption|]. left. intros X. now apply X.
    + subst s2. assert (I6 : Inv (set_obj p (Some (put_geo k (root ta) gg)) s3) ((put_tree k p b ss cs hh ta3, Some h) :: F2)).
      { apply (store_loose s3 _ k p b ss cs hh (Some h) ta3 F2 gg); try assumption; try reflexivity.
        - eapply slot_same; eassumption.
        - cbn [set_obj obj]. rewrite put_eq. now rewrite (proj1 Ta).
        - intros q NE. cbn [set_obj obj]. now apply put_ne. }
      eexists _, true, _. split; [reflexivity|]. split; [exact I6|]. split; [intros A; contradiction|]. split.
      * intros r O. rewrite (Oh r O). assert (Rp : root t = root (put_tree k p b ss cs hh ta3)) by (rewrite (proj1 T); destruct k; reflexivity).
        rewrite Rp. eapply tree_owns; [exact I6|now left].
      * split; [assumption|]. right. apply (stored_held _ p k _ gg); [apply put_eq|].
        destruct (root_obj s3 _ _ _ I3 (or_introl eq_refl)) as (g2 & Eg2 & Og2 & _). cbn [root is_node] in Eg2, Og2. congruence.
Qed.

(** [Attach] of an object nobody owns. *)
Lemma attach_ok s F h p : Inv s F -> hs s h <> None -> nobodys s p ->
  exists s' b F', attach h p s = Some (s', b) /\ Inv s' F' /\ (all_owned F -> all_owned F').
Proof.
  intros I Lh NB. destruct (hs s h) as [x|] eqn:E; [|congruence]. unfold attach. rewrite E. cbn [bind].
  destruct (has_obj x) as [q|] eqn:V; [exists s, false, F; auto|].
  assert (Vx := handle_none _ _ _ _ I E V).
  destruct (nobodys_tree _ _ _ I NB) as (t & J & <-). destruct (root_obj _ _ _ _ I J) as (g & Eg & Og & Gg).
  rewrite Eg. cbn [bind]. destruct (fits (hk x) g) eqn:Fi; [|exists s, false, F; auto].
  destruct (pick _ _ J) as (F1 & P). assert (I1 := Inv_perm _ _ _ P I).
  assert (Fg : flags g = []) by (destruct t; subst g; reflexivity).
  unfold attach_flag. cbn [set_hnd obj]. rewrite Eg. cbn [bind]. unfold write_flag. cbn [set_hnd hs]. rewrite put_eq.
  cbn [bind hk hp]. rewrite Fg. cbn [has app]. eexists _, true, ((t, Some h) :: F1). split; [reflexivity|].
  split; [|intros A; exfalso; now apply (A t None)].
  pose proof (i_dup _ _ I1) as D. rewrite fids_cons in D. assert (Dt := NoDup_app_l _ _ D).
  change ((t, Some h) :: F1) with ([(t, Some h)] ++ F1).
  apply (Inv_upd s _ [(t, None)] [(t, Some h)] F1 [h]); cbn [set_obj set_hnd hs obj nxt nxh]; try assumption.
  - now rewrite fids_cons, app_nil_r.
  - rewrite fids_cons, app_nil_r. intros r Q. now apply (NoDup_app_out _ _ r D).
  - intros r Q. apply put_ne. intros ->. now apply (NoDup_app_out _ _ _ D (root_in t)).
  - intros r Lr. rewrite fids_cons, app_nil_r. destruct (Nat.eq_dec r (root t)) as [->|NE]; [left; apply root_in|].
    rewrite put_ne in Lr by assumption. pose proof (i_live _ _ I1 r Lr) as X. rewrite fids_cons in X. now apply in_app_or.
  - lia.
  - rewrite fids_cons, app_nil_r. intros r Q. eapply Inv_in_below; [exact I1|now left|exact Q].
  - intros t' o' [X|[]]. injection X as <- <-. cbn [own]. apply (repr_flag _ _ []); [|assumption|assumption].
    apply (i_repr _ _ I1 t None). now left.
  - intros t' g' [X|[]]. injection X as <- <-. exists (hk x). rewrite put_eq. split; [reflexivity|].
    destruct (hk x), t; subst g; cbn in Fi |- *; auto.
  - intros g' NI. rewrite !put_ne; [reflexivity| |]; intros ->; apply NI; now left.
  - intros g' t' [<-|[]] X. destruct (i_hand _ _ I1 t' h) as (k & Ek & _); [now right|]. rewrite E in Ek. injection Ek as ->. discriminate.
  - intros g' z [<-|[]] _ _. exists t. now left.
  - intros g' t' NI [X|[]]. discriminate.
  - intros g' Lg. destruct (Nat.eq_dec g' h) as [->|NE]; [apply (i_nxh _ _ I1); rewrite E; discriminate|].
    rewrite !put_ne in Lg by assumption. now apply (i_nxh _ _ I1).
Qed.

Lemma exec_ok s F o : Inv s F -> careful s o ->
  exists s' b F', exec o s = Some (s', b) /\ Inv s' F' /\ (keeps_all o -> all_owned F -> all_owned F') /\
    (forall h a, adds o h a -> handed s s' h a b).
Proof.
  intros I K. destruct o as [k c|h|h|h|h|h p|h|h a yes|h a e|h a e|h a r|h a r]; cbn [exec careful keeps_all adds] in *.
  - destruct (make_ok s F k c I) as (s' & F' & E & I' & HF). exists s', true, F'. split; [assumption|]. split; [assumption|].
    split; [|tauto]. intros _ A. destruct HF as [->|(t & ->)]; [assumption|now apply all_owned_mk].
  - destruct (hs s h) as [x|] eqn:E; [|congruence]. destruct (destroy_ok s F h x I E) as (s' & F' & E' & I' & HF & _).
    exists s', true, F'. split; [assumption|]. split; [assumption|]. split; [|tauto]. intros _ A.
    destruct (has_obj x); [destruct HF as (t & P & _)|destruct HF as [-> _]; assumption].
    apply (all_owned_perm _ _ P) in A. now apply all_owned_tl in A.
  - destruct (hs s h) as [x|] eqn:E; [|congruence]. destruct (new_ok s F h x I E) as (s' & t & F' & E' & I' & HF).
    exists s', true, ((t, Some h) :: F'). split; [assumption|]. split; [assumption|]. split; [|tauto]. intros _ A. apply all_owned_mk.
    destruct (has_obj x); [destruct HF as (t0 & P & _)|subst F'; assumption].
    apply (all_owned_perm _ _ P) in A. now apply all_owned_tl in A.
  - destruct (hs s h) as [x|] eqn:E; [|congruence]. destruct (del_obj_ok s F h x I E) as (s' & b & F' & E' & I' & HF).
    exists s', b, F'. split; [assumption|]. split; [assumption|]. split; [|tauto]. intros _ A.
    destruct (has_obj x); [destruct HF as (t0 & P)|subst F'; assumption].
    apply (all_owned_perm _ _ P) in A. now apply all_owned_tl in A.
  - destruct (hs s h) as [x|] eqn:E; [|congruence]. destruct (detach_ok s F h x I E) as (s' & F' & E' & I' & HF).
    exists s', true, F'. split; [assumption|]. split; [assumption|]. split; [contradiction|tauto].
  - destruct K as [Lh NB]. destruct (attach_ok s F h p I Lh NB) as (s' & b & F' & E & I' & A).
    exists s', b, F'. split; [assumption|]. split; [assumption|]. split; [auto|tauto].
  - contradiction.
  - destruct K as [O G]. destruct (add_any_ok false _ s F h a (core_seg_ok yes) I O G) as (s' & b & F' & E & I' & A & H).
    exists s', b, F'. split; [assumption|]. split; [assumption|]. split; [auto|]. intros h' a' [<- <-]. assumption.
  - destruct K as [O G]. destruct (add_any_ok true _ s F h a (core_merge_ok e) I O G) as (s' & b & F' & E & I' & A & H).
    exists s', b, F'. split; [assumption|]. split; [assumption|]. split; [auto|]. intros h' a' [<- <-]. assumption.
  - destruct K as [O G]. destruct (add_any_ok false _ s F h a (core_mergec_ok e) I O G) as (s' & b & F' & E & I' & A & H).
    exists s', b, F'. split; [assumption|]. split; [assumption|]. split; [auto|]. intros h' a' [<- <-]. assumption.
  - destruct K as [O G]. destruct (add_any_ok true _ s F h a (core_cut_ok r) I O G) as (s' & b & F' & E & I' & A & H).
    exists s', b, F'. split; [assumption|]. split; [assumption|]. split; [auto|]. intros h' a' [<- <-]. assumption.
  - destruct K as [O G]. destruct (add_any_ok false _ s F h a (core_drill_ok r) I O G) as (s' & b & F' & E & I' & A & H).
    exists s', b, F'. split; [assumption|]. split; [assumption|]. split; [auto|]. intros h' a' [<- <-]. assumption.
Qed.

Lemma run_ok l : forall s F, Inv s F -> careful_run l s ->
  exists s' F', run l s = Some s' /\ Inv s' F' /\ (Forall keeps_all l -> all_owned F -> all_owned F').
Proof.
  induction l as [|o r IH]; intros s F I K; cbn [run careful_run] in *.
  - exists s, F. auto.
  - destruct K as [K1 K2]. destruct (exec_ok s F o I K1) as (s1 & b & F1 & E & I1 & A1 & _). rewrite E. cbn [bind].
    destruct (IH s1 F1 I1 (K2 _ _ E)) as (s' & F' & E' & I' & A'). exists s', F'. split; [assumption|]. split; [assumption|].
    intros Fa A. apply Forall_cons_iff in Fa as [Fa1 Fa2]. auto.
Qed.

(** ** The claims *)

Lemma reached_inv s : reached s -> exists F, Inv s F.
Proof.
  intros (l & K & E). destruct (run_ok l empty [] empty_inv K) as (s' & F & E' & I & _). rewrite E in E'. injection E' as <-. eauto.
Qed.

Lemma careful_safe l : careful_run l empty -> exists s, run l empty = Some s /\ sound s.
Proof. intros K. destruct (run_ok l empty [] empty_inv K) as (s & F & E & I & _). exists s. split; [assumption|]. eapply inv_sound; eassumption. Qed.

Lemma every_object_owned s p : reached s -> live s p -> exists r, inside s r p /\ (nobodys s r \/ exists h, owns s h r).
Proof.
  intros R Lp. destruct (reached_inv _ R) as (F & I). destruct (live_tree _ _ _ I Lp) as (t & o & J & Jp). exists (root t).
  split; [eapply in_inside; [exact (i_repr _ _ I _ _ J)|assumption]|].
  destruct o as [h|]; [right; exists h; eapply tree_owns; eassumption|left; eapply loose_nobodys; eassumption].
Qed.

Lemma nothing_leaks l s p : careful_run l empty -> Forall keeps_all l -> run l empty = Some s -> live s p ->
  exists h r, owns s h r /\ inside s r p.
Proof.
  intros K A E Lp. destruct (run_ok l empty [] empty_inv K) as (s' & F & E' & I & A'). rewrite E in E'. injection E' as <-.
  assert (AO : all_owned F) by (apply A'; [assumption|intros ? ? []]).
  destruct (live_tree _ _ _ I Lp) as (t & o & J & Jp). destruct o as [h|]; [|exfalso; now apply (AO t None)].
  exists h, (root t). split; [eapply tree_owns; eassumption|eapply in_inside; [exact (i_repr _ _ I _ _ J)|assumption]].
Qed.

Lemma destroy_exactly s h p : reached s -> owns s h p -> exists s', exec (Destroy h) s = Some (s', true) /\
  (forall q, inside s p q -> ~ live s' q) /\ (forall q, ~ inside s p q -> obj s' q = obj s q) /\
  (forall g, hs s' g = if g =? h then None else hs s g).
Proof.
  intros R O. destruct (reached_inv _ R) as (F & I). pose proof O as (x & E & V & P).
  destruct (destroy_ok s F h x I E) as (s' & F' & E' & I' & HF & HH). exists s'. split; [assumption|].
  unfold has_obj in HF. rewrite V, P in HF. destruct HF as (t & Pm & <- & Ob).
  assert (J : In (t, Some h) F) by (apply (Permutation_in _ (Permutation_sym Pm)); now left).
  assert (Rt := i_repr _ _ I _ _ J). assert (Dt := Inv_NoDup _ _ _ _ I J).
  split; [|split; [|assumption]].
  - intros q X L'. apply L'. rewrite Ob. rewrite (proj2 (has_in _ _)); [reflexivity|]. eapply inside_in; [exact X|exact Rt|exact Dt|reflexivity].
  - intros q X. rewrite Ob. destruct (has q (ids t)) eqn:Y; [|reflexivity]. exfalso. apply X. apply has_in in Y.
    eapply in_inside; eassumption.
Qed.

Lemma handed_over s o h a : reached s -> careful s o -> adds o h a ->
  exists s' b, exec o s = Some (s', b) /\ handed s s' h a b.
Proof.
  intros R K A. destruct (reached_inv _ R) as (F & I). destruct (exec_ok s F o I K) as (s' & b & F' & E & _ & _ & H). exists s', b. auto.
Qed.

Lemma inside_ids s F t h q : Inv s F -> In (t, Some h) F -> (inside s (root t) q <-> In q (ids t)).
Proof.
  intros I J. assert (Rt := i_repr _ _ I _ _ J). assert (Dt := Inv_NoDup _ _ _ _ I J). split; intros X.
  - eapply inside_in; [exact X|exact Rt|exact Dt|reflexivity].
  - eapply in_inside; eassumption.
Qed.

Lemma new_exactly s h p : reached s -> owns s h p -> exists s' r g, exec (New h) s = Some (s', true) /\
  ~ live s r /\ owns s' h r /\ obj s' r = Some g /\ listed g = [] /\ (forall q, inside s p q -> ~ live s' q) /\
  (forall q, ~ inside s p q -> q <> r -> obj s' q = obj s q) /\ (forall k, k <> h -> hs s' k = hs s k).
Proof.
  intros R O. destruct (reached_inv _ R) as (F & I). pose proof O as (x & E & V & P). cbn [exec]. unfold new_obj. rewrite E. cbn [bind].
  assert (Ho : has_obj x = Some p) by (unfold has_obj; now rewrite V).
  rewrite Ho. destruct (handle_tree _ _ _ _ _ I E Ho) as (t & F' & Pm & <- & Ex & _).
  assert (J : In (t, Some h) F) by (apply (Permutation_in _ (Permutation_sym Pm)); now left).
  assert (IN := inside_ids s F t h).
  assert (Bl : forall q, In q (ids t) -> q < nxt s) by (intros q Q; eapply Inv_in_below; eassumption).
  assert (Lb : forall q, live s q -> q < nxt s).
  { intros q Lq. destruct (live_tree _ _ _ I Lq) as (t' & o' & J' & Q). eapply Inv_in_below; eassumption. }
  pose proof (Inv_perm _ _ _ Pm I) as I'. destruct (del_tree _ _ _ _ I') as (s1 & E1 & (W1 & W2 & W3 & _) & _). rewrite E1. cbn [bind].
  unfold attach_flag. cbn [alloc set_hnd obj nxt hs]. rewrite put_eq. cbn [bind]. unfold write_flag. cbn [alloc set_hnd hs]. rewrite put_eq.
  cbn [bind hk hp]. rewrite fresh_flags. cbn [has app].
  exists (set_obj (nxt s1) (Some (with_flags [h] (fresh (hk x))))
     (set_hnd h (Some (mkHnd (hk x) true (Some (nxt s1)))) (alloc (fresh (hk x)) (set_hnd h (Some (mkHnd (hk x) false (Some (nxt s1)))) s1)))),
    (nxt s1), (with_flags [h] (fresh (hk x))).
  split; [reflexivity|]. rewrite W3. cbn [set_obj set_hnd alloc obj hs nxt].
  split; [intros L'; apply Lb in L'; lia|].
  split; [eexists; cbn [set_obj set_hnd alloc hs]; rewrite put_eq; auto|]. split; [apply put_eq|]. split; [destruct (hk x); reflexivity|].
  split; [|split].
  - intros q X L'. apply IN in X; [|assumption..]. pose proof (Bl q X) as BX. apply L'. cbn [set_obj set_hnd alloc obj nxt]. rewrite !put_ne by lia.
    rewrite W1. now rewrite (proj2 (has_in _ _)).
  - intros q X NE. rewrite ?W3. rewrite !put_ne by assumption. rewrite W1. destruct (has q (ids t)) eqn:Y; [|reflexivity].
    exfalso. apply X. apply IN; [assumption..|]. now apply has_in.
  - intros k NE. rewrite !put_ne by assumption. rewrite W2. unfold clr. cbn [own has]. destruct (Nat.eqb_spec k h); [contradiction|reflexivity].
Qed.

Lemma del_exactly s h p : reached s -> owns s h p -> exists s' k, exec (Del h) s = Some (s', true) /\
  hs s' h = Some (mkHnd k false None) /\ (forall q, inside s p q -> ~ live s' q) /\
  (forall q, ~ inside s p q -> obj s' q = obj s q) /\ (forall g, g <> h -> hs s' g = hs s g).
Proof.
  intros R O. destruct (reached_inv _ R) as (F & I). pose proof O as (x & E & V & P). cbn [exec]. unfold del_obj. rewrite E. cbn [bind].
  assert (Ho : has_obj x = Some p) by (unfold has_obj; now rewrite V).
  rewrite Ho. destruct (handle_tree _ _ _ _ _ I E Ho) as (t & F' & Pm & <- & Ex & _).
  assert (J : In (t, Some h) F) by (apply (Permutation_in _ (Permutation_sym Pm)); now left).
  assert (IN := inside_ids s F t h).
  pose proof (Inv_perm _ _ _ Pm I) as I'. destruct (let_go _ _ _ _ I') as (k & s1 & _ & E1 & H1 & H2 & H3 & I1). rewrite E1. cbn [bind].
  destruct (del_tree _ _ _ _ I1) as (s2 & E2 & (W1 & W2 & _) & _). rewrite E2. cbn [bind].
  cbn [own] in W2. unfold clr in W2. cbn in W2. rewrite W2, H1. cbn [bind hk hv].
  eexists _, k. split; [reflexivity|]. cbn [set_hnd hs obj]. split; [apply put_eq|]. split; [|split].
  - intros q X L'. apply IN in X; [|assumption..]. apply L'. cbn [set_hnd obj]. rewrite W1. now rewrite (proj2 (has_in _ _)).
  - intros q X. rewrite W1. destruct (has q (ids t)) eqn:Y.
    + exfalso. apply X. apply IN; [assumption..|]. now apply has_in.
    + apply H3. intros ->. assert (Z := root_in t). apply has_in in Z. congruence.
  - intros g NE. rewrite put_ne by assumption. rewrite W2. now apply H2.
Qed.

Lemma detach_exactly s h p : reached s -> owns s h p -> exists s' k, exec (Detach h) s = Some (s', true) /\
  hs s' h = Some (mkHnd k false None) /\ nobodys s' p /\ (forall q, q <> p -> obj s' q = obj s q) /\
  (forall q, lists s' p q <-> lists s p q) /\ (forall g, g <> h -> hs s' g = hs s g).
Proof.
  intros R O. destruct (reached_inv _ R) as (F & I). pose proof O as (x & E & V & P). cbn [exec]. unfold detach. rewrite E. cbn [bind].
  assert (Ho : has_obj x = Some p) by (unfold has_obj; now rewrite V).
  rewrite Ho. destruct (handle_tree _ _ _ _ _ I E Ho) as (t & F' & Pm & <- & Ex & _).
  pose proof (Inv_perm _ _ _ Pm I) as I'. destruct (let_go _ _ _ _ I') as (k & s1 & _ & E1 & H1 & H2 & H3 & I1). rewrite E1. cbn [bind].
  assert (I2 : Inv (set_hnd h (Some (mkHnd (hk x) false None)) s1) ((t, None) :: F')) by (eapply Inv_hnd; [exact I1|exact H1|reflexivity|reflexivity]).
  eexists _, (hk x). split; [reflexivity|]. cbn [set_hnd hs obj]. split; [apply put_eq|].
  split; [eapply loose_nobodys; [exact I2|now left]|]. split; [assumption|]. split.
  - destruct (root_obj _ t _ _ I' (or_introl eq_refl)) as (g & Eg & _ & Gg).
    destruct (root_obj _ t _ _ I2 (or_introl eq_refl)) as (g2 & Eg2 & _ & Gg2). cbn [set_hnd obj] in Eg2.
    assert (EL : listed g2 = listed g) by (destruct t; subst; reflexivity).
    intros q. unfold lists. cbn [set_hnd obj]. rewrite Eg, Eg2.
    split; intros (y & Ey & Q); injection Ey as <-; eexists; (split; [reflexivity|]); congruence.
  - intros g NE. rewrite put_ne by assumption. now apply H2.
Qed.
