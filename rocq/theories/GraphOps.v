(* The setters keep the books. *)
From Coq Require Import List Bool ZArith Lia ZifyBool ZifyNat.
From Verif Require Import GraphModel GraphSpec GraphFacts.
Import ListNotations.
Open Scope Z_scope.

Lemma tgt_nil n : tgt n = [] -> ptrs (n_des n) = [] /\ n_extras n = [] /\ ptrs (n_slots n) = []
  /\ n_items n = [] /\ edge_curves (n_edges n) = [] /\ map fst (n_verts n) = [].
Proof.
  unfold tgt. intros H. repeat (apply app_eq_nil in H; destruct H as [? H]). repeat split; auto.
Qed.

Lemma shape_des f e n l : shape f e n -> length l = 7%nat -> (n_null n = true -> ptrs l = []) ->
  (n_type n = 124 -> forall k, k <> 4%nat -> nth k l None = None) -> ~ In e (ptrs l) ->
  (forall x k, nth 4 l None = Some x -> f x = Some k -> k = (124, false)) ->
  shape f e (w_des l n).
Proof.
  intros [a1 a2 a3 a4 a5 a6 a7 a8 a9 a10 a11 a12 a13 a14 a15 a16] Hl Hn H1 Hs H4. split; auto.
  - intros N. cbn [n_null w_des] in N. destruct (a2 N) as [B1 B2].
    destruct (tgt_nil _ B1) as (b1&b2&b3&b4&b5&b6). split; [|exact B2].
    unfold tgt. cbn [n_des n_extras n_slots n_items n_edges n_verts w_des].
    rewrite Hn, b2, b3, b4, b5, b6; auto.
  - intros N. destruct (a7 N). split; auto.
  - destruct a8 as [_ B]. split; auto.
Qed.

Lemma shape_slots f e n l : shape f e n -> n_null n = false ->
  length l = length (n_slots n) -> shape f e (w_slots l n).
Proof.
  intros [a1 a2 a3 a4 a5 a6 a7 a8 a9 a10 a11 a12 a13 a14 a15 a16] Hn Hl. split; auto.
  - cbn [n_null w_slots]. congruence.
  - intros N. cbn [n_slots n_type w_slots]. rewrite Hl. now apply a5.
Qed.

Lemma shape_items f e n l : shape f e n -> n_null n = false ->
  (~ In (n_type n) item_kinds -> l = []) ->
  (n_type n = 102 -> forall x k, In x l -> f x = Some k ->
     snd k = false /\ In (fst k) [100; 104; 110; 126]) ->
  shape f e (w_items l n).
Proof.
  intros [a1 a2 a3 a4 a5 a6 a7 a8 a9 a10 a11 a12 a13 a14 a15 a16] Hn Hl H102. split; auto.
  cbn [n_null w_items]. congruence.
Qed.

Lemma shape_extras f e n l : shape f e n -> n_null n = false -> (n_type n = 124 -> l = []) ->
  ~ In e l -> (forall x k, In x l -> f x = Some k -> k = (406, false)) ->
  shape f e (w_extras l n).
Proof.
  intros [a1 a2 a3 a4 a5 a6 a7 a8 a9 a10 a11 a12 a13 a14 a15 a16] Hn H1 Hs Ht. split; auto.
  - cbn [n_null w_extras]. congruence.
  - intros N. destruct (a7 N). split; auto.
  - destruct a8 as [B _]. split; auto.
Qed.

Lemma cnt_tgt_des l n b : (cnt (tgt (w_des l n)) b + cnt (ptrs (n_des n)) b
  = cnt (tgt n) b + cnt (ptrs l) b)%nat.
Proof. unfold tgt. cbn [n_des n_extras n_slots n_items n_edges n_verts w_des]. rewrite !cnt_app. lia. Qed.
Lemma cnt_tgt_slots l n b : (cnt (tgt (w_slots l n)) b + cnt (ptrs (n_slots n)) b
  = cnt (tgt n) b + cnt (ptrs l) b)%nat.
Proof. unfold tgt. cbn [n_des n_extras n_slots n_items n_edges n_verts w_slots]. rewrite !cnt_app. lia. Qed.
Lemma cnt_tgt_items l n b : (cnt (tgt (w_items l n)) b + cnt (n_items n) b
  = cnt (tgt n) b + cnt l b)%nat.
Proof. unfold tgt. cbn [n_des n_extras n_slots n_items n_edges n_verts w_items]. rewrite !cnt_app. lia. Qed.
Lemma cnt_tgt_extras l n b : (cnt (tgt (w_extras l n)) b + cnt (n_extras n) b
  = cnt (tgt n) b + cnt l b)%nat.
Proof. unfold tgt. cbn [n_des n_extras n_slots n_items n_edges n_verts w_extras]. rewrite !cnt_app. lia. Qed.
Lemma cnt_tgt_edges l n b : (cnt (tgt (w_edges l n)) b + cnt (edge_curves (n_edges n)) b
  = cnt (tgt n) b + cnt (edge_curves l) b)%nat.
Proof. unfold tgt. cbn [n_des n_extras n_slots n_items n_edges n_verts w_edges]. rewrite !cnt_app. lia. Qed.
Lemma cnt_tgt_verts l n b : (cnt (tgt (w_verts l n)) b + cnt (map fst (n_verts n)) b
  = cnt (tgt n) b + cnt (map fst l) b)%nat.
Proof. unfold tgt. cbn [n_des n_extras n_slots n_items n_edges n_verts w_verts]. rewrite !cnt_app. lia. Qed.
Lemma cnt_tgt_parts n b : (cnt (ptrs (n_des n)) b <= cnt (tgt n) b /\ cnt (n_extras n) b <= cnt (tgt n) b
  /\ cnt (ptrs (n_slots n)) b <= cnt (tgt n) b /\ cnt (n_items n) b <= cnt (tgt n) b
  /\ cnt (edge_curves (n_edges n)) b <= cnt (tgt n) b /\ cnt (map fst (n_verts n)) b <= cnt (tgt n) b)%nat.
Proof. unfold tgt. rewrite !cnt_app. lia. Qed.
Lemma in_tgt_des x n : In x (ptrs (n_des n)) -> In x (tgt n).
Proof. unfold tgt. intros. apply in_or_app. auto. Qed.
Lemma in_tgt_slots x n : In x (ptrs (n_slots n)) -> In x (tgt n).
Proof. unfold tgt. intros. rewrite !in_app_iff. auto. Qed.
Lemma in_tgt_items x n : In x (n_items n) -> In x (tgt n).
Proof. unfold tgt. intros. rewrite !in_app_iff. auto. Qed.
Lemma in_tgt_extras x n : In x (n_extras n) -> In x (tgt n).
Proof. unfold tgt. intros. rewrite !in_app_iff. auto. Qed.
Lemma in_tgt_curves x n : In x (edge_curves (n_edges n)) -> In x (tgt n).
Proof. unfold tgt. intros. rewrite !in_app_iff. auto 7. Qed.
Lemma in_tgt_verts x n : In x (map fst (n_verts n)) -> In x (tgt n).
Proof. unfold tgt. intros. rewrite !in_app_iff. auto 7. Qed.

Lemma not_null_tgt g e n x : ginv zero g -> look g e = Some n -> In x (tgt n) -> n_null n = false.
Proof.
  intros G E H. destruct (n_null n) eqn:N; [|reflexivity].
  destruct (sh_null _ _ _ (g_shape _ _ G _ _ E) N) as [H0 _]. rewrite H0 in H. destruct H.
Qed.

(* A reference of e to x is dropped: x forgets e, then e forgets x by `upd`. *)
Lemma drop_ok g e n x (upd : node -> node) :
  ginv zero g -> look g e = Some n -> In x (tgt n) ->
  (forall v p, upd (w_refs v p) = w_refs v (upd p)) ->
  like n (upd n) -> n_refs (upd n) = n_refs n -> n_edges (upd n) = n_edges n -> n_verts (upd n) = n_verts n ->
  shape (ty g) e (upd n) ->
  (forall b, cnt (tgt (upd n)) b = (cnt (tgt n) b - if Nat.eqb x b then 1 else 0)%nat) ->
  exists m g1 n1, look g x = Some m /\ delReference g x e = Some (true, g1) /\
    look g1 e = Some n1 /\ n1 = (if Nat.eqb x e then w_refs (rem1 e (n_refs n)) n else n) /\
    ginv zero (put g1 e (upd n1)) /\ frame g (put g1 e (upd n1)).
Proof.
  intros G E Hin Hu K Hr He Hv Sh Ht.
  destruct (link_listed _ _ _ _ G E Hin) as (m & F & Hm).
  destruct (delReference_ok zero g x e m G F Hm) as [H1 G1].
  set (g1 := put g x (w_refs (rem1 e (n_refs m)) m)) in *.
  assert (Tys : forall i, ty g1 i = ty g i).
  { apply ty_put with (n := m); [exact F|now split]. }
  assert (Fr1 : frame g g1).
  { apply (frame_put g x m); auto. now split. }
  destruct (Nat.eqb x e) eqn:X.
  - apply Nat.eqb_eq in X; subst x. rewrite E in F. injection F as <-.
    assert (E1 : look g1 e = Some (w_refs (rem1 e (n_refs n)) n)) by apply look_put_eq.
    exists n, g1, (w_refs (rem1 e (n_refs n)) n).
    split; [exact E|]. split; [exact H1|]. split; [exact E1|]. split; [reflexivity|].
    rewrite Hu. split.
    + eapply (ginv_shrink _ zero g1 e _ _ e G1); [reflexivity| |exact E1| | | |].
      * rewrite tgt_refs. exact Hin.
      * destruct K. now split.
      * apply (shape_ext (ty g)); [intros; now rewrite Tys|]. apply shape_refs; [|exact Sh].
        intros N. destruct K as [_ K]. rewrite K in N.
        rewrite (not_null_tgt _ _ _ _ G E Hin) in N. discriminate.
      * reflexivity.
      * intros b. rewrite !tgt_refs. apply Ht.
    + eapply frame_trans; [exact Fr1|]. eapply frame_put; [exact E1| | |].
      * destruct K; now split.
      * exact He.
      * exact Hv.
  - apply Nat.eqb_neq in X.
    assert (E1 : look g1 e = Some n) by (unfold g1; rewrite look_put_ne by auto; exact E).
    exists m, g1, n.
    split; [exact F|]. split; [exact H1|]. split; [exact E1|]. split; [reflexivity|]. split.
    + eapply (ginv_shrink _ zero g1 e _ _ x G1); [reflexivity|exact Hin|exact E1|exact K| |exact Hr|exact Ht].
      apply (shape_ext (ty g)); [intros; now rewrite Tys|exact Sh].
    + eapply frame_trans; [exact Fr1|]. eapply frame_put; eauto.
Qed.

Lemma set_none_des f e n k : shape f e n -> (k < 7)%nat -> shape f e (w_des (set_nth k None (n_des n)) n).
Proof.
  intros Sh Hk. pose proof (sh_len _ _ _ Sh) as Hl.
  assert (Sub : forall x, In x (ptrs (set_nth k None (n_des n))) -> In x (ptrs (n_des n))).
  { intros x H. apply cnt_in in H. apply cnt_in.
    pose proof (cnt_set_nth k None (n_des n) x ltac:(lia)). cbn [cnto] in *. lia. }
  apply shape_des; auto.
  - now rewrite set_nth_length.
  - intros N. destruct (sh_null _ _ _ Sh N) as [B _]. destruct (tgt_nil _ B) as [B0 _].
    destruct (ptrs (set_nth k None (n_des n))) as [|y l] eqn:Q; [reflexivity|].
    assert (H : In y (ptrs (n_des n))) by (apply Sub; now left). rewrite B0 in H. destruct H.
  - intros N j Hj. rewrite nth_set_nth by lia. destruct (Nat.eqb j k); [reflexivity|].
    now apply (sh_124 _ _ _ Sh N).
  - intros H. apply Sub in H. exact (proj1 (sh_self _ _ _ Sh) H).
  - intros x q H. rewrite nth_set_nth in H by lia. destruct (Nat.eqb 4 k); [discriminate|].
    now apply (sh_des4 _ _ _ Sh).
Qed.

Lemma drop_de_ok g e k n : ginv zero g -> look g e = Some n -> (k < 7)%nat ->
  exists g1 n1, drop_de g e k = Some g1 /\ ginv zero g1 /\ frame g g1 /\
    look g1 e = Some n1 /\ nth k (n_des n1) None = None /\ like n n1 /\ n_form n1 = n_form n.
Proof.
  intros G E Hk. unfold drop_de. rewrite E.
  destruct (nth k (n_des n) None) as [x|] eqn:X.
  - pose proof (g_shape _ _ G _ _ E) as Sh. pose proof (sh_len _ _ _ Sh) as Hl.
    destruct (drop_ok g e n x (fun p => w_des (set_nth k None (n_des p)) p) G E) as
      (m & g1 & n1 & F & H1 & E1 & En & G1 & Fr); try reflexivity.
    + apply in_tgt_des. now apply nth_ptrs in X.
    + now split.
    + now apply set_none_des.
    + intros b. pose proof (cnt_tgt_des (set_nth k None (n_des n)) n b).
      pose proof (cnt_set_nth k None (n_des n) b ltac:(lia)) as Q. rewrite X in Q. cbn [cnto] in Q.
      pose proof (cnt_tgt_parts n b). lia.
    + rewrite H1, E1. eexists _, _. split; [reflexivity|]. split; [exact G1|]. split; [exact Fr|].
      split; [apply look_put_eq|]. cbn [n_des w_des].
      subst n1. split; [|destruct (Nat.eqb x e); split; try reflexivity; now split].
      destruct (Nat.eqb x e); cbn [n_des w_refs]; rewrite nth_set_nth by lia; now rewrite Nat.eqb_refl.
  - exists g, n. repeat (split; [first [reflexivity|assumption|apply frame_refl]|]).
    split; [now split|reflexivity].
Qed.

(* Putting a pointer in place after the reference has been added. *)
Lemma set_des_after g g2 e c n m k :
  ginv zero g -> look g e = Some n -> look g c = Some m -> c <> e ->
  n_null n = false -> n_null m = false -> (k < 7)%nat -> nth k (n_des n) None = None ->
  (n_type n = 124 -> k = 4%nat) -> (k = 4%nat -> n_type m = 124) ->
  ~ In e (n_refs m) -> g2 = put g c (w_refs (n_refs m ++ [e]) m) ->
  look g2 e = Some n /\ ginv zero (put g2 e (w_des (set_nth k (Some c) (n_des n)) n)) /\
  frame g (put g2 e (w_des (set_nth k (Some c) (n_des n)) n)).
Proof.
  intros G E F Hc Hn Hm Hk Hnone H124 H4 Hnot ->.
  pose proof (g_shape _ _ G _ _ E) as Sh. pose proof (sh_len _ _ _ Sh) as Hl.
  pose proof (added_ok zero g c e m G F Hm Hnot) as G1.
  set (g1 := put g c (w_refs (n_refs m ++ [e]) m)) in *.
  assert (E1 : look g1 e = Some n) by (unfold g1; rewrite look_put_ne by auto; exact E).
  assert (Tys : forall i, ty g1 i = ty g i) by (apply ty_put with (n := m); [exact F|now split]).
  split; [exact E1|]. split.
  - eapply (ginv_grow _ zero g1 e n _ c G1); [reflexivity|unfold zero; lia|exact E1|now split| |reflexivity|].
    + apply (shape_ext (ty g)); [intros; now rewrite Tys|].
      apply shape_des; auto.
      * now rewrite set_nth_length.
      * congruence.
      * intros N j Hj. rewrite nth_set_nth by lia. pose proof (H124 N).
        destruct (Nat.eqb j k) eqn:Ej; [apply Nat.eqb_eq in Ej; lia|]. now apply (sh_124 _ _ _ Sh N).
      * intros H. apply cnt_in in H. pose proof (cnt_set_nth k (Some c) (n_des n) e ltac:(lia)) as Q.
        cbn [cnto] in Q. apply Nat.eqb_neq in Hc. rewrite Hc in Q.
        destruct (sh_self _ _ _ Sh) as [Hs _]. apply cnt_notin in Hs. lia.
      * intros x q Hx Hq. rewrite nth_set_nth in Hx by lia.
        destruct (Nat.eqb 4 k) eqn:E4; [|now apply (sh_des4 _ _ _ Sh x)].
        injection Hx as <-. unfold ty in Hq. rewrite F in Hq. cbn in Hq.
        apply Nat.eqb_eq in E4. rewrite H4, Hm in Hq by auto. congruence.
    + intros b. pose proof (cnt_tgt_des (set_nth k (Some c) (n_des n)) n b).
      pose proof (cnt_set_nth k (Some c) (n_des n) b ltac:(lia)) as Q. rewrite Hnone in Q. cbn [cnto] in Q.
      pose proof (cnt_tgt_parts n b). lia.
  - eapply frame_trans.
    + exact (frame_put g c m (w_refs (n_refs m ++ [e]) m) F (conj eq_refl eq_refl) eq_refl eq_refl).
    + eapply frame_put; [exact E1|now split|reflexivity|reflexivity].
Qed.

Lemma base_set_de_ok g e k x n :
  ginv zero g -> look g e = Some n -> n_null n = false -> setter n k = Basic -> (0 < k < 7)%nat -> k <> 4%nat ->
  (forall c, x = Some c -> live g c) ->
  exists b h, base_set_de g e k x = Some (b, h) /\ ginv zero h /\ frame g h.
Proof.
  intros G E Hn Hb Hk Hk4 Hx. unfold base_set_de.
  destruct (drop_de_ok g e k n G E ltac:(lia)) as (g1 & n1 & H1 & G1 & Fr1 & E1 & Nn & [L1 L2] & L3).
  rewrite H1. destruct x as [c|]; [|exists true, g1; auto].
  destruct (frame_live _ _ _ Fr1 (Hx c eq_refl)) as [m F]. rewrite F.
  destruct (de_type_ok k m) eqn:Ok; [|exists false, g1; auto].
  assert (Basic124 : n_type n1 <> 124).
  { rewrite L1. intros N. unfold setter in Hb. rewrite Hn, N in Hb. cbn in Hb.
    apply Nat.eqb_neq in Hk4. rewrite Hk4 in Hb. discriminate. }
  assert (Hce : c <> e).
  { intros ->. rewrite E1 in F. injection F as <-. unfold de_type_ok in Ok. unfold setter in Hb.
    rewrite Hn in Hb. rewrite <- L1 in Hb.
    pose proof (g_shape _ _ G1 _ _ E1) as Sh.
    destruct k as [|[|[|[|[|[|[|k]]]]]]]; try lia.
    - apply Z.eqb_eq in Ok. pose proof (sh_known _ _ _ Sh ltac:(congruence)) as Kn. rewrite Ok in Kn.
      clear - Kn. cbv in Kn. intuition discriminate.
    - apply andb_prop in Ok. destruct Ok as [O1 O2]. apply Z.eqb_eq in O1. apply Z.eqb_eq in O2.
      rewrite (sh_form _ _ _ Sh O1 ltac:(congruence)) in O2. discriminate.
    - apply andb_prop in Ok. destruct Ok as [O1 O2]. apply Z.eqb_eq in O1.
      pose proof (sh_known _ _ _ Sh ltac:(congruence)) as Kn. rewrite O1 in Kn.
      clear - Kn. cbv in Kn. intuition discriminate.
    - apply Z.eqb_eq in Ok. rewrite Ok in Hb. discriminate. }
  destruct (addReference_cases g1 c e m n1 F E1) as [H|[H|(H & Hf & Hr & He)]]; rewrite H.
  - exists false, g1; auto.
  - exists false, g1; auto.
  - destruct (set_des_after g1 _ e c n1 m k G1 E1 F Hce ltac:(congruence) (forbids_null _ _ _ _ Hf)
      ltac:(lia) Nn ltac:(intros; contradiction) ltac:(intros; contradiction) Hr eq_refl) as (E2 & G2 & Fr2).
    rewrite E2.
    edestruct (adopt_ok zero _ e c G2) as (h & Ha & Gh & Fh).
    { exists (w_des (set_nth k (Some c) (n_des n1)) n1). apply look_put_eq. }
    { eapply frame_live; [exact Fr2|]. now exists m. }
    rewrite Ha. exists true, h. split; [reflexivity|]. split; [exact Gh|].
    eapply frame_trans; [exact Fr1|]. eapply frame_trans; eauto.
Qed.

Lemma same_frame g h : same g h -> g_next h = g_next g -> g_ents h = g_ents g -> frame g h.
Proof.
  intros A B C. split; auto.
  - intros i n H. exists n. rewrite A. repeat split; auto.
  - intros i H. now rewrite A.
  - intros [P Q]. split; rewrite C; [exact P|]. intros e H. destruct (Q e H) as [n Hn].
    exists n. now rewrite A.
Qed.

Lemma put_swap g c a e b : c <> e -> same (put (put g c a) e b) (put (put g e b) c a).
Proof.
  intros H i. rewrite !look_put. destruct (Nat.eqb i c) eqn:X, (Nat.eqb i e) eqn:Y; auto.
  apply Nat.eqb_eq in X. apply Nat.eqb_eq in Y. congruence.
Qed.

Lemma w_des_back l k c n : nth k (n_des n) None = None -> l = set_nth k (Some c) (n_des n) ->
  w_des (set_nth k None l) (w_des l n) = n.
Proof. intros H ->. rewrite set_nth_back by exact H. destruct n; reflexivity. Qed.
Lemma w_slots_back l k c n : nth k (n_slots n) None = None -> l = set_nth k (Some c) (n_slots n) ->
  w_slots (set_nth k None l) (w_slots l n) = n.
Proof. intros H ->. rewrite set_nth_back by exact H. destruct n; reflexivity. Qed.

Lemma put_back g e n m : look g e = Some n -> same g (put (put g e m) e n).
Proof.
  intros E i. rewrite !look_put. destruct (Nat.eqb i e) eqn:X; [|reflexivity].
  apply Nat.eqb_eq in X; now subst.
Qed.

Lemma mem_set_nth k c l : (k < length l)%nat -> mem c (ptrs (set_nth k (Some c) l)) = true.
Proof.
  intros H. apply mem_in. apply cnt_in. pose proof (cnt_set_nth k (Some c) l c H) as Q.
  cbn [cnto] in Q. rewrite Nat.eqb_refl in Q.
  assert (cnto (nth k l None) c <= cnt (ptrs l) c)%nat; [|lia].
  destruct (nth k l None) as [y|] eqn:Y; cbn [cnto]; [|lia].
  destruct (Nat.eqb y c) eqn:Z0; [|lia]. apply Nat.eqb_eq in Z0; subst.
  apply nth_ptrs in Y. apply cnt_in in Y. lia.
Qed.

Lemma forbids_des n c p t : mem p (ptrs (n_des n)) = true -> forbids n c p t = true.
Proof. unfold forbids. intros ->. now rewrite !orb_true_r. Qed.

Lemma base_set_transform_ok g e x n :
  ginv zero g -> look g e = Some n -> n_null n = false -> (forall c, x = Some c -> live g c) ->
  exists b h, base_set_transform g e x = Some (b, h) /\ ginv zero h /\ frame g h.
Proof.
  intros G E Hn Hx. unfold base_set_transform.
  destruct (drop_de_ok g e 4 n G E ltac:(lia)) as (g1 & n1 & H1 & G1 & Fr1 & E1 & Nn & [L1 L2] & L3).
  rewrite H1. destruct x as [c|]; [|exists true, g1; auto].
  destruct (frame_live _ _ _ Fr1 (Hx c eq_refl)) as [m F]. rewrite F, E1.
  destruct (de_type_ok 4 m) eqn:Ok; [|exists false, g1; auto].
  pose proof (sh_len _ _ _ (g_shape _ _ G1 _ _ E1)) as Hl.
  set (n1' := w_des (set_nth 4 (Some c) (n_des n1)) n1).
  assert (Back : exists b h,
     match look (put g1 e n1') e with
     | Some n2 => Some (false, put (put g1 e n1') e (w_des (set_nth 4 None (n_des n2)) n2))
     | None => None end = Some (b, h) /\ ginv zero h /\ frame g h).
  { rewrite look_put_eq. exists false. eexists. split; [reflexivity|].
    unfold n1'. cbn [n_des w_des]. rewrite (w_des_back _ 4 c n1 Nn eq_refl).
    pose proof (put_back g1 e n1 (w_des (set_nth 4 (Some c) (n_des n1)) n1) E1) as S.
    split; [now apply (same_ginv zero g1)|]. eapply frame_trans; [exact Fr1|]. now apply same_frame. }
  destruct (Nat.eq_dec c e) as [->|Hce].
  - unfold addReference. rewrite look_put_eq.
    rewrite forbids_des; [exact Back|]. unfold n1'; cbn [n_des w_des]. apply mem_set_nth. lia.
  - assert (F' : look (put g1 e n1') c = Some m) by (rewrite look_put_ne by auto; exact F).
    destruct (addReference_cases (put g1 e n1') c e m n1' F' (look_put_eq _ _ _)) as [H|[H|(H & Hf & Hr & He)]];
      rewrite H; [exact Back|exact Back|].
    apply andb_prop in Ok. destruct Ok as [O1 O2]. apply Z.eqb_eq in O1.
    destruct (set_des_after g1 _ e c n1 m 4 G1 E1 F Hce ltac:(congruence) (forbids_null _ _ _ _ Hf)
      ltac:(lia) Nn ltac:(auto) ltac:(auto) Hr eq_refl) as (E2 & G2 & Fr2).
    pose proof (put_swap g1 c (w_refs (n_refs m ++ [e]) m) e n1' Hce) as Sw.
    assert (G3 : ginv zero (put (put g1 e n1') c (w_refs (n_refs m ++ [e]) m))).
    { eapply same_ginv; [exact Sw|reflexivity|exact G2]. }
    assert (Fr3 : frame g1 (put (put g1 e n1') c (w_refs (n_refs m ++ [e]) m))).
    { eapply frame_trans; [exact Fr2|]. now apply same_frame. }
    edestruct (adopt_ok zero _ e c G3) as (h & Ha & Gh & Fh).
    { eapply frame_live; [exact Fr3|]. now exists n1. }
    { eapply frame_live; [exact Fr3|]. now exists m. }
    rewrite Ha. exists true, h. split; [reflexivity|]. split; [exact Gh|].
    eapply frame_trans; [exact Fr1|]. eapply frame_trans; eauto.
Qed.

Definition fine (g : graph) (r : option (bool * graph)) : Prop :=
  exists b h, r = Some (b, h) /\ ginv zero h /\ frame g h.

Lemma fine_id g b : ginv zero g -> fine g (Some (b, g)).
Proof. intros G. exists b, g. split; [reflexivity|]. split; [exact G|apply frame_refl]. Qed.

Lemma setter_basic n k : setter n k = Basic -> n_null n = false.
Proof. unfold setter. destruct (n_null n); [discriminate|reflexivity]. Qed.

Lemma SetDe_ok g e k x : ginv zero g -> live g e -> (forall c, x = Some c -> live g c) ->
  fine g (SetDe g e k x).
Proof.
  intros G [n E] Hx. unfold SetDe. rewrite E.
  assert (Hk : k = O \/ k = 4%nat \/ (0 < k < 7 /\ k <> 4)%nat \/ (7 <= k)%nat) by lia.
  destruct Hk as [->|[->|[[Hk Hk4]|Hk]]].
  - now apply fine_id.
  - destruct (setter n 4) eqn:S; try now apply fine_id.
    apply base_set_transform_ok with (n := n); auto. eapply setter_basic; eauto.
  - destruct k as [|[|[|[|[|k]]]]]; try lia;
      (match goal with |- context[setter ?p ?q] => destruct (setter p q) eqn:S end;
       try now apply fine_id);
      (eapply base_set_de_ok; eauto; try lia; eapply setter_basic; eauto).
  - destruct k as [|[|[|[|[|k]]]]]; try lia.
    destruct (setter n _) eqn:S; try now apply fine_id.
    unfold base_set_de, drop_de. rewrite E.
    rewrite nth_overflow by (rewrite (sh_len _ _ _ (g_shape _ _ G _ _ E)); lia).
    destruct x as [c|]; [|now apply fine_id].
    destruct (Hx c eq_refl) as [m F]. rewrite F. unfold de_type_ok.
    destruct k as [|[|k]]; try lia. now apply fine_id.
Qed.

Lemma SetDeNum_ok g e k v : ginv zero g -> live g e -> fine g (SetDeNum g e k v).
Proof.
  intros G [n E]. unfold SetDeNum. rewrite E.
  destruct (mem k [1; 2; 6]%nat) eqn:M; [|now apply fine_id].
  destruct (setter n k) eqn:S; try now apply fine_id.
  assert (Hk : (k < 7)%nat) by (apply mem_in in M; cbn in M; lia).
  destruct (drop_de_ok g e k n G E Hk) as (g1 & n1 & H1 & G1 & Fr1 & _).
  rewrite H1. exists v, g1. auto.
Qed.

Lemma AddOptional_ok g e x n m : ginv zero g -> look g e = Some n -> n_null n = false ->
  n_type n <> 124 -> e <> x -> look g x = Some m -> n_type m <> 402 ->
  fine g (AddOptional g e x).
Proof.
  intros G E Hn Ht Hex F Hm. unfold AddOptional. rewrite E, F.
  destruct (zmem (n_type m) [402; 406; 212; 312]) eqn:Z1; [|now apply fine_id].
  assert (Hm' : (n_type m =? 402) = false) by now apply Z.eqb_neq. rewrite Hm'.
  destruct (addReference_cases g x e m n F E) as [H|[H|(H & Hf & Hr & He)]]; rewrite H;
    try now apply fine_id.
  assert (Hmn := forbids_null _ _ _ _ Hf).
  pose proof (added_ok zero g x e m G F Hmn Hr) as G1.
  set (g1 := put g x (w_refs (n_refs m ++ [e]) m)) in *.
  assert (E1 : look g1 e = Some n) by (unfold g1; rewrite look_put_ne by auto; exact E).
  assert (Tys : forall i, ty g1 i = ty g i) by (apply ty_put with (n := m); [exact F|now split]).
  rewrite E1.
  pose proof (g_shape _ _ G _ _ E) as Sh.
  assert (G2 : ginv zero (put g1 e (w_extras (n_extras n ++ [x]) n))).
  { eapply (ginv_grow _ zero g1 e n _ x G1); [reflexivity|unfold zero; lia|exact E1|now split| |reflexivity|].
    - apply (shape_ext (ty g)); [intros; now rewrite Tys|].
      apply shape_extras; auto.
      + intros; contradiction.
      + rewrite in_app_iff. intros [H2|[H2|[]]]; [|congruence]. exact (proj2 (sh_self _ _ _ Sh) H2).
      + intros y k Hy Hk. apply in_app_or in Hy. destruct Hy as [Hy|[<-|[]]].
        * now apply (sh_extras _ _ _ Sh y).
        * unfold ty in Hk. rewrite F in Hk. cbn in Hk. injection Hk as <-. f_equal; [|exact Hmn].
          pose proof (sh_known _ _ _ (g_shape _ _ G _ _ F) Hmn) as Kn.
          apply zmem_in in Z1. cbn [In] in Z1.
          destruct Z1 as [Q|[Q|[Q|[Q|[]]]]]; [congruence|now rewrite Q| |];
            rewrite <- Q in Kn; clear - Kn; cbv in Kn; intuition discriminate.
    - intros b. pose proof (cnt_tgt_extras (n_extras n ++ [x]) n b) as Q.
      rewrite cnt_app, cnt_cons, cnt_nil in Q. lia. }
  assert (Fr2 : frame g (put g1 e (w_extras (n_extras n ++ [x]) n))).
  { eapply frame_trans.
    - exact (frame_put g x m (w_refs (n_refs m ++ [e]) m) F (conj eq_refl eq_refl) eq_refl eq_refl).
    - eapply frame_put; [exact E1|now split|reflexivity|reflexivity]. }
  edestruct (adopt_ok zero _ e x G2) as (h & Ha & Gh & Fh).
  { eapply frame_live; [exact Fr2|]. now exists n. }
  { eapply frame_live; [exact Fr2|]. now exists m. }
  rewrite Ha. exists true, h. split; [reflexivity|]. split; [exact Gh|]. eapply frame_trans; eauto.
Qed.

Lemma DelOptional_ok g e x : ginv zero g -> live g e ->
  (exists m, look g x = Some m /\ ~ In (n_type m) [402; 212; 312]) -> fine g (DelOptional g e x).
Proof.
  intros G [n E] (m & F & H). unfold DelOptional. rewrite E, F.
  destruct (zmem (n_type m) [402; 212; 312]) eqn:Z1; [|now apply fine_id].
  apply zmem_in in Z1. contradiction.
Qed.

Lemma drop_slot_ok g e k n : ginv zero g -> look g e = Some n -> (k < length (n_slots n))%nat ->
  exists g1 n1, drop_slot g e k = Some g1 /\ ginv zero g1 /\ frame g g1 /\
    look g1 e = Some n1 /\ nth k (n_slots n1) None = None /\ like n n1 /\
    length (n_slots n1) = length (n_slots n).
Proof.
  intros G E Hk. unfold drop_slot. rewrite E.
  destruct (nth k (n_slots n) None) as [x|] eqn:X.
  - pose proof (g_shape _ _ G _ _ E) as Sh.
    assert (Hin : In x (tgt n)) by (apply in_tgt_slots; now apply nth_ptrs in X).
    destruct (drop_ok g e n x (fun p => w_slots (set_nth k None (n_slots p)) p) G E) as
      (m & g1 & n1 & F & H1 & E1 & En & G1 & Fr); try reflexivity.
    + exact Hin.
    + now split.
    + apply shape_slots; [exact Sh| |now rewrite set_nth_length]. eapply not_null_tgt; eauto.
    + intros b. pose proof (cnt_tgt_slots (set_nth k None (n_slots n)) n b).
      pose proof (cnt_set_nth k None (n_slots n) b Hk) as Q. rewrite X in Q. cbn [cnto] in Q.
      pose proof (cnt_tgt_parts n b). lia.
    + rewrite H1, E1. eexists _, _. split; [reflexivity|]. split; [exact G1|]. split; [exact Fr|].
      split; [apply look_put_eq|]. cbn [n_slots w_slots]. rewrite set_nth_length.
      subst n1. split; [|destruct (Nat.eqb x e); split; try reflexivity; now split].
      destruct (Nat.eqb x e); cbn [n_slots w_refs]; rewrite nth_set_nth by lia; now rewrite Nat.eqb_refl.
  - exists g, n. repeat (split; [first [reflexivity|assumption|apply frame_refl|now split]|]). reflexivity.
Qed.

Lemma set_slot_after g g2 e c n m k :
  ginv zero g -> look g e = Some n -> look g c = Some m -> c <> e ->
  n_null n = false -> n_null m = false -> (k < length (n_slots n))%nat -> nth k (n_slots n) None = None ->
  ~ In e (n_refs m) -> g2 = put g c (w_refs (n_refs m ++ [e]) m) ->
  look g2 e = Some n /\ ginv zero (put g2 e (w_slots (set_nth k (Some c) (n_slots n)) n)) /\
  frame g (put g2 e (w_slots (set_nth k (Some c) (n_slots n)) n)).
Proof.
  intros G E F Hc Hn Hm Hk Hnone Hnot ->.
  pose proof (g_shape _ _ G _ _ E) as Sh.
  pose proof (added_ok zero g c e m G F Hm Hnot) as G1.
  set (g1 := put g c (w_refs (n_refs m ++ [e]) m)) in *.
  assert (E1 : look g1 e = Some n) by (unfold g1; rewrite look_put_ne by auto; exact E).
  assert (Tys : forall i, ty g1 i = ty g i) by (apply ty_put with (n := m); [exact F|now split]).
  split; [exact E1|]. split.
  - eapply (ginv_grow _ zero g1 e n _ c G1); [reflexivity|unfold zero; lia|exact E1|now split| |reflexivity|].
    + apply (shape_ext (ty g)); [intros; now rewrite Tys|].
      apply shape_slots; auto. now rewrite set_nth_length.
    + intros b. pose proof (cnt_tgt_slots (set_nth k (Some c) (n_slots n)) n b).
      pose proof (cnt_set_nth k (Some c) (n_slots n) b Hk) as Q. rewrite Hnone in Q. cbn [cnto] in Q.
      pose proof (cnt_tgt_parts n b). lia.
  - eapply frame_trans.
    + exact (frame_put g c m (w_refs (n_refs m ++ [e]) m) F (conj eq_refl eq_refl) eq_refl eq_refl).
    + eapply frame_put; [exact E1|now split|reflexivity|reflexivity].
Qed.

Lemma fine_settle g h e x dep : ginv zero h -> frame g h -> live g e -> live g x -> fine g (settle h e x dep).
Proof.
  intros G F Le Lx. destruct (settle_ok zero h e x dep G (frame_live _ _ _ F Le) (frame_live _ _ _ F Lx)) as (k & H1 & H2 & H3).
  exists true, k. split; [exact H1|]. split; [exact H2|]. eapply frame_trans; eauto.
Qed.

Lemma slot_after_ok g e k x n m dep :
  ginv zero g -> look g e = Some n -> n_null n = false -> (k < length (n_slots n))%nat ->
  look g x = Some m -> n_type m <> n_type n -> fine g (slot_after g e k x dep).
Proof.
  intros G E Hn Hk F Ht. unfold slot_after.
  destruct (drop_slot_ok g e k n G E Hk) as (g1 & n1 & H1 & G1 & Fr1 & E1 & Nn & [L1 L2] & L3).
  rewrite H1. destruct (f_some _ _ Fr1 _ _ F) as (m1 & F1 & [L4 L5] & _ & _).
  assert (Hxe : x <> e) by (intros ->; congruence).
  destruct (addReference_cases g1 x e m1 n1 F1 E1) as [H|[H|(H & Hf & Hr & He)]]; rewrite H.
  - exists false, g1; auto.
  - exists false, g1; auto.
  - destruct (set_slot_after g1 _ e x n1 m1 k G1 E1 F1 Hxe ltac:(congruence) (forbids_null _ _ _ _ Hf)
      ltac:(lia) Nn Hr eq_refl) as (E2 & G2 & Fr2).
    rewrite E2. apply (fine_settle g _ e x dep G2); [|now exists n|now exists m].
    eapply frame_trans; eauto.
Qed.

Lemma forbids_slots n c p t : zmem (n_type n) [122; 142; 144; 164; 308; 408] = true ->
  mem p (ptrs (n_slots n)) = true -> forbids n c p t = true.
Proof.
  unfold forbids. intros A H. rewrite A. assert (M : mem p (ptrs (n_slots n) ++ n_items n) = true).
  { apply mem_in. apply in_or_app. left. now apply mem_in. }
  rewrite M. now rewrite !orb_true_r.
Qed.

Lemma slot_before_ok g e k x n ok dep :
  ginv zero g -> look g e = Some n -> n_null n = false -> (k < length (n_slots n))%nat ->
  zmem (n_type n) [122; 142; 144; 164; 308; 408] = true ->
  (forall c, x = Some c -> live g c) -> fine g (slot_before g e k x ok dep).
Proof.
  intros G E Hn Hk Hz Hx. unfold slot_before.
  destruct (drop_slot_ok g e k n G E Hk) as (g1 & n1 & H1 & G1 & Fr1 & E1 & Nn & [L1 L2] & L3).
  rewrite H1. destruct x as [c|]; [|exists true, g1; auto].
  destruct ok; [|exists false, g1; auto]. rewrite E1.
  destruct (frame_live _ _ _ Fr1 (Hx c eq_refl)) as [m F].
  set (n1' := w_slots (set_nth k (Some c) (n_slots n1)) n1).
  assert (Back : fine g
     match look (put g1 e n1') e with
     | Some n2 => Some (false, put (put g1 e n1') e (w_slots (set_nth k None (n_slots n2)) n2))
     | None => None end).
  { rewrite look_put_eq. exists false. eexists. split; [reflexivity|].
    unfold n1'. cbn [n_slots w_slots]. rewrite (w_slots_back _ k c n1 Nn eq_refl).
    pose proof (put_back g1 e n1 (w_slots (set_nth k (Some c) (n_slots n1)) n1) E1) as S.
    split; [now apply (same_ginv zero g1)|]. eapply frame_trans; [exact Fr1|]. now apply same_frame. }
  destruct (Nat.eq_dec c e) as [->|Hce].
  - unfold addReference. rewrite look_put_eq.
    rewrite forbids_slots; [exact Back| |].
    + unfold n1'; cbn [n_type w_slots]. now rewrite L1.
    + unfold n1'; cbn [n_slots w_slots]. apply mem_set_nth. lia.
  - assert (F' : look (put g1 e n1') c = Some m) by (rewrite look_put_ne by auto; exact F).
    destruct (addReference_cases (put g1 e n1') c e m n1' F' (look_put_eq _ _ _)) as [H|[H|(H & Hf & Hr & He)]];
      rewrite H; [exact Back|exact Back|].
    destruct (set_slot_after g1 _ e c n1 m k G1 E1 F Hce ltac:(congruence) (forbids_null _ _ _ _ Hf)
      ltac:(lia) Nn Hr eq_refl) as (E2 & G2 & Fr2).
    pose proof (put_swap g1 c (w_refs (n_refs m ++ [e]) m) e n1' Hce) as Sw.
    apply (fine_settle g).
    + eapply same_ginv; [exact Sw|reflexivity|exact G2].
    + eapply frame_trans; [exact Fr1|]. eapply frame_trans; [exact Fr2|]. now apply same_frame.
    + now exists n.
    + apply (Hx c eq_refl).
Qed.

Ltac blanks H := pose proof H as ?; unfold blank_slots in H; rewrite ?H in *.

Lemma slot_room g e n t : ginv zero g -> look g e = Some n -> n_null n = false -> n_type n = t ->
  length (n_slots n) = length (blank_slots t).
Proof. intros G E Hn <-. now apply (sh_slots _ _ _ (g_shape _ _ G _ _ E)). Qed.

Lemma is_curve_type n : is_curve n = true -> In (n_type n) [100; 102; 104; 110; 126].
Proof. unfold is_curve. intros H. apply andb_prop in H. destruct H as [_ H]. now apply zmem_in in H. Qed.

Lemma SetSlot_ok g e k x c : ginv zero g -> live g e -> (forall y, x = Some y -> live g y) ->
  (x = None -> ~ kind g e 122) -> fine g (SetSlot g e k x c).
Proof.
  intros G [n E] Hx H122. unfold SetSlot. rewrite E.
  destruct x as [y|].
  - destruct (Hx y eq_refl) as [m F]. rewrite F.
    destruct (n_null n) eqn:Hn; [now apply fine_id|].
    destruct (n_type n =? 120) eqn:T120.
    { apply Z.eqb_eq in T120. pose proof (slot_room _ _ _ _ G E Hn T120) as Len. cbn in Len.
      destruct (is_curve m) eqn:C; [|now apply fine_id].
      assert (n_type m <> n_type n).
      { apply is_curve_type in C. rewrite T120. intros Q. rewrite Q in C. clear - C. cbv in C. intuition discriminate. }
      destruct k as [|[|k]]; [destruct (n_type m =? 110)| |]; try (now apply fine_id);
        eapply slot_after_ok; eauto; lia. }
    destruct (n_type n =? 122) eqn:T122.
    { apply Z.eqb_eq in T122. pose proof (slot_room _ _ _ _ G E Hn T122) as Len. cbn in Len.
      destruct (is_curve m && Nat.eqb k 0) eqn:C; [|now apply fine_id].
      apply andb_prop in C. destruct C as [C _].
      assert (n_type m <> n_type n).
      { apply is_curve_type in C. rewrite T122. intros Q. rewrite Q in C. clear - C. cbv in C. intuition discriminate. }
      eapply slot_after_ok; eauto; lia. }
    destruct (n_type n =? 142) eqn:T142.
    { apply Z.eqb_eq in T142. pose proof (slot_room _ _ _ _ G E Hn T142) as Len. cbn in Len.
      destruct (Nat.ltb k 3) eqn:K3; [|now apply fine_id].
      eapply slot_before_ok; eauto; [lia|]. now rewrite T142. }
    destruct (n_type n =? 144) eqn:T144.
    { apply Z.eqb_eq in T144. pose proof (slot_room _ _ _ _ G E Hn T144) as Len. cbn in Len.
      destruct k as [|[|k]]; [|destruct (is_a 142 m)|]; try (now apply fine_id);
        (eapply slot_before_ok; eauto; [lia|]; now rewrite T144). }
    destruct (n_type n =? 164) eqn:T164.
    { apply Z.eqb_eq in T164. pose proof (slot_room _ _ _ _ G E Hn T164) as Len. cbn in Len.
      destruct (is_curve m && c && Nat.eqb k 0); [|now apply fine_id].
      eapply slot_before_ok; eauto; [lia|]. now rewrite T164. }
    destruct (n_type n =? 408) eqn:T408; [|now apply fine_id].
    apply Z.eqb_eq in T408. pose proof (slot_room _ _ _ _ G E Hn T408) as Len. cbn in Len.
    destruct (is_a 308 m && Nat.eqb k 0); [|now apply fine_id].
    eapply slot_before_ok; eauto; [lia|]. now rewrite T408.
  - destruct (n_null n) eqn:Hn; [now apply fine_id|].
    destruct ((n_type n =? 120) && Nat.ltb k 2); [now apply fine_id|].
    destruct ((n_type n =? 122) && Nat.eqb k 0) eqn:T122.
    { exfalso. apply (H122 eq_refl). exists n. apply andb_prop in T122. destruct T122 as [T _].
      apply Z.eqb_eq in T. auto. }
    destruct ((n_type n =? 164) && Nat.eqb k 0); [now apply fine_id|].
    destruct (_ || _) eqn:C; [|now apply fine_id].
    apply orb_prop in C. destruct C as [C|C]; [apply orb_prop in C; destruct C as [C|C]|];
      apply andb_prop in C; destruct C as [C1 C2]; apply Z.eqb_eq in C1;
      pose proof (slot_room _ _ _ _ G E Hn C1) as Len; cbn in Len;
      (apply (slot_before_ok g e _ None n _ _ G E Hn); [lia|now rewrite C1|discriminate]).
Qed.

(* a pointer is appended to the class's list after the reference has been added *)
Lemma item_after g e x n m :
  ginv zero g -> look g e = Some n -> look g x = Some m -> n_null n = false -> n_null m = false ->
  ~ In e (n_refs m) -> In (n_type n) item_kinds ->
  (n_type n = 102 -> In (n_type m) [100; 104; 110; 126]) ->
  let g1 := put g x (w_refs (n_refs m ++ [e]) m) in
  exists n1, look g1 e = Some n1 /\ ginv zero (put g1 e (w_items (n_items n1 ++ [x]) n1)) /\
    frame g (put g1 e (w_items (n_items n1 ++ [x]) n1)).
Proof.
  intros G E F Hn Hm Hnot Hk H102 g1.
  pose proof (g_shape _ _ G _ _ E) as Sh.
  pose proof (added_ok zero g x e m G F Hm Hnot) as G1. fold g1 in G1.
  assert (Tys : forall i, ty g1 i = ty g i) by (apply ty_put with (n := m); [exact F|now split]).
  assert (Fr1 : frame g g1).
  { exact (frame_put g x m (w_refs (n_refs m ++ [e]) m) F (conj eq_refl eq_refl) eq_refl eq_refl). }
  assert (H : exists n1, look g1 e = Some n1 /\ like n n1 /\ n_items n1 = n_items n).
  { unfold g1. rewrite look_put. destruct (Nat.eqb e x) eqn:Q.
    - apply Nat.eqb_eq in Q; subst x. rewrite E in F. injection F as <-.
      eexists. split; [reflexivity|]. repeat split.
    - exists n. repeat split; auto. }
  destruct H as (n1 & E1 & [L1 L2] & L3). exists n1. split; [exact E1|].
  pose proof (g_shape _ _ G1 _ _ E1) as Sh1. split.
  - eapply (ginv_grow _ zero g1 e n1 _ x G1); [reflexivity|unfold zero; lia|exact E1|now split| |reflexivity|].
    + apply shape_items; auto; [congruence| |].
      * intros Q. exfalso. apply Q. rewrite L1. exact Hk.
      * intros T y k Hy Hty. apply in_app_or in Hy. destruct Hy as [Hy|[<-|[]]].
        -- now apply (sh_102 _ _ _ Sh1 T y).
        -- rewrite Tys in Hty. unfold ty in Hty. rewrite F in Hty. injection Hty as <-. cbn [fst snd].
           split; [exact Hm|]. apply H102. congruence.
    + intros b. pose proof (cnt_tgt_items (n_items n1 ++ [x]) n1 b) as Q.
      rewrite cnt_app, cnt_cons, cnt_nil in Q. lia.
  - eapply frame_trans; [exact Fr1|]. eapply frame_put; [exact E1|now split|reflexivity|reflexivity].
Qed.

Lemma AddSegment_ok g e x c : ginv zero g -> live g e -> live g x -> fine g (AddSegment g e x c).
Proof.
  intros G [n E] [m F]. unfold AddSegment. rewrite E, F.
  destruct (negb (is_a 102 n) || negb (is_curve m)) eqn:A; [now apply fine_id|].
  apply orb_false_elim in A. destruct A as [A1 A2].
  apply negb_false_iff in A1. apply negb_false_iff in A2.
  destruct (n_type m =? 102) eqn:B; [now apply fine_id|].
  destruct (_ && c); [now apply fine_id|].
  unfold is_a in A1. apply andb_prop in A1. destruct A1 as [Hn T]. apply negb_true_iff in Hn. apply Z.eqb_eq in T.
  destruct (addReference_cases g x e m n F E) as [H|[H|(H & Hf & Hr & He)]]; rewrite H.
  - now apply fine_id.
  - destruct (adopt_ok zero g e x G) as (h & Ha & Gh & Fh); [now exists n|now exists m|].
    rewrite Ha. exists true, h. auto.
  - assert (Hmn := forbids_null _ _ _ _ Hf).
    assert (Hxe : x <> e) by (intros ->; rewrite E in F; injection F as <-; rewrite T in B; discriminate).
    destruct (item_after g e x n m G E F Hn Hmn Hr) as (n1 & E1 & G1 & Fr1).
    { rewrite T. now left. }
    { intros _. apply is_curve_type in A2. cbn [In] in A2 |- *. lia. }
    set (g1 := put g x (w_refs (n_refs m ++ [e]) m)) in *.
    assert (F1 : look g1 x = Some (w_refs (n_refs m ++ [e]) m)) by apply look_put_eq.
    (* the dependency of x is set before the list of e is extended *)
    assert (Swap : exists b h, SetDependency g1 x 1 = Some (b, h) /\ look h e = Some n1 /\
       exists k, SetDependency (put g1 e (w_items (n_items n1 ++ [x]) n1)) x 1 = Some (b, k) /\
       same k (put h e (w_items (n_items n1 ++ [x]) n1)) /\ g_next k = g_next h /\ g_ents k = g_ents h).
    { unfold SetDependency. rewrite F1, look_put_ne, F1 by auto. cbn [n_null n_type w_refs].
      rewrite Hmn.
      destruct (zmem (n_type m) [124; 314]).
      { eexists _, _. split; [reflexivity|]. split; [exact E1|]. eexists. split; [reflexivity|].
        repeat split. }
      destruct (zmem (n_type m) [502; 504; 508; 510]).
      { eexists _, _. split; [reflexivity|]. split; [exact E1|]. eexists. split; [reflexivity|].
        repeat split. }
      eexists _, _. split; [reflexivity|]. split; [rewrite look_put_ne by auto; exact E1|].
      eexists. split; [reflexivity|]. split; [|split; reflexivity].
      intros i. symmetry. apply put_swap. auto. }
    destruct Swap as (b & h & S1 & Eh & k & S2 & Sk & Nk & Nk2).
    rewrite S1, Eh.
    destruct (SetDependency_ok zero _ x 1 G1) as (b' & k' & S3 & Gk & Fk & _).
    { eapply frame_live; [exact Fr1|]. now exists m. }
    rewrite S2 in S3. injection S3 as <- <-.
    assert (Gp : ginv zero (put h e (w_items (n_items n1 ++ [x]) n1))).
    { eapply same_ginv; [exact Sk| |exact Gk]. symmetry. exact Nk. }
    assert (Fp : frame g (put h e (w_items (n_items n1 ++ [x]) n1))).
    { eapply frame_trans; [exact Fr1|]. eapply frame_trans; [exact Fk|]. apply same_frame; auto. }
    destruct (adopt_ok zero _ e x Gp) as (q & Ha & Gq & Fq).
    { eapply frame_live; [exact Fp|]. now exists n. }
    { eapply frame_live; [exact Fp|]. now exists m. }
    rewrite Ha. exists true, q. split; [reflexivity|]. split; [exact Gq|]. eapply frame_trans; eauto.
Qed.

Lemma item_add_ok g e x n m dep : ginv zero g -> look g e = Some n -> look g x = Some m ->
  n_null n = false -> In (n_type n) item_kinds -> n_type n <> 102 -> fine g (item_add g e x dep).
Proof.
  intros G E F Hn Hk Ht. unfold item_add.
  destruct (addReference_cases g x e m n F E) as [H|[H|(H & Hf & Hr & He)]]; rewrite H;
    try now apply fine_id.
  destruct (item_after g e x n m G E F Hn (forbids_null _ _ _ _ Hf) Hr Hk ltac:(intros; contradiction))
    as (n1 & E1 & G1 & Fr1).
  rewrite E1. apply (fine_settle g _ e x dep G1 Fr1); [now exists n|now exists m].
Qed.

Lemma AddItem_ok g e x : ginv zero g -> live g e -> live g x -> fine g (AddItem g e x).
Proof.
  intros G [n E] [m F]. unfold AddItem. rewrite E, F.
  destruct (n_null n) eqn:Hn; [now apply fine_id|].
  destruct (n_type n =? 144) eqn:T1.
  { apply Z.eqb_eq in T1. destruct (negb (is_a 142 m)); [now apply fine_id|].
    destruct (mem x (n_items n)); [now apply fine_id|].
    eapply item_add_ok; eauto; rewrite T1; [cbn; auto|discriminate]. }
  destruct (n_type n =? 180) eqn:T2.
  { apply Z.eqb_eq in T2. destruct (zmem (n_type m) operand_types); [|now apply fine_id].
    eapply item_add_ok; eauto; rewrite T2; [cbn; auto|discriminate]. }
  destruct (n_type n =? 308) eqn:T3; [|now apply fine_id].
  apply Z.eqb_eq in T3. destruct (_ || _); [now apply fine_id|].
  destruct (mem x (n_items n)); [now apply fine_id|].
  eapply item_add_ok; eauto; rewrite T3; [cbn; auto 10|discriminate].
Qed.

Lemma SetDependency_fine g e d : ginv zero g -> live g e -> fine g (SetDependency g e d).
Proof.
  intros G L. destruct (SetDependency_ok zero g e d G L) as (b & h & H1 & H2 & H3 & _).
  exists b, h. auto.
Qed.

Lemma AddVertex_ok g e : ginv zero g -> live g e -> fine g (AddVertex g e).
Proof.
  intros G [n E]. unfold AddVertex. rewrite E. destruct (is_a 502 n); [|now apply fine_id].
  assert (C : cosmetic n (w_points (S (n_points n)) n)) by (repeat split).
  eexists _, _. split; [reflexivity|]. split; [now apply (ginv_cosmetic zero g e n)|].
  now apply (cosmetic_frame g e n).
Qed.

Lemma AddEntity_ok g x : ginv zero g -> live g x -> fine g (AddEntity g x).
Proof.
  intros G [m F]. unfold AddEntity. rewrite F. destruct (mem x (g_ents g)) eqn:M; [now apply fine_id|].
  assert (C : cosmetic m (w_own true m)) by (repeat split).
  eexists _, _. split; [reflexivity|]. split.
  - apply ginv_ents. now apply (ginv_cosmetic zero g x m).
  - pose proof (cosmetic_frame g x m _ F C) as Fr. destruct Fr as [A B Cc Dd].
    split; [exact A|exact B|exact Cc|]. intros St. split.
    + cbn [g_ents with_ents]. apply mem_notin in M. destruct St as [St _]. now apply nodup_snoc.
    + cbn [g_ents with_ents]. intros y Hy. apply in_app_or in Hy. destruct Hy as [Hy|[<-|[]]].
      * destruct (Dd St) as [_ H]. apply H. exact Hy.
      * exists (w_own true m). apply look_put_eq.
Qed.
