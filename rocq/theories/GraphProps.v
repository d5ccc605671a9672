(* Every tidy operation keeps the books; Cull; composite curves. *)
From Coq Require Import List Bool ZArith Lia ZifyBool ZifyNat.
From Verif Require Import GraphModel GraphSpec GraphFacts GraphOps GraphEdge GraphDel.
Import ListNotations.
Open Scope Z_scope.

Definition inv (g : graph) : Prop := ginv zero g /\ counted g /\ store g.

Lemma inv_empty : inv empty_graph.
Proof.
  split; [|split].
  - split.
    + intros a b. reflexivity.
    + intros a b. unfold ct, cr, T, R. cbn [look empty_graph g_heap]. rewrite !cnt_nil. lia.
    + intros e n H. discriminate.
    + intros e _. reflexivity.
  - intros e n H. discriminate.
  - split; [constructor|]. intros e [].
Qed.

Lemma ptrs_blank t : ptrs (blank_slots t) = [].
Proof. unfold blank_slots. destruct (zmem t _); [reflexivity|]. destruct (zmem t _); [reflexivity|]. destruct (t =? 142); reflexivity. Qed.

Lemma tgt_new t own : tgt (new_node t own) = [].
Proof.
  unfold tgt, new_node. cbn [n_des n_extras n_slots n_items n_edges n_verts ptrs app edge_curves map].
  destruct (zmem t known); [|reflexivity]. now rewrite ptrs_blank.
Qed.

Lemma shape_new f e t own : shape f e (new_node t own).
Proof.
  assert (Hd : forall k, nth k (n_des (new_node t own)) None = None).
  { intros k. do 8 (destruct k as [|k]; [reflexivity|]). reflexivity. }
  split.
  - reflexivity.
  - intros _. split; [apply tgt_new|reflexivity].
  - reflexivity.
  - intros _. split; reflexivity.
  - cbn [n_null n_slots n_type new_node]. intros H. apply negb_false_iff in H. now rewrite !H.
  - intros _. reflexivity.
  - intros _. split; [reflexivity|]. intros k _. apply Hd.
  - split; intros [].
  - intros x k [].
  - intros x k H. rewrite Hd in H. discriminate.
  - intros _ x k [].
  - intros v c [].
  - intros v k [].
  - intros v k [].
  - cbn [n_type n_form n_null new_node]. intros H N. apply negb_false_iff in N. rewrite N in H. now rewrite H.
  - cbn [n_null n_type new_node]. intros H. apply negb_false_iff in H. rewrite H. now apply zmem_in.
Qed.

Lemma look_new g t own i : look (NewEntity g t own) i = if Nat.eqb i (g_next g) then Some (new_node t own) else look g i.
Proof. reflexivity. Qed.

Lemma inv_new g t own : inv g -> inv (NewEntity g t own).
Proof.
  intros (G & C & S1 & S2).
  assert (Dead : look g (g_next g) = None) by (apply (g_fresh _ _ G); lia).
  assert (Ct : forall a b, ct (NewEntity g t own) a b = ct g a b).
  { intros a b. unfold ct, T. rewrite look_new. destruct (Nat.eqb a (g_next g)) eqn:Q; [|reflexivity].
    apply Nat.eqb_eq in Q. subst a. rewrite Dead, tgt_new. reflexivity. }
  assert (Cr : forall a b, cr (NewEntity g t own) a b = cr g a b).
  { intros a b. unfold cr, R. rewrite look_new. destruct (Nat.eqb b (g_next g)) eqn:Q; [|reflexivity].
    apply Nat.eqb_eq in Q. subst b. rewrite Dead. reflexivity. }
  assert (No : forall e n, look g e = Some n -> ~ In (g_next g) (tgt n)).
  { intros e n E H. destruct (link_listed _ _ _ _ G E H) as (m & Hm & _). congruence. }
  split; [|split].
  - split.
    + intros a b. rewrite Ct, Cr. apply (g_link _ _ G).
    + intros a b. rewrite Ct, Cr. apply (g_one _ _ G).
    + intros e n H. rewrite look_new in H. destruct (Nat.eqb e (g_next g)) eqn:Q.
      * injection H as <-. apply shape_new.
      * pose proof (g_shape _ _ G _ _ H) as Sh. specialize (No e n H).
        assert (Tys : forall x, x <> g_next g -> ty (NewEntity g t own) x = ty g x).
        { intros x Hx. unfold ty. rewrite look_new. apply Nat.eqb_neq in Hx. now rewrite Hx. }
        assert (In_t : forall x, In x (n_extras n) \/ In x (n_items n) \/ In x (edge_curves (n_edges n))
                   \/ In x (map fst (n_verts n)) \/ In x (ptrs (n_des n)) -> x <> g_next g).
        { intros x Hx ->. apply No. unfold tgt. rewrite !in_app_iff. tauto. }
        destruct Sh as [a1 a2 a3 a4 a5 a6 a7 a8 a9 a10 a11 a12 a13 a14 a15 a16]. split; auto.
        -- intros x k Hx. rewrite Tys by (apply In_t; auto). now apply a9.
        -- intros x k Hx. rewrite Tys by (apply In_t; right; right; right; right; now apply nth_ptrs in Hx). now apply a10.
        -- intros Ht x k Hx. rewrite Tys by (apply In_t; auto). now apply a11.
        -- intros x k Hx. rewrite Tys by (apply In_t; auto). now apply a13.
        -- intros x k Hx. rewrite Tys by (apply In_t; auto). now apply a14.
    + intros e H. cbn [g_next NewEntity] in H. rewrite look_new.
      destruct (Nat.eqb e (g_next g)) eqn:Q; [apply Nat.eqb_eq in Q; lia|]. apply (g_fresh _ _ G). lia.
  - intros e n H v. rewrite look_new in H. destruct (Nat.eqb e (g_next g)).
    + injection H as <-. reflexivity.
    + now apply (C e).
  - assert (Live : forall e, live g e -> live (NewEntity g t own) e).
    { intros e [n H]. unfold live. rewrite look_new. destruct (Nat.eqb e (g_next g)); eauto. }
    destruct own; cbn [NewEntity g_ents].
    + split.
      * apply nodup_snoc; [exact S1|]. intros H. destruct (S2 _ H) as [n Hn]. congruence.
      * intros e H. apply in_app_or in H. destruct H as [H|[<-|[]]]; [now apply Live, S2|].
        unfold live. rewrite look_new, Nat.eqb_refl. eauto.
    + split; [exact S1|]. intros e H. now apply Live, S2.
Qed.

Lemma inv_ents g l : inv g -> NoDup l -> incl l (g_ents g) -> inv (with_ents g l).
Proof.
  intros (G & C & S1 & S2) Nd Hi. split; [now apply ginv_ents|]. split; [exact C|].
  split; [exact Nd|]. intros e He. apply S2. now apply Hi.
Qed.

Lemma nodup_rem1 x l : NoDup l -> NoDup (rem1 x l).
Proof. intros H. apply nodup_cnt. intros y. rewrite cnt_rem1. pose proof (cnt_nodup l H y). lia. Qed.
Lemma rem1_notin x l : NoDup l -> ~ In x (rem1 x l).
Proof. intros H. apply cnt_notin. rewrite cnt_rem1, Nat.eqb_refl. pose proof (cnt_nodup l H x). lia. Qed.

Lemma free_ok g e : inv g -> live g e -> ~ In e (g_ents g) -> may_die g e ->
  exists h, destroy g e = Some h /\ inv h /\ destroyed g e h.
Proof.
  intros (G & C & S1 & S2) L N M. destruct (destroy_ok g e G C L M) as (h & H & D).
  exists h. split; [exact H|]. split; [|exact D]. split; [apply D|]. split; [apply D|].
  split; rewrite (dw_ents _ _ (de_dwindle _ _ _ D)); [exact S1|].
  intros i Hi. apply (de_live _ _ _ D); [intros ->; contradiction|]. now apply S2.
Qed.

Lemma del_ok g e : inv g -> In e (g_ents g) -> may_die g e ->
  exists h, destroy g e = Some h /\ DelEntity g e = Some (true, with_ents h (rem1 e (g_ents g))) /\
    inv (with_ents h (rem1 e (g_ents g))) /\ destroyed g e h.
Proof.
  intros (G & C & S1 & S2) L M. destruct (destroy_ok g e G C (S2 e L) M) as (h & H & D).
  exists h. split; [exact H|]. unfold DelEntity. rewrite (proj2 (mem_in _ _) L), H. cbn [option_map].
  rewrite (dw_ents _ _ (de_dwindle _ _ _ D)). split; [reflexivity|]. split; [|exact D].
  split; [apply ginv_ents; apply D|]. split; [apply D|]. split; cbn [g_ents with_ents].
  - now apply nodup_rem1.
  - intros i Hi. apply (de_live _ _ _ D); [intros ->; now apply (rem1_notin e (g_ents g))|].
    apply S2. now apply (rem1_incl e).
Qed.

(* ---- Cull ---- *)

Lemma lesser_nil {A} (l m : list A) : incl m l -> nil l = true -> nil m = true.
Proof. destruct m as [|y m]; [reflexivity|]. intros H. destruct l; [destruct (H y (or_introl eq_refl))|discriminate]. Qed.

Definition leb_ (a b : bool) : Prop := a = true -> b = true.
Lemma leb_or a b c d : leb_ a c -> leb_ b d -> leb_ (a || b) (c || d).
Proof. unfold leb_. destruct a, b, c, d; auto. Qed.
Lemma leb_and a b c d : leb_ a c -> leb_ b d -> leb_ (a && b) (c && d).
Proof. unfold leb_. destruct a, b, c, d; auto. Qed.
Lemma leb_refl a : leb_ a a.
Proof. unfold leb_. auto. Qed.

Lemma doomed_lesser v n m : lesser n m -> doomed v n = true -> doomed v m = true.
Proof.
  intros [a1 a2 a3 a4 a5 a6 a7 a8 a9 a10 a11 a12 a13].
  assert (Hr : leb_ (nil (n_refs n)) (nil (n_refs m))) by (intro; now apply (lesser_nil (n_refs n))).
  assert (Hi : leb_ (nil (n_items n)) (nil (n_items m))) by (intro; apply (lesser_nil (n_items n)); [apply a9|assumption]).
  assert (He : leb_ (nil (n_edges n)) (nil (n_edges m))) by (intro; now apply (lesser_nil (n_edges n))).
  assert (Hl : leb_ (nil (n_loops n)) (nil (n_loops m))).
  { intro H. destruct (n_loops n); [|discriminate]. now rewrite a12. }
  assert (Hs : forall k, leb_ (none (nth k (n_slots n) None)) (none (nth k (n_slots m) None))).
  { intros k. destruct (a8 k) as [->| ->]; intro; auto. }
  change (leb_ (doomed v n) (doomed v m)).
  unfold doomed, isOrphaned. rewrite a1, a2, a3, a5, a6. cbv zeta.
  apply leb_or; [|repeat apply leb_and; auto using leb_refl].
  repeat match goal with |- leb_ (if ?b then _ else _) (if ?b then _ else _) => destruct b end;
    repeat first [apply leb_or|apply leb_and]; auto using leb_refl.
Qed.

Lemma dw_few g h : dwindle g h -> few g -> few h.
Proof.
  intros W F r m Hm T. destruct (look g r) as [n|] eqn:E; [|rewrite (dw_none _ _ W r E) in Hm; discriminate].
  pose proof (dw_some _ _ W r n m E Hm) as L. destruct (le_items _ _ L) as [L1 _].
  rewrite (le_type _ _ L) in T. specialize (F r n E T). lia.
Qed.
Lemma dw_uses g h r v : dwindle g h -> edge_uses h r v -> edge_uses g r v.
Proof.
  intros W (m & d & Hm & Hd & Hv). destruct (look g r) as [n|] eqn:E; [|rewrite (dw_none _ _ W r E) in Hm; discriminate].
  exists n, d. split; [exact E|]. split; [|exact Hv]. now apply (le_edges2 _ _ (dw_some _ _ W r n m E Hm)).
Qed.
Lemma dw_pinned g h : dwindle g h -> pinned g -> pinned h.
Proof.
  intros W P r v k U Hk. destruct (look g v) as [q|] eqn:E; [|rewrite (dw_none _ _ W v E) in Hk; discriminate].
  rewrite (le_points _ _ (dw_some _ _ W v q k E Hk)). apply (P r v q); [now apply (dw_uses g h)|exact E].
Qed.

Lemma few_one g e : few g -> forall r m, r <> e -> look g r = Some m -> n_type m = 180 -> In e (n_items m) -> n_items m = [e].
Proof.
  intros F r m _ Hm T Hi. specialize (F r m Hm T). destruct (n_items m) as [|x [|y l]]; cbn in *; try lia.
  destruct Hi as [->|[]]. reflexivity.
Qed.

Lemma uses_exists l v : 1 <= uses l v -> exists d, In d l /\ (v = ed_start d \/ v = ed_stop d).
Proof.
  intros M. induction l as [|d l IH]; cbn [uses] in M; [lia|].
  destruct (Nat.eqb (ed_start d) v) eqn:Q1; [apply Nat.eqb_eq in Q1; exists d; split; [now left|auto]|].
  destruct (Nat.eqb (ed_stop d) v) eqn:Q2; [apply Nat.eqb_eq in Q2; exists d; split; [now left|auto]|].
  destruct (IH ltac:(lia)) as (d' & I & J). exists d'. split; [now right|exact J].
Qed.
Lemma uses_verts g r n d v : ginv zero g -> counted g -> look g r = Some n -> In d (n_edges n) ->
  v = ed_start d \/ v = ed_stop d -> In v (map fst (n_verts n)).
Proof.
  intros G C E Hd Hv. apply vcount_in; [apply (sh_pos _ _ _ (g_shape _ _ G _ _ E))|].
  rewrite (C r n E). destruct (uses_in _ _ Hd). destruct Hv as [->| ->]; assumption.
Qed.

(* e is to go when visited *)
Definition doom (g : graph) (v : bool) (e : nat) : Prop := exists n, look g e = Some n /\ doomed v n = true.

(* an orphan is never a vertex list in use *)
Lemma doomed_may_die g v e n : ginv zero g -> counted g -> few g -> pinned g -> look g e = Some n ->
  doomed v n = true -> may_die g e.
Proof.
  intros G C F P E D. split; [now apply few_one|].
  intros r m d Hm Hd.
  assert (X : e = ed_start d \/ e = ed_stop d -> False).
  { intros Hv. pose proof (uses_verts g r m d e G C Hm Hd Hv) as Iv.
    pose proof (g_shape _ _ G _ _ Hm) as Sh.
    pose proof (sh_504v _ _ _ Sh e (n_type n, n_null n) Iv) as Q. unfold ty in Q. rewrite E in Q.
    specialize (Q eq_refl). injection Q as Q1 Q2.
    destruct (link_listed g r e m G Hm (in_tgt_vert _ _ Iv)) as (n' & En & Ir). rewrite E in En. injection En as <-.
    assert (Np : n_points n <> 0%nat) by (apply (P r e n); [exists m, d; auto|exact E]).
    unfold doomed, isOrphaned in D. rewrite Q1, Q2 in D. cbn in D.
    destruct (n_refs n); [destruct Ir|]. cbn in D. rewrite andb_false_r in D. cbn in D. lia. }
  split; intros ->; apply X; auto.
Qed.

Definition sub (g : graph) (l : list nat) : list nat := filter (alive g) l.

Lemma alive_live g e : alive g e = true <-> live g e.
Proof. unfold alive, live. destruct (look g e); split; intros H; eauto; try discriminate. destruct H; discriminate. Qed.

Lemma cull_ok v l : forall g kept, ginv zero g -> counted g -> few g -> pinned g -> NoDup l ->
  (forall e, In e l -> live g e) ->
  exists h, cull_loop g v l kept = Some (h, kept ++ sub h l) /\ ginv zero h /\ counted h /\ dwindle g h /\
    (forall i, ~ In i l -> live g i -> live h i) /\
    (forall e, In e l -> doom g v e -> ~ live h e) /\
    ((forall e, In e l -> ~ doom g v e) -> h = g).
Proof.
  induction l as [|e l IH]; intros g kept G C F P Nd Lv; cbn [cull_loop].
  - exists g. cbn [sub filter]. rewrite app_nil_r. split; [reflexivity|]. split; [exact G|]. split; [exact C|].
    split; [apply dw_refl|]. split; [auto|]. split; [intros e []|auto].
  - apply NoDup_cons_iff in Nd. destruct Nd as [Ne Nd].
    destruct (Lv e (or_introl eq_refl)) as [n E]. rewrite E.
    destruct (doomed v n) eqn:D.
    + destruct (destroy_ok g e G C) as (g1 & H1 & D1); [now exists n|now apply (doomed_may_die g v e n)|].
      rewrite H1. pose proof (de_dwindle _ _ _ D1) as W1.
      destruct (IH g1 kept (de_ginv _ _ _ D1) (de_counted _ _ _ D1) (dw_few _ _ W1 F) (dw_pinned _ _ W1 P) Nd)
        as (h & H2 & G2 & C2 & W2 & L2 & O2 & Id2).
      { intros i Hi. apply (de_live _ _ _ D1); [intros ->; contradiction|]. apply Lv. now right. }
      assert (Gone : look h e = None) by (apply (dw_none _ _ W2), (de_gone _ _ _ D1)).
      exists h. split; [|split; [exact G2|split; [exact C2|split; [eapply dw_trans; eauto|split; [|split]]]]].
      * rewrite H2. unfold sub. cbn [filter]. unfold alive at 2. rewrite Gone. reflexivity.
      * intros i Hi Li. apply L2; [intros Q; apply Hi; now right|].
        apply (de_live _ _ _ D1); [intros ->; apply Hi; now left|exact Li].
      * intros i [<-|Hi] O.
        -- intros [q Hq]. congruence.
        -- apply O2; [exact Hi|]. destruct O as (p & Hp & Dp).
           destruct (de_live _ _ _ D1 i) as [q Hq]; [intros ->; contradiction|now exists p|].
           exists q. split; [exact Hq|]. eapply doomed_lesser; [|exact Dp]. eapply (dw_some _ _ W1); eauto.
      * intros Q. exfalso. apply (Q e (or_introl eq_refl)). exists n. auto.
    + destruct (IH g (kept ++ [e]) G C F P Nd) as (h & H2 & G2 & C2 & W2 & L2 & O2 & Id2).
      { intros i Hi. apply Lv. now right. }
      exists h. split; [|split; [exact G2|split; [exact C2|split; [exact W2|split; [|split]]]]].
      * rewrite H2, <- app_assoc. unfold sub. cbn [filter app].
        assert (Le : alive h e = true) by (apply alive_live, L2; [exact Ne|now exists n]). now rewrite Le.
      * intros i Hi Li. apply L2; [intros Q; apply Hi; now right|exact Li].
      * intros i [<-|Hi] O; [|now apply O2]. destruct O as (p & Hp & Dp). congruence.
      * intros Q. apply Id2. intros i Hi. apply Q. now right.
Qed.

Lemma filter_nodup {A} (f : A -> bool) l : NoDup l -> NoDup (filter f l).
Proof. apply NoDup_filter. Qed.

(* what Cull does to a graph in order *)
Lemma Cull_ok g v : inv g -> few g -> pinned g ->
  exists h, Cull g v = Some h /\ inv h /\ few h /\ pinned h /\
    g_ents h = filter (alive h) (g_ents g) /\
    (forall e, In e (g_ents g) -> doom g v e -> ~ live h e) /\
    (forall e, ~ In e (g_ents g) -> live g e -> live h e) /\
    (forall i n m, look g i = Some n -> look h i = Some m -> lesser n m) /\
    (forall e, live h e -> live g e) /\
    ((forall e, In e (g_ents g) -> ~ doom g v e) -> h = g).
Proof.
  intros (G & C & S1 & S2) F P. unfold Cull.
  destruct (cull_ok v (g_ents g) g [] G C F P S1 S2) as (h & H & G2 & C2 & W & L & O & Id).
  rewrite H. cbn [app]. exists (with_ents h (sub h (g_ents g))). split; [reflexivity|].
  split; [|split; [|split; [|split; [|split; [|split; [|split; [|split]]]]]]].
  - split; [now apply ginv_ents|]. split; [exact C2|]. split; cbn [g_ents with_ents].
    + now apply filter_nodup.
    + intros e He. apply filter_In in He. destruct He as [_ He]. apply alive_live in He. exact He.
  - exact (dw_few g h W F).
  - exact (dw_pinned g h W P).
  - reflexivity.
  - exact O.
  - exact L.
  - exact (dw_some _ _ W).
  - intros e [m Hm]. change (look h e = Some m) in Hm. destruct (look g e) as [n|] eqn:E; [now exists n|].
    rewrite (dw_none _ _ W e E) in Hm. discriminate.
  - intros Q. rewrite (Id Q). destruct g as [hp nx en]. unfold with_ents. cbn [g_heap g_next g_ents].
    f_equal. unfold sub. clear - S2. cbn [g_ents] in S2. set (gg := mkGraph hp nx en) in *.
    assert (X : forall e, In e en -> alive gg e = true) by (intros e He; apply alive_live, S2, He).
    clear S2. generalize dependent (alive gg). clear gg. intros f X. induction en as [|x l IH]; cbn [filter]; [reflexivity|].
    rewrite X by now left. f_equal. apply IH. intros e He. apply X. now right.
Qed.
