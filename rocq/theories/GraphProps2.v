(* Histories: the books are kept; Clear; repeated Cull; groups without orphans;
   composite curves. *)
From Coq Require Import List Bool ZArith Lia ZifyBool ZifyNat.
From Verif Require Import GraphModel GraphSpec GraphFacts GraphOps GraphEdge GraphDel GraphProps GraphRead.
Import ListNotations.
Open Scope Z_scope.

Lemma holds_tgt g e n t : ginv zero g -> counted g -> look g e = Some n -> holds n t <-> In t (tgt n).
Proof.
  intros G C E. pose proof (g_shape _ _ G _ _ E) as Sh. unfold holds, tgt. rewrite !in_app_iff, !ptrs_in.
  rewrite (sh_loops _ _ _ Sh). split.
  - intros [H|[H|[H|[H|[(d & Hd & H)|(p & [] & _)]]]]]; auto 6.
    destruct H as [->|H].
    + right; right; right; right; left. unfold edge_curves. apply in_map_iff. eauto.
    + right; right; right; right; right. now apply (uses_verts g e n d t G C E).
  - intros [H|[H|[H|[H|[H|H]]]]]; auto 6.
    + right; right; right; right; left. unfold edge_curves in H. apply in_map_iff in H.
      destruct H as (d & <- & Hd). eauto.
    + right; right; right; right; left. apply (vcount_in _ _ (sh_pos _ _ _ Sh)) in H. rewrite (C e n E) in H.
      destruct (uses_exists _ _ H) as (d & Hd & Hv). exists d. split; [exact Hd|]. tauto.
Qed.

Lemma inv_consistent g : inv g -> consistent g.
Proof.
  intros (G & C & S1 & S2). split; [|split; [|split; [exact S1|exact S2]]].
  - intros e t (n & E & H). apply (holds_tgt g e n t G C E) in H.
    destruct (link_listed g e t n G E H) as (m & Hm & Hr). split; [now exists m|]. exists m. auto.
  - intros e r (n & E & H). destruct (link_pointed g e r n G E H) as (m & Hm & Ht).
    split; [now exists m|]. exists m. split; [exact Hm|]. now apply (holds_tgt g r m e G C Hm).
Qed.

(* ---- Clear ---- *)

Lemma destroy_all_ok l : forall g, ginv zero g -> counted g -> few g -> NoDup l ->
  (forall e, In e l -> live g e) ->
  (forall r v, edge_uses g r v -> In v l -> exists l1 l2, l = l1 ++ v :: l2 /\ In r l1) ->
  exists h, destroy_all g l = Some h /\ ginv zero h /\ counted h /\ dwindle g h /\
    (forall e, In e l -> ~ live h e) /\ (forall e, ~ In e l -> live g e -> live h e).
Proof.
  induction l as [|e l IH]; intros g G C F Nd Lv P; cbn [destroy_all].
  - exists g. split; [reflexivity|]. split; [exact G|]. split; [exact C|]. split; [apply dw_refl|]. split; auto.
  - apply NoDup_cons_iff in Nd. destruct Nd as [Ne Nd].
    assert (M : may_die g e).
    { split; [now apply few_one|]. intros r m d Hm Hd.
      assert (X : e = ed_start d \/ e = ed_stop d -> False).
      { intros Hv. destruct (P r e) as (l1 & l2 & Hl & Hr); [exists m, d; auto|now left|].
        destruct l1 as [|a l1]; [destruct Hr|]. injection Hl as <- Hl. apply Ne. rewrite Hl. apply in_or_app. right. now left. }
      split; intros ->; apply X; auto. }
    destruct (destroy_ok g e G C (Lv e (or_introl eq_refl)) M) as (g1 & H1 & D1). rewrite H1.
    pose proof (de_dwindle _ _ _ D1) as W1.
    destruct (IH g1 (de_ginv _ _ _ D1) (de_counted _ _ _ D1) (dw_few _ _ W1 F) Nd) as (h & H2 & G2 & C2 & W2 & L2 & K2).
    + intros i Hi. apply (de_live _ _ _ D1); [intros ->; contradiction|]. apply Lv. now right.
    + intros r v U Hv. destruct (P r v (dw_uses _ _ _ _ W1 U) (or_intror Hv)) as (l1 & l2 & Hl & Hr).
      destruct l1 as [|a l1]; [destruct Hr|]. injection Hl as <- Hl. exists l1, l2. split; [exact Hl|].
      destruct Hr as [<-|Hr]; [|exact Hr]. destruct U as (m & d & Hm & _). rewrite (de_gone _ _ _ D1) in Hm. discriminate.
    + exists h. split; [exact H2|]. split; [exact G2|]. split; [exact C2|]. split; [eapply dw_trans; eauto|]. split.
      * intros i [<-|Hi]; [|now apply L2]. intros [q Hq]. rewrite (dw_none _ _ W2 e (de_gone _ _ _ D1)) in Hq. discriminate.
      * intros i Hi Li. apply K2; [intros Q; apply Hi; now right|].
        apply (de_live _ _ _ D1); [intros ->; apply Hi; now left|exact Li].
Qed.

Lemma Clear_ok g : inv g -> few g -> edges_first g ->
  exists h, Clear g = Some h /\ inv h /\ g_ents h = [] /\
    (forall e, live h e <-> live g e /\ ~ In e (g_ents g)).
Proof.
  intros (G & C & S1 & S2) F P. unfold Clear.
  destruct (destroy_all_ok (g_ents g) g G C F S1 S2 P) as (h & H & G2 & C2 & W & L & K). rewrite H. cbn [option_map].
  exists (with_ents h []). split; [reflexivity|]. split; [|split; [reflexivity|]].
  - split; [now apply ginv_ents|]. split; [exact C2|]. split; [constructor|]. intros e [].
  - intros e. change (live (with_ents h []) e) with (live h e). split.
    + intros Lh. split.
      * destruct Lh as [q Hq]. destruct (look g e) as [p|] eqn:E; [now exists p|]. rewrite (dw_none _ _ W e E) in Hq. discriminate.
      * intros Q. now apply (L e Q).
    + intros [Lg N]. now apply K.
Qed.

(* ---- every tidy operation ---- *)

Lemma sound_inv g r : inv g -> sound g r -> exists b h, r = Some (b, h) /\ inv h.
Proof. intros (G & C & S) (b & h & H & G2 & C2 & S2). exists b, h. split; [exact H|]. split; [exact G2|]. split; [exact C2|]. now apply S2. Qed.
Lemma fine_inv g r : inv g -> fine g r -> exists b h, r = Some (b, h) /\ inv h.
Proof. intros I F. apply (sound_inv g); [exact I|]. apply fine_sound; [apply I|exact F]. Qed.

Lemma run_ok g o : inv g -> tidy g o -> exists b h, run o g = Some (b, h) /\ inv h.
Proof.
  intros I T. pose proof I as (G & C & S). destruct o; cbn [run tidy] in *.
  - eexists _, _. split; [reflexivity|]. now apply inv_new.
  - eexists _, _. split; [reflexivity|]. now apply inv_new.
  - apply (fine_inv g); auto. now apply AddEntity_ok.
  - eexists _, _. split; [reflexivity|]. unfold UnlinkEntity. apply inv_ents; [exact I| |apply rem1_incl].
    apply nodup_rem1, S.
  - destruct (in_dec Nat.eq_dec e (g_ents g)) as [Hi|Hi].
    + destruct (del_ok g e I Hi T) as (h & _ & H & Ih & _). eauto.
    + unfold DelEntity. apply mem_notin in Hi. rewrite Hi. eauto.
  - destruct T as (L & N & M). destruct (free_ok g e I L N M) as (h & H & Ih & _). rewrite H. cbn. eauto.
  - destruct T as [F P]. destruct (Cull_ok g vicious I F P) as (h & H & Ih & _). rewrite H. cbn. eauto.
  - destruct T as [F P]. destruct (Clear_ok g I F P) as (h & H & Ih & _). rewrite H. cbn. eauto.
  - destruct T as [L X]. apply (fine_inv g); auto. now apply SetDe_ok.
  - apply (fine_inv g); auto. now apply SetDeNum_ok.
  - apply (fine_inv g); auto. now apply SetDependency_fine.
  - destruct T as ((n & E & Hn & Ht) & Hx & m & F & Hm). apply (fine_inv g); auto. eapply AddOptional_ok; eauto.
  - destruct T as (L & m & F & Hm). apply (fine_inv g); auto. eapply DelOptional_ok; eauto.
  - destruct T as (L & X & N). apply (fine_inv g); auto. now apply SetSlot_ok.
  - destruct T. apply (fine_inv g); auto. now apply AddSegment_ok.
  - destruct T. apply (fine_inv g); auto. now apply AddItem_ok.
  - destruct T.
  - destruct T.
  - destruct T.
  - apply (fine_inv g); auto. now apply AddVertex_ok.
  - destruct T as (T1 & T2 & T3 & T4). apply (sound_inv g); auto. now apply AddEdge_ok.
  - destruct T.
Qed.

Lemma runs_ok l : forall g, inv g -> tidy_run l g -> exists h, runs l g = Some h /\ inv h.
Proof.
  induction l as [|o l IH]; intros g I T; cbn [runs tidy_run] in *.
  - eauto.
  - destruct T as [T1 T2]. destruct (run_ok g o I T1) as (b & h & H & Ih). rewrite H. apply IH; [exact Ih|].
    now apply (T2 b h).
Qed.


Lemma reached_inv g : reached g -> inv g.
Proof.
  intros (g0 & l & S & T & H). assert (I0 : inv g0) by (destruct S as [->|S]; [exact inv_empty|now apply inv_read]).
  destruct (runs_ok l g0 I0 T) as (h & Hh & I). rewrite H in Hh. now injection Hh as ->.
Qed.
Lemma reached_hist l g : tidy_run l empty_graph -> runs l empty_graph = Some g -> reached g.
Proof. intros T H. exists empty_graph, l. auto. Qed.

(* ---- repeated Cull ---- *)

Lemma filter_less (f : nat -> bool) l x : In x l -> f x = false -> (length (filter f l) < length l)%nat.
Proof.
  induction l as [|a l IH]; cbn [In filter length]; [tauto|].
  assert (forall k, length (filter f k) <= length k)%nat.
  { clear. induction k as [|b k IH]; cbn [filter length]; [lia|]. destruct (f b); cbn [length]; lia. }
  intros [->|H1] Hf.
  - rewrite Hf. specialize (H l). lia.
  - specialize (IH H1 Hf). destruct (f a); cbn [length]; lia.
Qed.

Lemma orphan_dec g v l : (forall e, In e l -> live g e) ->
  (exists e, In e l /\ doom g v e) \/ (forall e, In e l -> ~ doom g v e).
Proof.
  induction l as [|a l IH]; intros Lv; [right; intros e []|].
  destruct (Lv a (or_introl eq_refl)) as [n E]. destruct (doomed v n) eqn:D.
  - left. exists a. split; [now left|]. exists n. auto.
  - destruct IH as [(e & He & O)|N].
    + intros e He. apply Lv. now right.
    + left. exists e. split; [now right|exact O].
    + right. intros e [<-|He]; [|now apply N]. intros (p & Hp & Dp). congruence.
Qed.

Lemma culls_same g v n : Cull g v = Some g -> culls n v g = Some g.
Proof. intros H. induction n as [|n IH]; cbn [culls]; [reflexivity|]. now rewrite H. Qed.

Lemma culls_ok v n : forall g, inv g -> few g -> pinned g -> (length (g_ents g) <= n)%nat ->
  exists h, culls n v g = Some h /\ inv h /\ (forall e, In e (g_ents h) -> ~ doom h v e).
Proof.
  induction n as [|n IH]; intros g I F P Hl.
  - exists g. split; [reflexivity|]. split; [exact I|]. destruct (g_ents g); cbn in Hl; [|lia]. intros e [].
  - cbn [culls]. destruct (Cull_ok g v I F P) as (h & H & Ih & Fh & Ph & En & O & _ & _ & _ & Id). rewrite H.
    destruct (orphan_dec g v (g_ents g)) as [(e & He & Oe)|N]; [apply I| |].
    + destruct (IH h Ih Fh Ph) as (k & Hk & Ik & Nk); [|eauto].
      pose proof (O e He Oe) as Dead.
      assert (alive h e = false).
      { destruct (alive h e) eqn:A; [|reflexivity]. apply alive_live in A. contradiction. }
      pose proof (filter_less (alive h) (g_ents g) e He H0). rewrite En. lia.
    + rewrite (Id N) in *. exists g. split; [now apply culls_same|]. split; [exact I|exact N].
Qed.

(* ---- groups without orphans ---- *)

Definition closed (g : graph) (S : nat -> Prop) : Prop :=
  forall r n t, look g r = Some n -> In t (tgt n) -> (S r <-> S t).

Lemma closed_dw g h S : dwindle g h -> closed g S -> closed h S.
Proof.
  intros W K r m t Hm Ht. destruct (look g r) as [n|] eqn:E; [|rewrite (dw_none _ _ W r E) in Hm; discriminate].
  apply (K r n t E). now apply (le_tgt _ _ (dw_some _ _ W r n m E Hm)).
Qed.

Lemma destroyed_outside g e h (S : nat -> Prop) : ginv zero g -> live g e -> destroyed g e h -> closed g S ->
  ~ S e -> forall i, S i -> look h i = look g i.
Proof.
  intros G [n E] D K Ne i Si. apply (de_local _ _ _ D n i E).
  - intros ->. contradiction.
  - intros Hi. apply Ne. now apply (K e n i E Hi).
  - intros r m Hr Hm. destruct (link_pointed g e r n G E Hr) as (m' & Hm' & Ht). rewrite Hm in Hm'. injection Hm' as <-.
    assert (Nr : ~ S r) by (intros Q; apply Ne; now apply (K r m e Hm Ht)).
    split; [intros ->; contradiction|]. intros Hi. apply Nr. now apply (K r m i Hm Hi).
Qed.

Lemma cull_outside v (S : nat -> Prop) l : forall g kept h k, ginv zero g -> counted g -> few g -> pinned g -> NoDup l ->
  (forall e, In e l -> live g e) -> closed g S -> (forall e, S e -> ~ doom g v e) ->
  cull_loop g v l kept = Some (h, k) -> forall i, S i -> look h i = look g i.
Proof.
  induction l as [|e l IH]; intros g kept h k G C F P Nd Lv K NO H i Si; cbn [cull_loop] in H.
  - injection H as <- <-. reflexivity.
  - apply NoDup_cons_iff in Nd. destruct Nd as [Ne Nd].
    destruct (Lv e (or_introl eq_refl)) as [n E]. rewrite E in H.
    destruct (doomed v n) eqn:D.
    + assert (NS : ~ S e) by (intros Q; apply (NO e Q); exists n; auto).
      destruct (destroy_ok g e G C) as (g1 & H1 & D1); [now exists n|now apply (doomed_may_die g v e n)|].
      rewrite H1 in H. pose proof (de_dwindle _ _ _ D1) as W1.
      assert (Same : forall i, S i -> look g1 i = look g i) by (apply (destroyed_outside g e g1 S); auto; now exists n).
      rewrite (IH g1 kept h k (de_ginv _ _ _ D1) (de_counted _ _ _ D1) (dw_few _ _ W1 F) (dw_pinned _ _ W1 P) Nd); auto.
      * intros x Hx. apply (de_live _ _ _ D1); [intros ->; contradiction|]. apply Lv. now right.
      * now apply (closed_dw g g1).
      * intros x Sx (p & Hp & Dp). rewrite (Same x Sx) in Hp. apply (NO x Sx). exists p. auto.
    + eapply IH; eauto. intros x Hx. apply Lv. now right.
Qed.

Lemma Cull_group g v a h : inv g -> few g -> pinned g -> (forall b, joined g a b -> ~ doom g v b) ->
  Cull g v = Some h -> forall b, joined g a b -> look h b = look g b.
Proof.
  intros (G & C & S1 & S2) F P NO H b Jb. unfold Cull in H.
  destruct (cull_loop g v (g_ents g) []) as [[h' k]|] eqn:L; [|discriminate]. injection H as <-.
  change (look (with_ents h' k) b) with (look h' b).
  eapply (cull_outside v (joined g a)); eauto.
  intros r n t Hr Ht. assert (Pt : points g r t) by (exists n; split; [exact Hr|now apply (holds_tgt g r n t G C Hr)]).
  split; intros J; [apply (joined_step g a r t J); auto|apply (joined_step g a t r J); auto].
Qed.

(* ---- composite curves ---- *)

Lemma segments_ok g c n : inv g -> look g c = Some n -> n_null n = false -> n_type n = 102 ->
  NoDup (n_items n) /\ ~ In c (n_items n) /\
  (forall x, In x (n_items n) -> exists m, look g x = Some m /\ n_null m = false /\
     In (n_type m) [100; 104; 110; 126] /\ In c (n_refs m)).
Proof.
  intros (G & C & S1 & S2) E Hn T. pose proof (g_shape _ _ G _ _ E) as Sh.
  assert (X : forall x, In x (n_items n) -> exists m, look g x = Some m /\ n_null m = false /\
     In (n_type m) [100; 104; 110; 126] /\ In c (n_refs m)).
  { intros x Hx. destruct (link_listed g c x n G E (in_tgt_items _ _ Hx)) as (m & Hm & Hr).
    exists m. split; [exact Hm|].
    destruct (sh_102 _ _ _ Sh T x (n_type m, n_null m) Hx) as [A B]; [unfold ty; rewrite Hm; reflexivity|]. auto. }
  split; [|split; [|exact X]].
  - apply nodup_cnt. intros x. pose proof (g_one _ _ G c x) as O. rewrite (ct_look _ _ _ _ E), cnt_tgt_eq in O. lia.
  - intros Hc. destruct (X c Hc) as (m & Hm & _ & B & _). rewrite E in Hm. injection Hm as <-. rewrite T in B.
    clear - B. cbv in B. intuition discriminate.
Qed.

(* A segment is deleted. *)
Lemma segment_deleted g c x n h : inv g -> In x (g_ents g) -> may_die g x ->
  look g c = Some n -> n_null n = false -> n_type n = 102 -> In x (n_items n) ->
  run (ODel x) g = Some (true, h) ->
  exists m, look h c = Some m /\ n_items m = left_of x (n_items n) /\
    (forall t, In t (n_items n) -> In t (n_items m) <-> lists h t c).
Proof.
  intros I Hx M E Hn T Hi H. destruct (del_ok g x I Hx M) as (k & _ & Hk & Ik & D).
  cbn [run] in H. rewrite H in Hk. injection Hk as ->.
  destruct (segments_ok g c n I E Hn T) as (Nd & Nc & _).
  assert (Hcut : exists v, look k c = Some (w_refs v (w_items (left_of x (n_items n)) n))).
  { pose proof I as (G & _). pose proof (g_one _ _ G c x) as O. rewrite (ct_look _ _ _ _ E), cnt_tgt_eq in O.
    apply cnt_in in Hi as Hi'.
    destruct (de_cut _ _ _ D c n) as (v & Hv); auto; [intros ->; contradiction|now apply in_tgt_items| |].
    { apply cnt_notin. lia. }
    exists v. change (look k c = Some (w_refs v (cutoff x n))) in Hv. rewrite Hv. unfold cutoff.
    assert (N1 : mem x (ptrs (n_des n)) = false) by (apply mem_notin, cnt_notin; lia).
    assert (N2 : mem x (n_extras n) = false) by (apply mem_notin, cnt_notin; lia).
    now rewrite N1, N2, T. }
  destruct Hcut as (v & Hv).
  set (m := w_refs v (w_items (left_of x (n_items n)) n)) in *.
  exists m. split; [exact Hv|]. split; [reflexivity|]. intros t Ht.
  pose proof Ik as (Gk & Ck & _). split.
  - intros Hm. destruct (link_listed _ c t m Gk Hv (in_tgt_items _ _ Hm)) as (q & Hq & Hr). exists q. auto.
  - intros (q & Hq & Hr). destruct (link_pointed _ t c q Gk Hq Hr) as (m' & Hm' & Hin).
    change (look k c = Some m') in Hm'. rewrite Hv in Hm'. injection Hm' as <-.
    pose proof I as (G & _). pose proof (g_one _ _ G c t) as O. rewrite (ct_look _ _ _ _ E), cnt_tgt_eq in O.
    apply cnt_in in Ht. apply cnt_in in Hin. rewrite cnt_tgt_eq in Hin. unfold m in Hin.
    cbn [n_des n_extras n_slots n_items n_edges n_verts w_refs w_items] in Hin.
    apply cnt_in. unfold m. cbn [n_items w_refs w_items]. lia.
Qed.
