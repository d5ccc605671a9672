(* A model that is as planned keeps its books. *)
From Coq Require Import List Bool ZArith Lia ZifyBool ZifyNat.
From Verif Require Import GraphModel GraphSpec GraphFacts GraphOps GraphEdge GraphProps.
Import ListNotations.
Open Scope Z_scope.

Lemma nodup_cnt1 l x : cnt (nodup Nat.eq_dec l) x = if mem x l then 1%nat else 0%nat.
Proof.
  destruct (mem x l) eqn:Q.
  - apply mem_in in Q. pose proof (cnt_nodup _ (NoDup_nodup Nat.eq_dec l) x). assert (In x (nodup Nat.eq_dec l)) by now apply nodup_In.
    apply cnt_in in H0. lia.
  - apply mem_notin in Q. apply cnt_notin. rewrite nodup_In. exact Q.
Qed.

Lemma tally_absent vs v : ~ In v (map fst vs) -> vcount vs v = 0.
Proof.
  induction vs as [|[w c] vs IH]; cbn [map fst In vcount]; [reflexivity|]. intros H. rewrite IH by tauto.
  destruct (Nat.eqb w v) eqn:Q; [apply Nat.eqb_eq in Q; tauto|lia].
Qed.
Lemma tally_present vs v c : NoDup (map fst vs) -> In (v, c) vs -> vcount vs v = Z.of_nat c.
Proof.
  induction vs as [|[w d] vs IH]; cbn [map fst In vcount]; [tauto|]. intros D H. apply NoDup_cons_iff in D. destruct D as [D1 D2].
  destruct H as [H|H].
  - injection H as -> ->. rewrite Nat.eqb_refl, tally_absent by exact D1. lia.
  - rewrite (IH D2 H). destruct (Nat.eqb w v) eqn:Q; [|lia]. apply Nat.eqb_eq in Q. subst. exfalso. apply D1. apply in_map_iff. exists (v, c). auto.
Qed.
Lemma uses_count l v : uses l v = Z.of_nat (count_occ Nat.eq_dec (flat_map (fun d => [ed_start d; ed_stop d]) l) v).
Proof.
  induction l as [|d l IH]; cbn [flat_map uses app count_occ]; [reflexivity|]. rewrite IH.
  destruct (Nat.eq_dec (ed_start d) v), (Nat.eq_dec (ed_stop d) v), (Nat.eqb (ed_start d) v) eqn:Q1, (Nat.eqb (ed_stop d) v) eqn:Q2;
    apply Nat.eqb_eq in Q1 || apply Nat.eqb_neq in Q1; apply Nat.eqb_eq in Q2 || apply Nat.eqb_neq in Q2; try congruence; lia.
Qed.

Section Read.
Variables (l : list node) (g : graph).
Hypothesis Sd : sound_plan l.
Hypothesis Bk : bookable l.
Hypothesis Rb : rebuilt l g.

Lemma rb_node i m : look g i = Some m -> exists n, nth_error l i = Some n /\ alike n m /\ n_own m = true /\ n_dep m = n_dep n /\ NoDup (n_refs m) /\
                (forall r, In r (n_refs m) <-> exists k, nth_error l r = Some k /\ In i (parts k)) /\
                NoDup (map fst (n_verts m)) /\
                (forall v c, In (v, c) (n_verts m) <-> In v (used n) /\ c = count_occ Nat.eq_dec (used n) v).
Proof.
  destruct Rb as (_ & _ & H). specialize (H i). intros E. rewrite E in H. destruct (nth_error l i) as [n|]; [|contradiction]. exists n. auto.
Qed.
Lemma rb_look i n : nth_error l i = Some n -> exists m, look g i = Some m.
Proof. destruct Rb as (_ & _ & H). specialize (H i). intros E. rewrite E in H. destruct (look g i); [eauto|contradiction]. Qed.

Lemma verts_in i n m : nth_error l i = Some n -> alike n m -> (forall v c, In (v, c) (n_verts m) <-> In v (used n) /\ c = count_occ Nat.eq_dec (used n) v) ->
  forall v, In v (map fst (n_verts m)) <-> In v (flat_map (fun d => [ed_start d; ed_stop d]) (n_edges n)).
Proof.
  intros E A V v. destruct (Bk i n E) as (_ & _ & L0). unfold used in V. rewrite L0 in V. cbn [map] in V.
  rewrite in_map_iff. split.
  - intros ([w c] & <- & H). apply V in H. destruct H as [H _]. rewrite app_nil_r in H. exact H.
  - intros H. exists (v, count_occ Nat.eq_dec (flat_map (fun d => [ed_start d; ed_stop d]) (n_edges n) ++ []) v). split; [reflexivity|]. apply V.
    split; [now rewrite app_nil_r|reflexivity].
Qed.

Lemma tgt_parts i n m : nth_error l i = Some n -> look g i = Some m -> forall x, cnt (tgt m) x = cnt (parts n) x.
Proof.
  intros E Lk x. destruct (rb_node i m Lk) as (n' & E' & A & _ & _ & _ & _ & D & V). rewrite E in E'. injection E' as <-.
  pose proof (verts_in i n m E A V) as Vi. destruct (Bk i n E) as (_ & _ & L0).
  destruct A as (_ & _ & _ & _ & A1 & A2 & A3 & A4 & A5 & A6). unfold tgt, parts, edge_curves. rewrite A1, A2, A3, A4, A5, L0.
  cbn [map flat_map nodup]. rewrite app_nil_r, !cnt_app. f_equal. f_equal. f_equal. f_equal. f_equal.
  cbn [app]. rewrite nodup_cnt1. destruct (mem x _) eqn:Q.
  - apply mem_in in Q. apply Vi in Q. pose proof (cnt_nodup _ D x). apply cnt_in in Q. lia.
  - apply mem_notin in Q. apply cnt_notin. now rewrite Vi.
Qed.

Lemma typed_ty x ts k : typed l x ts -> ty g x = Some k -> In (fst k) ts /\ (~ In 0 ts -> snd k = false).
Proof.
  intros (n & E & I) K. destruct (rb_look x n E) as (m & Lk). unfold ty in K. rewrite Lk in K. cbn [option_map] in K. injection K as <-. cbn [fst snd].
  destruct (rb_node x m Lk) as (n' & E' & (A1 & A2 & _) & _). rewrite E in E'. injection E' as <-. rewrite A1, A2. split; [exact I|].
  intros Z0. destruct (n_null n) eqn:Q; [|reflexivity]. pose proof (f_class _ _ (d_fits _ Sd _ _ E)) as C. rewrite Q in C. rewrite C in I. tauto.
Qed.

Lemma read_shape i m : look g i = Some m -> shape (ty g) i m.
Proof.
  intros Lk. destruct (rb_node i m Lk) as (n & E & A & _ & _ & Dr & Rf & D & V). pose proof (d_fits _ Sd _ _ E) as F.
  pose proof (verts_in i n m E A V) as Vi. destruct (Bk i n E) as (B1 & B2 & B3).
  pose proof (tgt_parts i n m E Lk) as Tp. pose proof A as (A1 & A2 & A3 & A4 & A5 & A6 & A7 & A8 & A9 & A10).
  assert (K : forall x ts k, typed l x ts -> ty g x = Some k -> ~ In 0 ts -> In (fst k) ts /\ snd k = false).
  { intros x ts k H1 H2 H3. destruct (typed_ty x ts k H1 H2). auto. }
  constructor; rewrite ?A1, ?A2, ?A3, ?A5, ?A6, ?A7, ?A8, ?A9, ?A10.
  - apply (f_seven _ _ F).
  - intros H. split.
    + destruct (tgt m) as [|x t] eqn:Q; [reflexivity|]. exfalso. pose proof (Tp x) as X. rewrite (B1 H), cnt_cons, Nat.eqb_refl, cnt_nil in X. lia.
    + destruct (n_refs m) as [|r t] eqn:Q; [reflexivity|]. exfalso. destruct (proj1 (Rf r) (or_introl eq_refl)) as (k & Ek & Pk).
      destruct (d_range _ Sd _ _ _ Ek Pk) as (n' & E' & N'). rewrite E in E'. injection E' as <-. congruence.
  - exact B3.
  - intros T. split; [now apply (f_edges _ _ F)|]. rewrite (f_edges _ _ F T) in Vi. destruct (n_verts m) as [|[v c] t]; [reflexivity|].
    exfalso. apply (proj1 (Vi v)). now left.
  - intros H. pose proof (f_len _ _ F) as Ln. rewrite H in Ln. exact Ln.
  - intros H. apply (f_items _ _ F). exact H.
  - intros T. split; [now apply B2|]. intros k Hk. destruct (nth k (n_des n) None) as [x|] eqn:Q; [|reflexivity]. exfalso.
    destruct (f_des _ _ F k x Q) as [[X _]|[[X [_ Y]]|[X Y]]]; [tauto|tauto|]. pose proof (f_class _ _ F) as C. rewrite Y in C. lia.
  - assert (NS : ~ In i (parts n)) by (intros H; exact (d_apart _ Sd _ _ _ _ E H E H)). unfold parts in NS. rewrite !in_app_iff in NS. tauto.
  - intros x k Hx Hk. destruct (K x _ k (f_extras _ _ F x Hx) Hk) as [[H|[]] H2]; [cbn; lia|]. destruct k as [a b]. cbn in *. congruence.
  - intros x k Hx Hk. destruct (f_des _ _ F 4 x Hx) as [[_ X]|[[X _]|[X _]]]; [|discriminate|discriminate].
    destruct (K x _ k X Hk) as [[H|[]] H2]; [cbn; lia|]. destruct k as [a b]. cbn in *. congruence.
  - intros T x k Hx Hk. destruct (K x _ k (f_102 _ _ F T x Hx) Hk) as [H1 H2]; [cbn; lia|]. auto.
  - intros v c H. apply V in H. destruct H as [H ->]. apply (count_occ_In Nat.eq_dec) in H. lia.
  - intros v k H Hk. apply Vi in H. assert (T : n_type n = 504).
    { destruct (Z.eq_dec (n_type n) 504) as [X|X]; [exact X|]. rewrite (f_edges _ _ F X) in H. destruct H. }
    apply in_flat_map in H. destruct H as (d & Hd & H). destruct (f_504 _ _ F T d Hd) as (_ & H1 & H2).
    assert (Tv : typed l v [502]) by (destruct H as [<-|[<-|[]]]; assumption).
    destruct (K v _ k Tv Hk) as [[H3|[]] H4]; [cbn; lia|]. destruct k as [a b]. cbn in *. congruence.
  - intros x k H Hk. assert (T : n_type n = 504).
    { destruct (Z.eq_dec (n_type n) 504) as [X|X]; [exact X|]. rewrite (f_edges _ _ F X) in H. destruct H. }
    unfold edge_curves in H. apply in_map_iff in H. destruct H as (d & <- & Hd). destruct (f_504 _ _ F T d Hd) as (H1 & _).
    destruct (K _ _ k H1 Hk) as [H3 _]; [cbn; lia|]. unfold curves in H3. cbn [In] in H3. lia.
  - intros T _. now apply (f_406 _ _ F).
  - intros H. pose proof (f_class _ _ F) as C. rewrite H in C. exact C.
Qed.

Lemma read_inv : inv g.
Proof.
  split; [|split].
  - constructor.
    + intros a b. unfold zero, ct, cr, T, R. destruct (look g b) as [mb|] eqn:Lb.
      * destruct (rb_node b mb Lb) as (nb & Eb & _ & _ & _ & Db & Rf & _). destruct (look g a) as [ma|] eqn:La.
        -- destruct (rb_node a ma La) as (na & Ea & _). rewrite (tgt_parts a na ma Ea La).
           pose proof (cnt_nodup _ (d_once _ Sd _ _ Ea) b). pose proof (cnt_nodup _ Db a).
           assert (X : In a (n_refs mb) <-> In b (parts na)).
           { rewrite Rf. split; [intros (k & Ek & Pk); congruence|]. intros P. exists na. auto. }
           rewrite !cnt_in in X. lia.
        -- assert (X : ~ In a (n_refs mb)). { intros X. apply Rf in X. destruct X as (k & Ek & _). destruct (rb_look a k Ek). congruence. }
           apply cnt_notin in X. rewrite X, cnt_nil. lia.
      * rewrite cnt_nil. destruct (look g a) as [ma|] eqn:La; [|rewrite cnt_nil; lia].
        destruct (rb_node a ma La) as (na & Ea & _). rewrite (tgt_parts a na ma Ea La).
        assert (X : ~ In b (parts na)). { intros X. destruct (d_range _ Sd _ _ _ Ea X) as (nb & Eb & _). destruct (rb_look b nb Eb). congruence. }
        apply cnt_notin in X. rewrite X. lia.
    + intros a b. unfold ct, cr, T, R. split.
      * destruct (look g a) as [ma|] eqn:La; [|rewrite cnt_nil; lia]. destruct (rb_node a ma La) as (na & Ea & _).
        rewrite (tgt_parts a na ma Ea La). exact (cnt_nodup _ (d_once _ Sd _ _ Ea) b).
      * destruct (look g b) as [mb|] eqn:Lb; [|rewrite cnt_nil; lia]. destruct (rb_node b mb Lb) as (nb & Eb & _ & _ & _ & Db & _).
        exact (cnt_nodup _ Db a).
    + exact read_shape.
    + intros e H. destruct Rb as (_ & Nx & Hr). specialize (Hr e). assert (E : nth_error l e = None) by (apply nth_error_None; lia).
      rewrite E in Hr. destruct (look g e); [contradiction|reflexivity].
  - intros e m Lk v. destruct (rb_node e m Lk) as (n & E & A & _ & _ & _ & _ & D & V). destruct A as (_ & _ & _ & _ & _ & _ & _ & _ & A9 & _).
    destruct (Bk e n E) as (_ & _ & B3). rewrite A9, uses_count. unfold used in V. rewrite B3 in V. cbn [map] in V.
    set (u := flat_map (fun d => [ed_start d; ed_stop d]) (n_edges n)) in *. rewrite app_nil_r in V.
    destruct (in_dec Nat.eq_dec v u) as [I|NI].
    + rewrite (tally_present _ v (count_occ Nat.eq_dec u v) D); [reflexivity|]. apply V. auto.
    + rewrite tally_absent.
      * apply (count_occ_not_In Nat.eq_dec) in NI. rewrite NI. reflexivity.
      * intros H. apply in_map_iff in H. destruct H as ([w c] & <- & H). apply V in H. cbn in NI. tauto.
  - destruct Rb as (E & _ & _). split; rewrite E; [apply seq_NoDup|]. intros e H. apply in_seq in H.
    destruct (nth_error l e) as [n|] eqn:Q; [|apply nth_error_None in Q; lia]. destruct (rb_look e n Q) as (m & Lk). now exists m.
Qed.
End Read.

Lemma inv_read g : read_in g -> inv g.
Proof. intros (l & A & B & C). exact (read_inv l g A B C). Qed.
