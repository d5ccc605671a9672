(* Counting links: the invariant behind the object graph, and what the primitive
   operations do to it. *)
From Coq Require Import List Bool ZArith Lia ZifyBool ZifyNat.
From Verif Require Import GraphModel GraphSpec.
Import ListNotations.
Open Scope Z_scope.

Definition cnt (l : list nat) (x : nat) : nat := count_occ Nat.eq_dec l x.

Lemma cnt_app l m x : cnt (l ++ m) x = (cnt l x + cnt m x)%nat.
Proof. apply count_occ_app. Qed.
Lemma cnt_cons y l x : cnt (y :: l) x = ((if Nat.eqb y x then 1 else 0) + cnt l x)%nat.
Proof.
  unfold cnt; simpl. destruct (Nat.eq_dec y x) as [->|H].
  - now rewrite Nat.eqb_refl.
  - apply Nat.eqb_neq in H; now rewrite H.
Qed.
Lemma cnt_nil x : cnt [] x = 0%nat.
Proof. reflexivity. Qed.
Lemma cnt_in l x : In x l <-> (1 <= cnt l x)%nat.
Proof. unfold cnt. rewrite (count_occ_In Nat.eq_dec). lia. Qed.
Lemma cnt_notin l x : ~ In x l <-> cnt l x = 0%nat.
Proof. rewrite cnt_in. lia. Qed.
Lemma mem_cnt x l : mem x l = Nat.leb 1 (cnt l x).
Proof.
  unfold mem. induction l as [|y l IH]; cbn [existsb]; [reflexivity|].
  rewrite cnt_cons, IH, Nat.eqb_sym. destruct (Nat.eqb y x); lia.
Qed.
Lemma mem_in x l : mem x l = true <-> In x l.
Proof. rewrite mem_cnt, cnt_in. lia. Qed.
Lemma mem_notin x l : mem x l = false <-> ~ In x l.
Proof. rewrite mem_cnt, cnt_in. lia. Qed.
Lemma zmem_in x l : zmem x l = true <-> In x l.
Proof.
  unfold zmem. rewrite existsb_exists. split.
  - intros (y & H & E); apply Z.eqb_eq in E; now subst.
  - intros H; exists x; now rewrite Z.eqb_refl.
Qed.
Lemma cnt_rem1 y l x : cnt (rem1 y l) x = (cnt l x - (if Nat.eqb y x then 1 else 0))%nat.
Proof.
  induction l as [|z l IH]; cbn [rem1]; [rewrite !cnt_nil; lia|].
  destruct (Nat.eqb y z) eqn:E.
  - apply Nat.eqb_eq in E; subst. rewrite cnt_cons. lia.
  - rewrite !cnt_cons, IH.
    destruct (Nat.eqb z x) eqn:F, (Nat.eqb y x) eqn:G; try lia.
Qed.
Lemma cnt_clear1 y l x : cnt (ptrs (clear1 y l)) x = (cnt (ptrs l) x - (if Nat.eqb y x then 1 else 0))%nat.
Proof.
  induction l as [|[z|] l IH]; cbn [clear1 ptrs]; [rewrite !cnt_nil; lia| |exact IH].
  destruct (Nat.eqb y z) eqn:E; cbn [ptrs].
  - apply Nat.eqb_eq in E; subst. rewrite cnt_cons. lia.
  - rewrite !cnt_cons, IH. destruct (Nat.eqb z x) eqn:F, (Nat.eqb y x) eqn:G; lia.
Qed.
Definition cnto (o : option nat) (x : nat) : nat :=
  match o with None => 0%nat | Some y => if Nat.eqb y x then 1%nat else 0%nat end.
Lemma cnt_set_nth k v l x : (k < length l)%nat ->
  (cnt (ptrs (set_nth k v l)) x + cnto (nth k l None) x = cnt (ptrs l) x + cnto v x)%nat.
Proof.
  revert k; induction l as [|a l IH]; intros k H; cbn [length] in H; [lia|].
  destruct k as [|k]; cbn [set_nth nth].
  - destruct v, a; cbn [ptrs cnto]; rewrite ?cnt_cons; lia.
  - specialize (IH k ltac:(lia)). destruct a; cbn [ptrs]; rewrite ?cnt_cons; lia.
Qed.
Lemma set_nth_length {A} k (v : A) l : length (set_nth k v l) = length l.
Proof. revert k; induction l; intros [|k]; cbn; auto. Qed.
Lemma nth_set_nth {A} k (v : A) l j d : (k < length l)%nat ->
  nth j (set_nth k v l) d = if Nat.eqb j k then v else nth j l d.
Proof.
  revert k j; induction l as [|a l IH]; intros k j H; cbn [length] in H; [lia|].
  destruct k, j; cbn [set_nth nth]; try reflexivity. rewrite IH by lia. reflexivity.
Qed.
Lemma set_nth_back {A} k (v d : A) l : nth k l d = d -> set_nth k d (set_nth k v l) = l.
Proof.
  revert k; induction l as [|a l IH]; intros [|k] H; cbn in *; try reflexivity.
  - now subst.
  - now rewrite IH.
Qed.
Lemma clear1_length x l : length (clear1 x l) = length l.
Proof. induction l as [|[y|] l IH]; cbn; auto. destruct (Nat.eqb x y); cbn; auto. Qed.
Lemma nth_clear1 x l k : nth k (clear1 x l) None = nth k l None \/ nth k (clear1 x l) None = None.
Proof.
  revert k; induction l as [|[y|] l IH]; intros k; cbn [clear1]; [now left| |].
  - destruct (Nat.eqb x y).
    + destruct k; [now right|now left].
    + destruct k; [now left|apply IH].
  - destruct k; [now left|apply IH].
Qed.
Lemma ptrs_in x l : In x (ptrs l) <-> In (Some x) l.
Proof.
  induction l as [|[y|] l IH]; cbn [ptrs In]; [tauto| |].
  - rewrite IH. split; (intros [H|H]; [left; congruence|now right]).
  - rewrite IH. split; intros H; auto. destruct H; [discriminate|auto].
Qed.
Lemma nth_ptrs k l x : nth k l None = Some x -> In x (ptrs l).
Proof.
  intros H. apply ptrs_in. rewrite <- H. apply nth_In.
  destruct (Nat.ltb k (length l)) eqn:E; [lia|].
  rewrite nth_overflow in H by lia. discriminate.
Qed.
Lemma nodup_cnt l : (forall x, cnt l x <= 1)%nat -> NoDup l.
Proof. intros H. apply (NoDup_count_occ Nat.eq_dec). exact H. Qed.
Lemma cnt_nodup l : NoDup l -> forall x, (cnt l x <= 1)%nat.
Proof. intros H. apply (NoDup_count_occ Nat.eq_dec). exact H. Qed.

Lemma nodup_snoc (l : list nat) x : NoDup l -> ~ In x l -> NoDup (l ++ [x]).
Proof.
  intros H N. apply nodup_cnt. intros y. rewrite cnt_app, cnt_cons, cnt_nil.
  pose proof (cnt_nodup l H y). apply cnt_notin in N.
  destruct (Nat.eqb x y) eqn:E; [apply Nat.eqb_eq in E; subst|]; lia.
Qed.

(* the pointers of an entity, vertex lists once each *)
Definition tgt (n : node) : list nat :=
  ptrs (n_des n) ++ n_extras n ++ ptrs (n_slots n) ++ n_items n ++ edge_curves (n_edges n)
  ++ map fst (n_verts n).

Definition T (g : graph) (e : nat) : list nat := match look g e with Some n => tgt n | None => [] end.
Definition R (g : graph) (e : nat) : list nat := match look g e with Some n => n_refs n | None => [] end.
Definition ct (g : graph) (a b : nat) : nat := cnt (T g a) b.
Definition cr (g : graph) (a b : nat) : nat := cnt (R g b) a.
Definition ty (g : graph) (e : nat) : option (Z * bool) :=
  option_map (fun n => (n_type n, n_null n)) (look g e).

Definition item_kinds : list Z := [102; 144; 180; 186; 308; 510; 514].

Record shape (tyf : nat -> option (Z * bool)) (e : nat) (n : node) : Prop := {
  sh_len : length (n_des n) = 7%nat;
  sh_null : n_null n = true -> tgt n = [] /\ n_refs n = [];
  sh_loops : n_loops n = [];
  sh_vert : n_type n <> 504 -> n_edges n = [] /\ n_verts n = [];
  sh_slots : n_null n = false -> length (n_slots n) = length (blank_slots (n_type n));
  sh_items : ~ In (n_type n) item_kinds -> n_items n = [];
  sh_124 : n_type n = 124 -> n_extras n = [] /\ (forall k, k <> 4%nat -> nth k (n_des n) None = None);
  sh_self : ~ In e (ptrs (n_des n)) /\ ~ In e (n_extras n);
  sh_extras : forall x k, In x (n_extras n) -> tyf x = Some k -> k = (406, false);
  sh_des4 : forall x k, nth 4 (n_des n) None = Some x -> tyf x = Some k -> k = (124, false);
  sh_102 : n_type n = 102 -> forall x k, In x (n_items n) -> tyf x = Some k ->
           snd k = false /\ In (fst k) [100; 104; 110; 126];
  sh_pos : forall v c, In (v, c) (n_verts n) -> (1 <= c)%nat;
  sh_504v : forall v k, In v (map fst (n_verts n)) -> tyf v = Some k -> k = (502, false);
  sh_504c : forall x k, In x (edge_curves (n_edges n)) -> tyf x = Some k -> fst k <> 502;
  sh_form : n_type n = 406 -> n_null n = false -> n_form n = 15;
  sh_known : n_null n = false -> In (n_type n) known }.

(* D is what is still owed: pointers removed before their referrer entry or after *)
Record ginv (D : nat -> nat -> Z) (g : graph) : Prop := {
  g_link : forall a b, Z.of_nat (ct g a b) + D a b = Z.of_nat (cr g a b);
  g_one : forall a b, (ct g a b <= 1)%nat /\ (cr g a b <= 1)%nat;
  g_shape : forall e n, look g e = Some n -> shape (ty g) e n;
  g_fresh : forall e, (g_next g <= e)%nat -> look g e = None }.

Definition zero : nat -> nat -> Z := fun _ _ => 0.
Definition pair (e x : nat) (v : Z) : nat -> nat -> Z :=
  fun a b => if Nat.eqb a e && Nat.eqb b x then v else 0.

Lemma ginv_ext D D' g : (forall a b, D a b = D' a b) -> ginv D g -> ginv D' g.
Proof.
  intros H [L O S F]. split; auto. intros a b. now rewrite <- H.
Qed.

(* graphs with the same entities *)
Definition same (g h : graph) : Prop := forall i, look h i = look g i.
Lemma same_ginv D g h : same g h -> g_next h = g_next g -> ginv D g -> ginv D h.
Proof.
  intros E En [L O S F]. split.
  - intros a b. unfold ct, cr, T, R. rewrite !E. apply (L a b).
  - intros a b. unfold ct, cr, T, R. rewrite !E. apply (O a b).
  - intros e n H. rewrite E in H. specialize (S e n H).
    destruct S; split; auto; unfold ty in *; intros; rewrite E in *; eauto.
  - intros e H. rewrite E. apply F. now rewrite <- En.
Qed.

Lemma look_put g i n j : look (put g i n) j = if Nat.eqb j i then Some n else look g j.
Proof. reflexivity. Qed.
Lemma look_put_eq g i n : look (put g i n) i = Some n.
Proof. rewrite look_put. now rewrite Nat.eqb_refl. Qed.
Lemma look_put_ne g i n j : j <> i -> look (put g i n) j = look g j.
Proof. intros H. rewrite look_put. apply Nat.eqb_neq in H. now rewrite H. Qed.

Definition like (n m : node) : Prop := n_type m = n_type n /\ n_null m = n_null n.

Lemma ty_put g i n m : look g i = Some n -> like n m -> forall x, ty (put g i m) x = ty g x.
Proof.
  intros H [A B] x. unfold ty. rewrite look_put. destruct (Nat.eqb x i) eqn:E; [|reflexivity].
  apply Nat.eqb_eq in E; subst. rewrite H. simpl. now rewrite A, B.
Qed.

Lemma ct_put g i m a b : ct (put g i m) a b = if Nat.eqb a i then cnt (tgt m) b else ct g a b.
Proof. unfold ct, T. rewrite look_put. destruct (Nat.eqb a i); reflexivity. Qed.
Lemma cr_put g i m a b : cr (put g i m) a b = if Nat.eqb b i then cnt (n_refs m) a else cr g a b.
Proof. unfold cr, R. rewrite look_put. destruct (Nat.eqb b i); reflexivity. Qed.
Lemma ct_look g i n b : look g i = Some n -> ct g i b = cnt (tgt n) b.
Proof. intros H. unfold ct, T. now rewrite H. Qed.
Lemma cr_look g i n a : look g i = Some n -> cr g a i = cnt (n_refs n) a.
Proof. intros H. unfold cr, R. now rewrite H. Qed.
Lemma ct_dead g i b : look g i = None -> ct g i b = 0%nat.
Proof. intros H. unfold ct, T. now rewrite H. Qed.
Lemma cr_dead g i a : look g i = None -> cr g a i = 0%nat.
Proof. intros H. unfold cr, R. now rewrite H. Qed.

Lemma shape_ext f h e n : (forall x, f x = h x) -> shape f e n -> shape h e n.
Proof.
  intros E [a1 a2 a3 a4 a5 a6 a7 a8 a9 a10 a11 a12 a13 a14 a15 a16]. split; auto.
  - intros x k H1 H2. rewrite <- E in H2. eauto.
  - intros x k H1 H2. rewrite <- E in H2. eauto.
  - intros Ht x k H1 H2. rewrite <- E in H2. eauto.
  - intros x k H1 H2. rewrite <- E in H2. eauto.
  - intros x k H1 H2. rewrite <- E in H2. eauto.
Qed.
Lemma shape_less f h e n : (forall x k, h x = Some k -> f x = Some k) -> shape f e n -> shape h e n.
Proof.
  intros E [a1 a2 a3 a4 a5 a6 a7 a8 a9 a10 a11 a12 a13 a14 a15 a16]. split; auto.
  - intros x k H1 H2. apply E in H2. eauto.
  - intros x k H1 H2. apply E in H2. eauto.
  - intros Ht x k H1 H2. apply E in H2. eauto.
  - intros x k H1 H2. apply E in H2. eauto.
  - intros x k H1 H2. apply E in H2. eauto.
Qed.

(* Replacing one entity. *)
Lemma ginv_put D D' g i n m :
  ginv D g -> look g i = Some n -> like n m -> shape (ty g) i m ->
  (forall b, (cnt (tgt m) b <= 1)%nat) -> (forall a, (cnt (n_refs m) a <= 1)%nat) ->
  (forall a b, D' a b = D a b
     + (if Nat.eqb a i then Z.of_nat (cnt (tgt n) b) - Z.of_nat (cnt (tgt m) b) else 0)
     + (if Nat.eqb b i then Z.of_nat (cnt (n_refs m) a) - Z.of_nat (cnt (n_refs n) a) else 0)) ->
  ginv D' (put g i m).
Proof.
  intros [L O S F] E K Sh B1 B2 HD. split.
  - intros a b. rewrite HD, ct_put, cr_put. specialize (L a b).
    destruct (Nat.eqb a i) eqn:Ea; destruct (Nat.eqb b i) eqn:Eb;
      try (apply Nat.eqb_eq in Ea; subst a); try (apply Nat.eqb_eq in Eb; subst b);
      rewrite ?(ct_look _ _ _ _ E), ?(cr_look _ _ _ _ E) in L; lia.
  - intros a b. rewrite ct_put, cr_put. destruct (O a b) as [O1 O2].
    destruct (Nat.eqb a i), (Nat.eqb b i); split; auto.
  - intros e p H. apply (shape_ext (ty g)).
    { intros x; symmetry; now apply ty_put with (n := n). }
    rewrite look_put in H. destruct (Nat.eqb e i) eqn:Ee.
    + apply Nat.eqb_eq in Ee; subst. injection H as <-. exact Sh.
    + now apply S.
  - intros e H. rewrite look_put. destruct (Nat.eqb e i) eqn:Ee; [|now apply F].
    apply Nat.eqb_eq in Ee; subst. rewrite (F i H) in E. discriminate.
Qed.

(* Changes that touch neither pointers nor referrers nor what shape looks at. *)
Definition cosmetic (n m : node) : Prop :=
  n_type m = n_type n /\ n_null m = n_null n /\ n_form m = n_form n /\ n_refs m = n_refs n
  /\ n_des m = n_des n /\ n_extras m = n_extras n /\ n_slots m = n_slots n
  /\ n_items m = n_items n /\ n_edges m = n_edges n /\ n_verts m = n_verts n
  /\ n_loops m = n_loops n.

Lemma cosmetic_tgt n m : cosmetic n m -> tgt m = tgt n.
Proof. intros (a&b&c&d&e&f&g&h&i&j&k). unfold tgt. now rewrite e, f, g, h, i, j. Qed.

Lemma cosmetic_shape f e n m : cosmetic n m -> shape f e n -> shape f e m.
Proof.
  intros C Sh. pose proof (cosmetic_tgt _ _ C) as Ht.
  destruct C as (a&b&c&d&e'&f'&g&h&i&j&k).
  destruct Sh as [a1 a2 a3 a4 a5 a6 a7 a8 a9 a10 a11 a12 a13 a14 a15 a16].
  split; rewrite ?Ht, ?a, ?b, ?c, ?d, ?e', ?f', ?g, ?h, ?i, ?j, ?k; auto.
Qed.

Lemma ginv_cosmetic D g i n m :
  ginv D g -> look g i = Some n -> cosmetic n m -> ginv D (put g i m).
Proof.
  intros G E C. pose proof (cosmetic_tgt _ _ C) as Ht.
  assert (Hr : n_refs m = n_refs n) by (destruct C as (a&b&c&d&_); exact d).
  apply (ginv_put D D g i n m G E).
  - destruct C as (a&b&_); now split.
  - apply (cosmetic_shape _ _ n); [exact C|]. now apply (g_shape _ _ G).
  - intros b. rewrite Ht. destruct (g_one _ _ G i b) as [H _].
    now rewrite (ct_look _ _ _ _ E) in H.
  - intros a. rewrite Hr. destruct (g_one _ _ G a i) as [_ H].
    now rewrite (cr_look _ _ _ _ E) in H.
  - intros a b. rewrite Ht, Hr. destruct (Nat.eqb a i), (Nat.eqb b i); lia.
Qed.

(* Only the referrers change. *)
Lemma tgt_refs v n : tgt (w_refs v n) = tgt n.
Proof. reflexivity. Qed.
Lemma shape_refs f e n v : (n_null n = true -> v = []) -> shape f e n -> shape f e (w_refs v n).
Proof.
  intros Hv [a1 a2 a3 a4 a5 a6 a7 a8 a9 a10 a11 a12 a13 a14 a15 a16].
  split; auto. intros H. cbn [n_null w_refs] in H. destruct (a2 H). split; auto.
Qed.

Lemma ginv_refs D D' g i n v :
  ginv D g -> look g i = Some n -> (n_null n = true -> v = []) ->
  (forall a, (cnt v a <= 1)%nat) ->
  (forall a b, D' a b = D a b
     + (if Nat.eqb b i then Z.of_nat (cnt v a) - Z.of_nat (cnt (n_refs n) a) else 0)) ->
  ginv D' (put g i (w_refs v n)).
Proof.
  intros G E Hn Hv HD. apply (ginv_put D D' g i n); auto.
  - now split.
  - apply shape_refs; [exact Hn|]. now apply (g_shape _ _ G).
  - intros b. rewrite tgt_refs. destruct (g_one _ _ G i b) as [H _].
    now rewrite (ct_look _ _ _ _ E) in H.
  - intros a b. rewrite HD, tgt_refs. cbn [n_refs w_refs]. destruct (Nat.eqb a i); lia.
Qed.

(* c->delReference(p) when c does list p *)
Lemma delReference_ok D g c p n :
  ginv D g -> look g c = Some n -> In p (n_refs n) ->
  delReference g c p = Some (true, put g c (w_refs (rem1 p (n_refs n)) n)) /\
  ginv (fun a b => D a b - pair p c 1 a b) (put g c (w_refs (rem1 p (n_refs n)) n)).
Proof.
  intros G E H. assert (Hn : n_null n = false).
  { destruct (n_null n) eqn:Hn; [|reflexivity].
    destruct (sh_null _ _ _ (g_shape _ _ G _ _ E) Hn) as [_ H0]. rewrite H0 in H. destruct H. }
  split.
  - unfold delReference. rewrite E, Hn. apply mem_in in H. now rewrite H.
  - apply (ginv_refs D _ g c n); auto.
    + congruence.
    + intros a. rewrite cnt_rem1. destruct (g_one _ _ G a c) as [_ H1].
      rewrite (cr_look _ _ _ _ E) in H1. lia.
    + intros a b. unfold pair. rewrite cnt_rem1. apply cnt_in in H.
      destruct (Nat.eqb b c) eqn:Eb; rewrite ?andb_true_r, ?andb_false_r; [|lia].
      rewrite (Nat.eqb_sym p a). destruct (Nat.eqb a p) eqn:Ea; [|lia].
      apply Nat.eqb_eq in Ea; subst. lia.
Qed.

(* c->addReference(p) that adds *)
Lemma addReference_cases g c p n m :
  look g c = Some n -> look g p = Some m ->
  addReference g c p = Some (Refused, g) \/ addReference g c p = Some (Already, g) \/
  (addReference g c p = Some (Added, put g c (w_refs (n_refs n ++ [p]) n)) /\
   forbids n c p (n_type m) = false /\ ~ In p (n_refs n) /\ ~ In p (n_extras n)).
Proof.
  intros E F. unfold addReference. rewrite E, F.
  destruct (forbids n c p (n_type m)); [now left|].
  destruct (mem p (n_refs n)) eqn:A; [right; now left|].
  destruct (mem p (n_extras n)) eqn:B; [right; now left|].
  right; right. simpl. apply mem_notin in A. apply mem_notin in B. auto.
Qed.

Lemma forbids_null n c p t : forbids n c p t = false -> n_null n = false.
Proof. unfold forbids. destruct (n_null n); [discriminate|reflexivity]. Qed.

Lemma added_ok D g c p n :
  ginv D g -> look g c = Some n -> n_null n = false -> ~ In p (n_refs n) ->
  ginv (fun a b => D a b + pair p c 1 a b) (put g c (w_refs (n_refs n ++ [p]) n)).
Proof.
  intros G E Hn H. apply (ginv_refs D _ g c n); auto.
  - congruence.
  - intros a. rewrite cnt_app, cnt_cons, cnt_nil. apply cnt_notin in H.
    destruct (g_one _ _ G a c) as [_ H1]. rewrite (cr_look _ _ _ _ E) in H1.
    destruct (Nat.eqb p a) eqn:Ea; [apply Nat.eqb_eq in Ea; subst|]; lia.
  - intros a b. unfold pair. rewrite cnt_app, cnt_cons, cnt_nil, (Nat.eqb_sym p a).
    destruct (Nat.eqb b c), (Nat.eqb a p); simpl; lia.
Qed.

(* Setting or clearing one pointer settles a debt. *)
Lemma ginv_grow D D' g e n m x :
  ginv D g -> (forall a b, D a b = D' a b + pair e x 1 a b) -> 0 <= D' e x ->
  look g e = Some n -> like n m -> shape (ty g) e m -> n_refs m = n_refs n ->
  (forall b, cnt (tgt m) b = (cnt (tgt n) b + if Nat.eqb x b then 1 else 0)%nat) ->
  ginv D' (put g e m).
Proof.
  intros G HD Hz E K Sh Hr Ht. apply (ginv_put D D' g e n m); auto.
  - intros b. rewrite Ht. pose proof (g_link _ _ G e b) as L. pose proof (g_one _ _ G e b) as O.
    rewrite HD, (ct_look _ _ _ _ E) in L. rewrite (ct_look _ _ _ _ E) in O.
    unfold pair in L. rewrite Nat.eqb_refl, (Nat.eqb_sym b x) in L.
    destruct (Nat.eqb x b) eqn:Eb; cbn [andb] in L; [|lia].
    apply Nat.eqb_eq in Eb; subst. lia.
  - intros a. rewrite Hr. destruct (g_one _ _ G a e) as [_ H].
    now rewrite (cr_look _ _ _ _ E) in H.
  - intros a b. rewrite HD, Ht, Hr. unfold pair. rewrite (Nat.eqb_sym b x).
    destruct (Nat.eqb a e), (Nat.eqb b e), (Nat.eqb x b); cbn [andb]; lia.
Qed.

Lemma ginv_shrink D D' g e n m x :
  ginv D g -> (forall a b, D a b = D' a b - pair e x 1 a b) -> In x (tgt n) ->
  look g e = Some n -> like n m -> shape (ty g) e m -> n_refs m = n_refs n ->
  (forall b, cnt (tgt m) b = (cnt (tgt n) b - if Nat.eqb x b then 1 else 0)%nat) ->
  ginv D' (put g e m).
Proof.
  intros G HD Hin E K Sh Hr Ht. apply (ginv_put D D' g e n m); auto.
  - intros b. rewrite Ht. pose proof (g_one _ _ G e b) as O.
    rewrite (ct_look _ _ _ _ E) in O. lia.
  - intros a. rewrite Hr. destruct (g_one _ _ G a e) as [_ H].
    now rewrite (cr_look _ _ _ _ E) in H.
  - intros a b. rewrite HD, Ht, Hr. unfold pair. rewrite (Nat.eqb_sym b x).
    apply cnt_in in Hin.
    destruct (Nat.eqb a e), (Nat.eqb b e); destruct (Nat.eqb x b) eqn:Eb; cbn [andb];
      try (apply Nat.eqb_eq in Eb; subst); lia.
Qed.

(* ---- what stays when no entity is created or destroyed ---- *)

Definition store (g : graph) : Prop := NoDup (g_ents g) /\ forall e, In e (g_ents g) -> live g e.

Record frame (g h : graph) : Prop := {
  f_next : g_next h = g_next g;
  f_some : forall i n, look g i = Some n ->
           exists m, look h i = Some m /\ like n m /\ n_edges m = n_edges n /\ n_verts m = n_verts n;
  f_none : forall i, look g i = None -> look h i = None;
  f_store : store g -> store h }.

Lemma frame_refl g : frame g g.
Proof. split; auto. intros i n H. exists n. repeat split; auto. Qed.
Lemma frame_trans g h k : frame g h -> frame h k -> frame g k.
Proof.
  intros A B. split.
  - rewrite (f_next _ _ B). apply (f_next _ _ A).
  - intros i n H. destruct (f_some _ _ A i n H) as (m & H1 & [K1 K2] & V1 & V2).
    destruct (f_some _ _ B i m H1) as (p & H2 & [K3 K4] & V3 & V4).
    exists p. split; [exact H2|]. split; [split; congruence|]. split; congruence.
  - intros i H. apply (f_none _ _ B), (f_none _ _ A), H.
  - intros H. apply (f_store _ _ B), (f_store _ _ A), H.
Qed.
Lemma frame_live g h e : frame g h -> live g e -> live h e.
Proof. intros F [n H]. destruct (f_some _ _ F e n H) as (m & H1 & _). now exists m. Qed.

Lemma put_live g i m e : live g e -> live (put g i m) e.
Proof.
  intros [n H]. unfold live. rewrite look_put. destruct (Nat.eqb e i); eauto.
Qed.
Lemma frame_put g i n m : look g i = Some n -> like n m -> n_edges m = n_edges n ->
  n_verts m = n_verts n -> frame g (put g i m).
Proof.
  intros E K V1 V2. split.
  - reflexivity.
  - intros j p H. rewrite look_put. destruct (Nat.eqb j i) eqn:Ej.
    + apply Nat.eqb_eq in Ej; subst. exists m. rewrite E in H. injection H as <-. auto.
    + exists p. repeat split; auto.
  - intros j H. rewrite look_put. destruct (Nat.eqb j i) eqn:Ej; [|exact H].
    apply Nat.eqb_eq in Ej; subst. congruence.
  - intros [A B]. split; [exact A|]. intros e H. apply put_live, B, H.
Qed.

Lemma cosmetic_frame g i n m : look g i = Some n -> cosmetic n m -> frame g (put g i m).
Proof.
  intros E C. apply (frame_put g i n m E).
  - destruct C as (a&b&_); now split.
  - now destruct C as (a&b&c&d&e&f&h&j&k&l&p).
  - now destruct C as (a&b&c&d&e&f&h&j&k&l&p).
Qed.

Lemma ginv_ents D g l : ginv D g -> ginv D (with_ents g l).
Proof. apply same_ginv; [intro; reflexivity|reflexivity]. Qed.

(* adoption *)
Lemma adopt_ok D g e x : ginv D g -> live g e -> live g x ->
  exists h, adopt g e x = Some h /\ ginv D h /\ frame g h.
Proof.
  intros G [n E] [m F]. unfold adopt. rewrite E, F.
  destruct (n_own n && negb (n_own m)).
  - unfold AddEntity. rewrite F. destruct (mem x (g_ents g)) eqn:M.
    + exists g. split; [reflexivity|]. split; [exact G|apply frame_refl].
    + eexists. split; [reflexivity|].
      assert (C : cosmetic m (w_own true m)) by (repeat split).
      split.
      * apply ginv_ents. now apply (ginv_cosmetic D g x m).
      * pose proof (cosmetic_frame g x m _ F C) as Fr. destruct Fr as [A B Cc Dd].
        split; [exact A|exact B|exact Cc|].
        intros St. split.
        -- cbn [g_ents with_ents]. apply mem_notin in M. destruct St as [St _].
           now apply nodup_snoc.
        -- cbn [g_ents with_ents]. intros y Hy. apply in_app_or in Hy.
           destruct Hy as [Hy|[<-|[]]].
           ++ destruct (Dd St) as [_ H]. apply H. exact Hy.
           ++ exists (w_own true m). apply look_put_eq.
  - exists g. split; [reflexivity|]. split; [exact G|apply frame_refl].
Qed.

Lemma SetDependency_ok D g x d : ginv D g -> live g x ->
  exists b h, SetDependency g x d = Some (b, h) /\ ginv D h /\ frame g h /\
   (forall i, i <> x -> look h i = look g i) /\
   (forall n, look g x = Some n -> exists m, look h x = Some m /\ cosmetic n m).
Proof.
  intros G [n E]. unfold SetDependency. rewrite E.
  assert (C : cosmetic n n) by (repeat split).
  destruct (n_null n).
  { exists false, g. repeat (split; [now auto using frame_refl|]). intros p Hp. exists n. rewrite ?E in Hp.
    injection Hp as <-. split; [exact E|exact C]. }
  destruct (zmem (n_type n) [124; 314]).
  { exists true, g. repeat (split; [now auto using frame_refl|]). intros p Hp. exists n. rewrite ?E in Hp.
    injection Hp as <-. split; [exact E|exact C]. }
  destruct (zmem (n_type n) [502; 504; 508; 510]).
  { exists (d =? 1), g. repeat (split; [now auto using frame_refl|]). intros p Hp. exists n. rewrite ?E in Hp.
    injection Hp as <-. split; [exact E|exact C]. }
  assert (C' : cosmetic n (w_dep d n)) by (repeat split).
  eexists _, _. split; [reflexivity|].
  split; [now apply (ginv_cosmetic D g x n)|]. split; [now apply (cosmetic_frame g x n)|].
  split.
  - intros i Hi. now apply look_put_ne.
  - intros p Hp. rewrite ?E in Hp. injection Hp as <-. eexists. split; [apply look_put_eq|exact C'].
Qed.

Lemma settle_ok D g e x dep : ginv D g -> live g e -> live g x ->
  exists h, settle g e x dep = Some (true, h) /\ ginv D h /\ frame g h.
Proof.
  intros G Le Lx. unfold settle. destruct dep.
  - destruct (SetDependency_ok D g x 1 G Lx) as (b & h & H1 & H2 & H3 & _). rewrite H1. cbn [option_map snd].
    destruct (adopt_ok D h e x H2 (frame_live _ _ _ H3 Le) (frame_live _ _ _ H3 Lx)) as (k & H4 & H5 & H6).
    rewrite H4. exists k. split; [reflexivity|]. split; [exact H5|]. eapply frame_trans; eauto.
  - destruct (adopt_ok D g e x G Le Lx) as (k & H4 & H5 & H6).
    rewrite H4. exists k. split; [reflexivity|]. split; [exact H5|exact H6].
Qed.

(* ---- links ---- *)

Lemma link_listed g e x n : ginv zero g -> look g e = Some n -> In x (tgt n) ->
  exists m, look g x = Some m /\ In e (n_refs m).
Proof.
  intros G E H. pose proof (g_link _ _ G e x) as L. unfold zero in L.
  rewrite (ct_look _ _ _ _ E) in L. apply cnt_in in H.
  destruct (look g x) as [m|] eqn:F; [|rewrite (cr_dead _ _ _ F) in L; lia].
  rewrite (cr_look _ _ _ _ F) in L. exists m. split; [reflexivity|]. apply cnt_in. lia.
Qed.
Lemma link_pointed g e r n : ginv zero g -> look g e = Some n -> In r (n_refs n) ->
  exists m, look g r = Some m /\ In e (tgt m).
Proof.
  intros G E H. pose proof (g_link _ _ G r e) as L. unfold zero in L.
  rewrite (cr_look _ _ _ _ E) in L. apply cnt_in in H.
  destruct (look g r) as [m|] eqn:F; [|rewrite (ct_dead _ _ _ F) in L; lia].
  rewrite (ct_look _ _ _ _ F) in L. exists m. split; [reflexivity|]. apply cnt_in. lia.
Qed.
