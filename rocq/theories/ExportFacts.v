(** Proofs about the export of models: the graph. *)

From Coq Require Import List Bool ZArith Lia.
From Verif Require Import GraphModel GraphSpec GraphFacts.
From Verif Require Import UnitModel ExportModel ExportSpec.
Import ListNotations.
Open Scope Z_scope.

Lemma mem_app x a b : mem x (a ++ b) = mem x a || mem x b.
Proof. unfold mem. apply existsb_app. Qed.
Lemma mem_cons x y l : mem x (y :: l) = Nat.eqb x y || mem x l.
Proof. reflexivity. Qed.
Lemma nodup_mid {A} (a : list A) x l : NoDup (a ++ x :: l) -> ~ In x a /\ ~ In x l /\ NoDup ((a ++ [x]) ++ l).
Proof.
  intros H. split; [|split].
  - intros I. apply NoDup_remove_2 in H. apply H. apply in_or_app. now left.
  - intros I. apply NoDup_remove_2 in H. apply H. apply in_or_app. now right.
  - rewrite <- app_assoc. exact H.
Qed.

(* ---- sorting ---- *)

Lemma on_top_sort g src x : side_by_side g src -> live g x ->
  exists k, sort_of g x = Some k /\ (k = Instance <-> on_top g x) /\ (k = Surface <-> loose_surface g x) /\ (k = Solid <-> solid g x).
Proof.
  intros S [n E]. pose proof (sb_null _ _ S x n E) as N.
  assert (K : forall t, t <> 0 -> n_type n = t -> kind g x t).
  { intros t Ht Et. exists n. split; [exact E|]. split; [|exact Et]. destruct (n_null n); [|reflexivity].
    specialize (N eq_refl). congruence. }
  assert (U : forall t, kind g x t -> n_type n = t).
  { intros t (m & Em & _ & Et). rewrite E in Em. now injection Em as <-. }
  assert (Top : on_top g x <-> n_type n = 408 /\ (n_refs n = [] \/ exists r m, n_refs n = [r] /\ look g r = Some m /\ n_type m = 308 /\ n_refs m = [])).
  { split.
    - intros (Kx & m & Em & H). rewrite E in Em. injection Em as <-. split; [now apply U|exact H].
    - intros (T & H). split; [now apply K|]. exists n. split; [exact E|exact H]. }
  assert (Sur : loose_surface g x <-> n_type n = 144 /\ n_refs n = []).
  { split.
    - intros (Kx & m & Em & H). rewrite E in Em. injection Em as <-. split; [now apply U|exact H].
    - intros (T & H). split; [now apply K|]. exists n. split; [exact E|exact H]. }
  assert (Sol : solid g x <-> n_type n = 186).
  { split; [apply U|]. intros T. now apply K. }
  unfold sort_of. rewrite E.
  destruct ((n_type n =? 144) && nil (n_refs n)) eqn:A.
  { apply andb_true_iff in A. destruct A as [A B]. apply Z.eqb_eq in A.
    assert (R : n_refs n = []) by (destruct (n_refs n); [reflexivity|discriminate B]).
    eexists. split; [reflexivity|]. rewrite Top, Sur, Sol. repeat split; try discriminate; try (intros [H _]; congruence); auto; congruence. }
  assert (NS : ~ loose_surface g x).
  { rewrite Sur. intros [T R]. rewrite T, R in A. discriminate. }
  destruct ((n_type n =? 408) && Nat.leb (length (n_refs n)) 1) eqn:B.
  { apply andb_true_iff in B. destruct B as [B C]. apply Z.eqb_eq in B.
    assert (Nsol : ~ solid g x) by (rewrite Sol; congruence).
    destruct (n_refs n) as [|r rest] eqn:R.
    - eexists. split; [reflexivity|]. split; [|split].
      + split; [intros _; apply Top; auto|reflexivity].
      + split; [discriminate|contradiction].
      + split; [discriminate|contradiction].
    - destruct rest; [|cbn in C; discriminate].
      destruct (proj1 (proj2 (sb_books _ _ S)) x r) as [[m M] _].
      { exists n. split; [exact E|]. rewrite R. now left. }
      rewrite M. eexists. split; [reflexivity|].
      destruct (negb (nil (n_refs m)) || negb (n_type m =? 308)) eqn:Q.
      + split; [|split].
        * split; [discriminate|]. intros H. apply Top in H. destruct H as [_ [H|(r' & m' & H1 & H2 & H3 & H4)]]; [discriminate|].
          injection H1 as <-. rewrite M in H2. injection H2 as <-. rewrite H3, H4 in Q. discriminate.
        * split; [discriminate|contradiction].
        * split; [discriminate|contradiction].
      + apply orb_false_iff in Q. destruct Q as [Q1 Q2]. apply negb_false_iff in Q1, Q2. apply Z.eqb_eq in Q2.
        split; [|split].
        * split; [intros _|reflexivity]. apply Top. split; [exact B|]. right. exists r, m.
          split; [reflexivity|]. split; [exact M|]. split; [exact Q2|]. destruct (n_refs m); [reflexivity|discriminate].
        * split; [discriminate|contradiction].
        * split; [discriminate|contradiction]. }
  assert (NT : ~ on_top g x).
  { rewrite Top. intros [T H]. rewrite T in B. change (408 =? 408) with true in B. rewrite andb_true_l in B.
    destruct H as [H|(r & m & H & _)]; rewrite H in B; discriminate. }
  destruct (n_type n =? 186) eqn:C.
  - apply Z.eqb_eq in C. eexists. split; [reflexivity|]. split; [|split]; try (split; [discriminate|contradiction]).
    split; [intros _; now apply Sol|reflexivity].
  - apply Z.eqb_neq in C. eexists. split; [reflexivity|]. split; [|split]; try (split; [discriminate|contradiction]).
    split; [discriminate|]. rewrite Sol. contradiction.
Qed.

Lemma sort_all_ok g src0 src : side_by_side g src0 -> (forall x, In x src -> live g x) ->
  exists a, sort_all g src = Some a /\ picked (on_top g) src (ss a) /\ picked (loose_surface g) src (tp a) /\ picked (solid g) src (br a).
Proof.
  intros S. induction src as [|x src IH]; intros L.
  - eexists. split; [reflexivity|]. cbn. repeat split; constructor.
  - destruct IH as (a & E & H1 & H2 & H3); [intros; apply L; now right|].
    destruct (on_top_sort g src0 x S (L x (or_introl eq_refl))) as (k & K & A & B & C).
    cbn [sort_all]. rewrite K, E. eexists. split; [reflexivity|].
    destruct k; cbn [tp ss br]; (split; [|split]);
      try (apply picked_in; [now apply A|assumption] || (apply picked_in; [now apply B|assumption]) || (apply picked_in; [now apply C|assumption]));
      apply picked_out; try assumption; intros X; first [apply A in X | apply B in X | apply C in X]; discriminate.
Qed.

Lemma picked_fun P s : forall l l', picked P s l -> picked P s l' -> l = l'.
Proof.
  induction s as [|x s IH]; intros l l' H H'; inversion H; inversion H'; subst; auto; try contradiction.
  f_equal. auto.
Qed.
Lemma picked_incl P s l x : picked P s l -> In x l -> In x s /\ P x.
Proof.
  induction 1 as [|y s l Hy _ IH|y s l Hy _ IH]; intros I; [destruct I| |].
  - destruct I as [<-|I]; [split; [now left|exact Hy]|]. destruct (IH I). split; [now right|assumption].
  - destruct (IH I). split; [now right|assumption].
Qed.
Lemma picked_all P s l x : picked P s l -> In x s -> P x -> In x l.
Proof.
  induction 1 as [|y s l Hy _ IH|y s l Hy _ IH]; intros I Q; [destruct I| |].
  - destruct I as [<-|I]; [now left|right; auto].
  - destruct I as [<-|I]; [contradiction|auto].
Qed.
Lemma picked_nodup P s l : picked P s l -> NoDup s -> NoDup l.
Proof.
  induction 1 as [|y s l Hy H IH|y s l Hy H IH]; intros N; [constructor| |].
  - inversion N as [|? ? N1 N2]; subst. constructor; [|auto]. intros I. apply (picked_incl _ _ _ _ H) in I. tauto.
  - inversion N; subst. auto.
Qed.

Lemma contents_kind g src l x : contents g src l -> In x l ->
  In x src /\ (kind g x 408 \/ kind g x 144 \/ kind g x 186).
Proof.
  intros [(_ & H)|[(_ & _ & H)|(_ & _ & H)]] I; destruct (picked_incl _ _ _ _ H I) as [J Q]; split; auto.
  - left. apply Q.
  - right; left. apply Q.
Qed.
Lemma contents_nodup g src l : contents g src l -> NoDup src -> NoDup l.
Proof.
  intros [(_ & H)|[(_ & _ & H)|(_ & _ & H)]]; eapply picked_nodup; eauto.
Qed.

Definition members (a : lists3) : list nat := match ss a, tp a with [], [] => br a | [], l => l | l, _ => l end.
Lemma members_ok g src : side_by_side g src ->
  exists a, sort_all g src = Some a /\ picked (on_top g) src (ss a) /\ contents g src (members a).
Proof.
  intros S. destruct (sort_all_ok g src src S) as (a & E & H1 & H2 & H3).
  { intros x I. destruct (sb_theirs _ _ S x I) as (n & En & _). now exists n. }
  exists a. split; [exact E|]. split; [exact H1|]. unfold members, contents.
  destruct (ss a) as [|x l] eqn:A; [|left; split; [discriminate|exact H1]].
  destruct (tp a) as [|x l] eqn:B; [right; right; auto|].
  right; left. split; [exact H1|]. split; [discriminate|exact H2].
Qed.
Lemma contents_fun g src l l' : contents g src l -> contents g src l' -> l = l'.
Proof.
  intros H H'.
  assert (E : forall m, picked (on_top g) src [] -> picked (on_top g) src m -> m <> [] -> False).
  { intros m A B C. apply C. eapply picked_fun; eauto. }
  assert (F : forall m, picked (loose_surface g) src [] -> picked (loose_surface g) src m -> m <> [] -> False).
  { intros m A B C. apply C. eapply picked_fun; eauto. }
  destruct H as [(A & B)|[(A & B & C)|(A & B & C)]]; destruct H' as [(A' & B')|[(A' & B' & C')|(A' & B' & C')]];
    try (exfalso; eauto; fail); eapply picked_fun; eauto.
Qed.

(* ---- filling the package ---- *)

Section Fill.
Variables (g : graph) (src : list nat).
Hypothesis S0 : side_by_side g src.
Let p := g_next g.

Lemma p_free : look g p = None.
Proof. apply (sb_free _ _ S0). unfold p. lia. Qed.
Lemma p_unheld i n : look g i = Some n -> ~ holds n p.
Proof.
  intros E H. destruct (proj1 (sb_books _ _ S0) i p) as [[m M] _]; [now exists n|]. rewrite p_free in M. discriminate.
Qed.
Lemma p_unlisted i n : look g i = Some n -> ~ In p (n_refs n).
Proof.
  intros E H. destruct (proj1 (proj2 (sb_books _ _ S0)) i p) as [[m M] _]; [now exists n|]. rewrite p_free in M. discriminate.
Qed.

Definition joined_in (a : list nat) (i : nat) (n : node) : node :=
  if mem i a then w_own true (w_dep 1 (w_refs (n_refs n ++ [p]) n)) else n.
Definition filling (a : list nat) (h : graph) : Prop :=
  (forall i, look h i = if Nat.eqb i p then Some (w_items a (new_node 308 true)) else option_map (joined_in a i) (look g i)) /\
  g_ents h = g_ents g ++ p :: a /\ g_next h = S p.

Lemma filling_0 : filling [] (NewEntity g 308 true).
Proof.
  split; [|split; reflexivity]. intros i. unfold look, NewEntity. cbn [g_heap]. fold p.
  destruct (Nat.eqb i p); [reflexivity|]. unfold joined_in. cbn [mem existsb]. unfold look.
  destruct (g_heap g i); reflexivity.
Qed.

Lemma fill_step a h x n : filling a h -> look g x = Some n -> n_null n = false -> n_own n = false -> ~ In x (g_ents g) ->
  In (n_type n) [144; 408; 186] -> ~ In x a ->
  exists h', AddItem h p x = Some (true, h') /\ filling (a ++ [x]) h'.
Proof.
  intros (F & Fe & Fn) E Hn Ho Hg Ht Ha.
  assert (Hx : x <> p). { intros ->. rewrite p_free in E. discriminate. }
  pose proof Hx as Hxb. apply Nat.eqb_neq in Hxb.
  assert (Ma : mem x a = false) by now apply mem_notin.
  assert (Lx : look h x = Some n). { rewrite F, Hxb, E. cbn. unfold joined_in. now rewrite Ma. }
  assert (Lp : look h p = Some (w_items a (new_node 308 true))). { rewrite F. now rewrite Nat.eqb_refl. }
  unfold AddItem. rewrite Lp, Lx.
  change (n_null (w_items a (new_node 308 true))) with false.
  change (n_type (w_items a (new_node 308 true))) with 308.
  change (n_des (w_items a (new_node 308 true))) with (n_des (new_node 308 true)).
  change (n_refs (w_items a (new_node 308 true))) with (@Datatypes.nil nat).
  change (n_extras (w_items a (new_node 308 true))) with (@Datatypes.nil nat).
  change (n_items (w_items a (new_node 308 true))) with a.
  change (mem x (ptrs (n_des (new_node 308 true))) || mem x [] || mem x []) with false.
  change (308 =? 144) with false. change (308 =? 180) with false. change (308 =? 308) with true. cbv iota.
  rewrite Ma. unfold item_add, addReference. rewrite Lx, Lp.
  assert (Fb : forbids n x p (n_type (w_items a (new_node 308 true))) = false).
  { change (n_type (w_items a (new_node 308 true))) with 308. unfold forbids. rewrite Hn.
    pose proof (p_unheld x n E) as U.
    assert (U1 : mem p (ptrs (n_slots n) ++ n_items n) = false).
    { apply mem_notin. intros I. apply U. apply in_app_or in I. destruct I as [I|I].
      - right; right; left. now apply ptrs_in.
      - right; right; right; left. exact I. }
    assert (U2 : mem p (ptrs (n_des n)) = false).
    { apply mem_notin. intros I. apply U. left. now apply ptrs_in. }
    rewrite U1, U2. destruct Ht as [T|[T|[T|[]]]]; rewrite <- T; reflexivity. }
  rewrite Fb.
  assert (R1 : mem p (n_refs n) = false) by (apply mem_notin; now apply (p_unlisted x n)).
  assert (R2 : mem p (n_extras n) = false).
  { apply mem_notin. intros I. apply (p_unheld x n E). right; left. exact I. }
  rewrite R1, R2. cbn [orb].
  rewrite (look_put_ne _ x _ p) by congruence. rewrite Lp.
  change (w_items (n_items (w_items a (new_node 308 true)) ++ [x]) (w_items a (new_node 308 true))) with (w_items (a ++ [x]) (new_node 308 true)).
  unfold settle, SetDependency. rewrite (look_put_ne _ p _ x) by congruence. rewrite look_put_eq.
  change (n_null (w_refs (n_refs n ++ [p]) n)) with (n_null n). rewrite Hn.
  change (n_type (w_refs (n_refs n ++ [p]) n)) with (n_type n).
  assert (Z1 : zmem (n_type n) [124; 314] = false) by (destruct Ht as [T|[T|[T|[]]]]; rewrite <- T; reflexivity).
  assert (Z2 : zmem (n_type n) [502; 504; 508; 510] = false) by (destruct Ht as [T|[T|[T|[]]]]; rewrite <- T; reflexivity).
  rewrite Z1, Z2. cbn [option_map snd].
  unfold adopt. rewrite (look_put_ne _ x _ p) by congruence. rewrite !look_put_eq.
  change (n_own (w_items (a ++ [x]) (new_node 308 true))) with true.
  change (n_own (w_dep 1 (w_refs (n_refs n ++ [p]) n))) with (n_own n). rewrite Ho. cbn [andb negb].
  unfold AddEntity. rewrite look_put_eq.
  change (g_ents (put (put (put h x (w_refs (n_refs n ++ [p]) n)) p (w_items (a ++ [x]) (new_node 308 true))) x
        (w_dep 1 (w_refs (n_refs n ++ [p]) n)))) with (g_ents h).
  assert (Mx : mem x (g_ents h) = false).
  { rewrite Fe. rewrite mem_app, mem_cons, Ma, Hxb. rewrite (proj2 (mem_notin _ _) Hg). reflexivity. }
  rewrite Mx. cbn [option_map snd]. eexists. split; [reflexivity|]. split; [|split].
  - intros i. change (look (with_ents ?q ?r) i) with (look q i). rewrite !look_put.
    destruct (Nat.eqb i x) eqn:Ex.
    + apply Nat.eqb_eq in Ex. subst i. rewrite Hxb, E. cbn [option_map]. unfold joined_in.
      rewrite mem_app, mem_cons, Nat.eqb_refl, orb_true_r. reflexivity.
    + destruct (Nat.eqb i p) eqn:Ep; [reflexivity|]. rewrite F, Ep. unfold joined_in. rewrite mem_app, mem_cons, Ex.
      cbn [mem existsb]. now rewrite !orb_false_r.
  - cbn [g_ents with_ents]. rewrite Fe. now rewrite <- app_assoc.
  - exact Fn.
Qed.

Lemma fill_all f l : forall a h, filling a h -> NoDup (a ++ l) ->
  (forall x, In x l -> In x src /\ (kind g x 408 \/ kind g x 144 \/ kind g x 186)) ->
  exists h', add_each h p f l = Some (true, h') /\ filling (a ++ l) h'.
Proof.
  induction l as [|x l IH]; intros a h F N K.
  - exists h. rewrite app_nil_r. split; [reflexivity|exact F].
  - destruct (nodup_mid a x l N) as (N1 & N2 & N3).
    destruct (K x (or_introl eq_refl)) as (Is & Kx).
    destruct (sb_theirs _ _ S0 x Is) as (n & E & Ho & Hg).
    assert (Q : n_null n = false /\ In (n_type n) [144; 408; 186]).
    { destruct Kx as [(m & Em & A & B)|[(m & Em & A & B)|(m & Em & A & B)]]; rewrite E in Em; injection Em as <-; rewrite B; cbn; auto. }
    destruct (fill_step a h x n F E (proj1 Q) Ho Hg (proj2 Q) N1) as (h1 & H1 & F1).
    destruct (IH (a ++ [x]) h1 F1 N3) as (h2 & H2 & F2); [intros; apply K; now right|].
    exists h2. cbn [add_each]. rewrite H1. split; [exact H2|]. now rewrite <- app_assoc in F2.
Qed.

(* ---- moving the rest ---- *)

Definition moved_in (l b : list nat) (i : nat) (n : node) : node :=
  if mem i l then w_own true (w_dep 1 (w_refs (n_refs n ++ [p]) n)) else if mem i b then w_own true n else n.
Definition rest_of (l b : list nat) : list nat := filter (fun x => negb (mem x l)) b.
Definition moving (l b : list nat) (h : graph) : Prop :=
  (forall i, look h i = if Nat.eqb i p then Some (w_items l (new_node 308 true)) else option_map (moved_in l b i) (look g i)) /\
  g_ents h = g_ents g ++ p :: l ++ rest_of l b /\ g_next h = S p.

Lemma moving_0 l h : filling l h -> moving l [] h.
Proof.
  intros (A & B & C). split; [|split; [|exact C]].
  - intros i. rewrite A. reflexivity.
  - cbn [rest_of filter]. now rewrite app_nil_r.
Qed.
Lemma move_step l b h x : moving l b h -> In x src -> ~ In x b ->
  exists h' v, AddEntity h x = Some (v, h') /\ moving l (b ++ [x]) h'.
Proof.
  intros (A & B & C) I Hb. destruct (sb_theirs _ _ S0 x I) as (n & E & Ho & Hg).
  assert (Hx : x <> p). { intros ->. rewrite p_free in E. discriminate. }
  apply Nat.eqb_neq in Hx.
  unfold AddEntity. rewrite A, Hx, E. cbn [option_map].
  assert (M : mem x (g_ents h) = mem x l).
  { rewrite B, mem_app, mem_cons, mem_app, Hx. rewrite (proj2 (mem_notin _ _) Hg). cbn [orb].
    destruct (mem x l); [reflexivity|]. cbn [orb]. apply mem_notin. intros J. apply filter_In in J. tauto. }
  rewrite M. destruct (mem x l) eqn:Ml.
  - exists h, true. split; [reflexivity|]. split; [|split; [|exact C]].
    + intros i. rewrite A. destruct (Nat.eqb i p); [reflexivity|]. unfold moved_in. rewrite mem_app, mem_cons. cbn [mem existsb].
      destruct (Nat.eqb i x) eqn:Ei; [apply Nat.eqb_eq in Ei; subst; rewrite Ml; reflexivity|]. now rewrite !orb_false_r.
    + rewrite B. unfold rest_of. rewrite filter_app. cbn [filter]. rewrite Ml. cbn [negb]. now rewrite app_nil_r.
  - eexists _, true. split; [reflexivity|]. split; [|split; [|exact C]].
    + intros i. change (look (with_ents ?q ?r) i) with (look q i). rewrite look_put.
      destruct (Nat.eqb i x) eqn:Ei.
      * apply Nat.eqb_eq in Ei. subst i. rewrite Hx, E. cbn [option_map]. unfold moved_in.
        rewrite Ml, mem_app, mem_cons, Nat.eqb_refl, (proj2 (mem_notin _ _) Hb). reflexivity.
      * rewrite A. destruct (Nat.eqb i p); [reflexivity|]. unfold moved_in. rewrite mem_app, mem_cons, Ei. cbn [mem existsb].
        now rewrite !orb_false_r.
    + cbn [g_ents with_ents]. rewrite B. unfold rest_of. rewrite filter_app. cbn [filter]. rewrite Ml. cbn [negb].
      rewrite <- app_assoc. cbn [app]. rewrite <- app_assoc. reflexivity.
Qed.
Lemma move_all l r : forall b h, moving l b h -> NoDup (b ++ r) -> incl r src ->
  exists h', move_each h r = Some h' /\ moving l (b ++ r) h'.
Proof.
  induction r as [|x r IH]; intros b h M N I.
  - exists h. rewrite app_nil_r. split; [reflexivity|exact M].
  - destruct (nodup_mid b x r N) as (N1 & N2 & N3).
    destruct (move_step l b h x M (I x (or_introl eq_refl)) N1) as (h1 & v & H1 & M1).
    destruct (IH (b ++ [x]) h1 M1 N3) as (h2 & H2 & M2); [intros y Hy; apply I; now right|].
    exists h2. cbn [move_each]. rewrite H1. split; [exact H2|]. now rewrite <- app_assoc in M2.
Qed.

Lemma moved_holds l b i n t : holds (moved_in l b i n) t <-> holds n t.
Proof. unfold moved_in. destruct (mem i l), (mem i b); reflexivity. Qed.
Lemma package_holds l t : holds (w_items l (new_node 308 true)) t <-> In t l.
Proof.
  unfold holds. cbn [n_des n_extras n_slots n_items n_edges n_loops w_items new_node].
  change (blank_slots 308) with (@Datatypes.nil (option nat)). change (zmem 308 known) with true. cbn [In]. split.
  - intros [H|[H|[H|[H|[(d & [] & _)|(q & [] & _)]]]]]; try contradiction; auto.
    repeat (destruct H as [H|H]; [discriminate|]). contradiction.
  - auto.
Qed.

Lemma moved_consistent l h : moving l src h -> NoDup l -> incl l src -> consistent h.
Proof.
  intros (A & B & C) N I. destruct (sb_books _ _ S0) as (K1 & K2 & K3 & K4).
  assert (Lv : forall i, live g i -> live h i).
  { intros i [n E]. unfold live. rewrite A. destruct (Nat.eqb i p); [eauto|]. rewrite E. cbn. eauto. }
  assert (Lp : live h p). { unfold live. rewrite A, Nat.eqb_refl. eauto. }
  assert (In_np : forall i n, look g i = Some n -> Nat.eqb i p = false).
  { intros i n E. apply Nat.eqb_neq. intros ->. rewrite p_free in E. discriminate. }
  assert (Lq : forall x, In x l -> live g x).
  { intros x Hx. destruct (sb_theirs _ _ S0 x (I x Hx)) as (n & E & _). now exists n. }
  split; [|split; [|split]].
  - intros e t (n & E & H). rewrite A in E. destruct (Nat.eqb e p) eqn:Ep.
    + injection E as <-. apply Nat.eqb_eq in Ep. subst e. apply package_holds in H.
      destruct (Lq t H) as [m M]. split; [apply Lv; now exists m|].
      exists (moved_in l src t m). split; [rewrite A, (In_np t m M), M; reflexivity|].
      unfold moved_in. rewrite (proj2 (mem_in _ _) H). apply in_or_app. right. now left.
    + destruct (look g e) as [n0|] eqn:E0; [|discriminate]. injection E as <-. apply moved_holds in H.
      destruct (K1 e t) as (L & m & M & R); [now exists n0|]. split; [now apply Lv|].
      exists (moved_in l src t m). split; [rewrite A, (In_np t m M), M; reflexivity|].
      unfold moved_in. destruct (mem t l); [apply in_or_app; now left|]. destruct (mem t src); exact R.
  - intros e r (n & E & H). rewrite A in E. destruct (Nat.eqb e p) eqn:Ep.
    + injection E as <-. destruct H.
    + destruct (look g e) as [n0|] eqn:E0; [|discriminate]. injection E as <-.
      assert (Q : In r (n_refs n0) \/ (r = p /\ In e l)).
      { unfold moved_in in H. destruct (mem e l) eqn:Me.
        - apply mem_in in Me. cbn [n_refs w_own w_dep w_refs] in H. apply in_app_or in H. destruct H as [H|[H|[]]]; auto.
        - left. destruct (mem e src); exact H. }
      destruct Q as [Q|[-> Q]].
      * destruct (K2 e r) as (L & m & M & P); [now exists n0|]. split; [now apply Lv|].
        exists (moved_in l src r m). split; [rewrite A, (In_np r m M), M; reflexivity|]. now apply moved_holds.
      * split; [exact Lp|]. exists (w_items l (new_node 308 true)). split; [now rewrite A, Nat.eqb_refl|]. now apply package_holds.
  - rewrite B. assert (Pg : ~ In p (g_ents g)).
    { intros J. destruct (K4 p J) as [m M]. rewrite p_free in M. discriminate. }
    assert (Sg : forall x, In x src -> ~ In x (g_ents g) /\ x <> p).
    { intros x Hx. destruct (sb_theirs _ _ S0 x Hx) as (n & E & _ & Hg). split; [exact Hg|]. intros ->. rewrite p_free in E. discriminate. }
    assert (Nr : NoDup (l ++ rest_of l src)).
    { apply nodup_cnt. intros x. rewrite cnt_app. pose proof (cnt_nodup l N x) as X1.
      pose proof (cnt_nodup _ (NoDup_filter (fun x => negb (mem x l)) (sb_once _ _ S0)) x) as X2. fold (rest_of l src) in X2.
      destruct (Nat.eq_dec (cnt l x) 0) as [Z0|Z0]; [lia|].
      assert (Z1 : ~ In x (rest_of l src)).
      { intros J. apply filter_In in J. destruct J as [_ J]. apply negb_true_iff in J. apply mem_notin in J. apply J. apply cnt_in. lia. }
      apply cnt_notin in Z1. lia. }
    assert (Ir : forall x, In x (l ++ rest_of l src) -> In x src).
    { intros x J. apply in_app_or in J. destruct J as [J|J]; [now apply I|]. apply filter_In in J. tauto. }
    apply nodup_cnt. intros x. rewrite cnt_app, cnt_cons. pose proof (cnt_nodup _ K3 x) as X1. pose proof (cnt_nodup _ Nr x) as X2.
    destruct (Nat.eq_dec (cnt (l ++ rest_of l src) x) 0) as [Z0|Z0].
    + destruct (Nat.eqb p x) eqn:Ep; [|lia]. apply Nat.eqb_eq in Ep. subst x. apply cnt_notin in Pg. lia.
    + assert (J : In x src) by (apply Ir; apply cnt_in; lia). destruct (Sg x J) as [S1 S2]. apply cnt_notin in S1.
      destruct (Nat.eqb p x) eqn:Ep; [apply Nat.eqb_eq in Ep; congruence|]. lia.
  - intros e J. rewrite B in J. apply in_app_or in J. destruct J as [J|[<-|J]]; [apply Lv, K4, J|exact Lp|].
    apply in_app_or in J. destruct J as [J|J]; [apply Lv, Lq, J|]. apply filter_In in J. destruct J as [J _].
    destruct (sb_theirs _ _ S0 e J) as (n & E & _). apply Lv. now exists n.
Qed.
End Fill.
