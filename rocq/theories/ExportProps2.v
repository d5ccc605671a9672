(** Proofs about the export of models: the whole of it, export into itself, two
    models side by side, and nesting. *)

From Coq Require Import QArith List Bool ZArith Lia ZifyBool ZifyNat FinFun.
From Verif Require Import Base IoModel PayloadModel UnitModel UnitSpec.
From Verif Require Import GraphModel GraphSpec GraphFacts ExportModel ExportSpec ExportFacts ExportProps.
Import ListNotations.
Open Scope Z_scope.

(** The run, step by step. *)
Lemma export_run {D} now (s : source D) (t : target) l : fits_in s t -> contents (ta_graph t) (so_ids s) l ->
  exists m q vs, convert (so_mdl s) t = Some m /\ rate (so_grad s) (ta_grad t) = Some q /\ weights q (so_weights s) = Some vs /\
   Forall2 (weighs (so_grad s) (ta_grad t)) (so_weights s) vs /\ Forall (in_range (ta_grad t)) vs /\
   (l = [] -> Export now false s t =
      Some (Left (match so_ids s with [] => s | _ => mkSource (so_ids s) m vs (so_grad s) (so_file s) end))) /\
   (l <> [] -> exists h k, Export now false s t =
      Some (Packed h (g_next (ta_graph t)) (package_name now (Nat.ltb 1 (length k)) (so_file s))
              (mkSource [] (mkMdl (m_unit m) (m_res m) (m_scale m) []) [] (so_grad s) (so_file s)) (m_ents m) vs) /\
      picked (on_top (ta_graph t)) (so_ids s) k /\ moving (ta_graph t) l (so_ids s) h).
Proof.
  intros M C. destruct M as [S0 SO P U U' G G' W].
  destruct (convert_defined (so_mdl s) t SO U U') as (m & Em).
  destruct (weights_defined _ _ _ G G' W) as (q & vs & Eq & Ev & Wv & Rv).
  exists m, q, vs. split; [exact Em|]. split; [exact Eq|]. split; [exact Ev|]. split; [exact Wv|]. split; [exact Rv|].
  destruct (members_ok _ _ S0) as (a & Ea & Ka & Ca).
  assert (El : members a = l) by (eapply contents_fun; eauto).
  unfold Export. rewrite Em, Eq, Ev, Ea. fold (members a).
  rewrite El. split.
  - intros ->. destruct (so_ids s); reflexivity.
  - intros N. destruct (so_ids s) as [|x0 ids] eqn:Es.
    { exfalso. apply N. destruct C as [(_ & H)|[(_ & _ & H)|(_ & _ & H)]]; inversion H; reflexivity. }
    rewrite <- Es in *. destruct l as [|f l']; [contradiction|].
    destruct (fill_all (ta_graph t) (so_ids s) S0 f (f :: l') [] _ (filling_0 (ta_graph t))) as (h1 & H1 & F1).
    { cbn [app]. eapply contents_nodup; [exact C|]. apply (sb_once _ _ S0). }
    { intros x I. exact (contents_kind _ _ _ _ C I). }
    rewrite H1.
    destruct (move_all (ta_graph t) (so_ids s) S0 (f :: l') (so_ids s) [] h1 (moving_0 _ _ _ F1)) as (h2 & H2 & M2).
    { exact (sb_once _ _ S0). }
    { intros x I; exact I. }
    rewrite H2. exists h2, (ss a). split; [reflexivity|]. split; [exact Ka|exact M2].
Qed.

Lemma rest_picked l src : picked (fun x => ~ In x l) src (rest_of l src).
Proof.
  induction src as [|x src IH]; cbn [rest_of filter]; [constructor|].
  destruct (mem x l) eqn:E; cbn [negb].
  - apply mem_in in E. apply picked_out; [tauto|exact IH].
  - apply mem_notin in E. apply picked_in; [exact E|exact IH].
Qed.

(** What is handed over, as a whole. *)
Lemma export_graph {D} now (s : source D) (t : target) l : fits_in s t -> contents (ta_graph t) (so_ids s) l -> l <> [] ->
  let g := ta_graph t in
  exists h p name s' items ws n rest, Export now false s t = Some (Packed h p name s' items ws) /\
    ~ live g p /\ so_ids s' = [] /\
    look h p = Some n /\ n_type n = 308 /\ n_null n = false /\ n_own n = true /\ n_dep n = 0 /\ n_refs n = [] /\ n_items n = l /\
    (forall x, holds n x <-> In x l) /\
    (forall i, i <> p -> look h i = option_map (after_move (so_ids s) l p i) (look g i)) /\
    g_ents h = g_ents g ++ p :: l ++ rest /\ picked (fun x => ~ In x l) (so_ids s) rest /\
    consistent h.
Proof.
  intros M C N g. destruct (export_run now s t l M C) as (m & q & vs & Em & Eq & Ev & _ & _ & _ & H).
  destruct (H N) as (h & k & E & _ & Mv). pose proof (mg_sides _ _ _ _ _ _ _ M) as S0. fold g in S0.
  fold g in Mv. pose proof Mv as (A & B & Cn).
  exists h, (g_next g). eexists _, _, _, _, (w_items l (new_node 308 true)), (rest_of l (so_ids s)).
  split; [exact E|]. split.
  { intros [n X]. rewrite (p_free g (so_ids s) S0) in X. discriminate. }
  split; [reflexivity|]. split; [rewrite A, Nat.eqb_refl; reflexivity|].
  do 5 (split; [reflexivity|]). split; [reflexivity|]. split; [apply package_holds|]. split.
  { intros i Hi. rewrite A. apply Nat.eqb_neq in Hi. rewrite Hi. reflexivity. }
  split; [exact B|]. split; [apply rest_picked|].
  apply (moved_consistent g (so_ids s) S0 l h Mv).
  - eapply contents_nodup; [exact C|apply (sb_once _ _ S0)].
  - intros x I. exact (proj1 (contents_kind _ _ _ _ C I)).
Qed.

Lemma contents_exist g src : side_by_side g src -> exists l, contents g src l /\ forall l', contents g src l' -> l' = l.
Proof.
  intros S0. destruct (members_ok g src S0) as (a & _ & _ & C). exists (members a). split; [exact C|].
  intros l' C'. eapply contents_fun; eauto.
Qed.

Lemma export_nothing {D} now (s : source D) (t : target) : fits_in s t -> contents (ta_graph t) (so_ids s) [] ->
  exists s', Export now false s t = Some (Left s') /\ so_ids s' = so_ids s.
Proof.
  intros M C. destruct (export_run now s t [] M C) as (m & q & vs & _ & _ & _ & _ & _ & H & _).
  eexists. split; [apply H; reflexivity|]. destruct (so_ids s) eqn:E; [exact E|reflexivity].
Qed.

(** What the outcome says about data, weights and name. *)
Lemma export_data {D} now (s : source D) (t : target) : fits_in s t -> so_ids s <> [] ->
  exists r m vs, Export now false s t = Some r /\ convert (so_mdl s) t = Some m /\
    Forall2 (weighs (so_grad s) (ta_grad t)) (so_weights s) vs /\ Forall (in_range (ta_grad t)) vs /\
    handed r (m_unit m) (m_scale m) (m_ents m) vs.
Proof.
  intros M N. destruct (contents_exist _ _ (mg_sides _ _ _ _ _ _ _ M)) as (l & C & _).
  destruct (export_run now s t l M C) as (m & q & vs & Em & _ & _ & W & R & H1 & H2).
  destruct l as [|x l].
  - rewrite (H1 eq_refl). eexists _, m, vs. split; [reflexivity|]. split; [exact Em|]. split; [exact W|]. split; [exact R|].
    destruct (so_ids s); [contradiction|]. cbn. auto.
  - destruct (H2 ltac:(discriminate)) as (h & k & E & _). rewrite E. eexists _, m, vs. split; [reflexivity|]. split; [exact Em|].
    split; [exact W|]. split; [exact R|]. cbn. auto.
Qed.

Lemma export_name {D} now (s : source D) (t : target) l k : fits_in s t -> contents (ta_graph t) (so_ids s) l -> l <> [] ->
  picked (on_top (ta_graph t)) (so_ids s) k ->
  exists h p name s' items ws, Export now false s t = Some (Packed h p name s' items ws) /\
    (so_file s <> [] -> without_extension (so_file s) name) /\
    (so_file s = [] -> name = if Nat.ltb 1 (length k) then GetNewAssemblyName now else GetNewPartName now).
Proof.
  intros M C N K. destruct (export_run now s t l M C) as (m & q & vs & _ & _ & _ & _ & _ & _ & H).
  destruct (H N) as (h & k' & E & K' & _). rewrite E. eexists _, _, _, _, _, _. split; [reflexivity|].
  assert (k' = k) by (eapply picked_fun; eauto). subst k'. split.
  - intros F. apply package_name_ok. exact F.
  - intros ->. reflexivity.
Qed.

(** ** Into itself *)

Section Self.
Variables (g : graph).
Hypothesis Books : consistent g.
Hypothesis Free : forall i, (g_next g <= i)%nat -> look g i = None.
Hypothesis Null : typeless_nulls g.
Hypothesis Own : forall i n, In i (g_ents g) -> look g i = Some n -> n_own n = true.

Lemma sides_none : side_by_side g [].
Proof. split; auto; [constructor|intros i []]. Qed.
Let p := g_next g.

Definition self_in (a : list nat) (i : nat) (n : node) : node :=
  if mem i a then w_dep 1 (w_refs (n_refs n ++ [p]) n) else n.
Definition self_fill (a : list nat) (h : graph) : Prop :=
  (forall i, look h i = if Nat.eqb i p then Some (w_items a (new_node 308 true)) else option_map (self_in a i) (look g i)) /\
  g_ents h = g_ents g ++ [p] /\ g_next h = S p.

Lemma self_0 : self_fill [] (NewEntity g 308 true).
Proof.
  split; [|split; reflexivity]. intros i. unfold look, NewEntity. cbn [g_heap]. fold p.
  destruct (Nat.eqb i p); [reflexivity|]. unfold self_in. cbn [mem existsb]. unfold look.
  destruct (g_heap g i); reflexivity.
Qed.
Lemma self_step a h x n : self_fill a h -> look g x = Some n -> n_null n = false -> In x (g_ents g) ->
  In (n_type n) [144; 408; 186] -> ~ In x a ->
  exists h', AddItem h p x = Some (true, h') /\ self_fill (a ++ [x]) h'.
Proof.
  intros (F & Fe & Fn) E Hn Hg Ht Ha. pose proof sides_none as S0.
  assert (Pf : look g p = None) by exact (p_free g [] S0).
  assert (Hx : x <> p). { intros ->. rewrite Pf in E. discriminate. }
  pose proof Hx as Hxb. apply Nat.eqb_neq in Hxb.
  assert (Ma : mem x a = false) by now apply mem_notin.
  assert (Lx : look h x = Some n). { rewrite F, Hxb, E. cbn. unfold self_in. now rewrite Ma. }
  assert (Lp : look h p = Some (w_items a (new_node 308 true))). { rewrite F. now rewrite Nat.eqb_refl. }
  unfold AddItem. rewrite Lp, Lx.
  change (n_null (w_items a (new_node 308 true))) with false.
  change (n_type (w_items a (new_node 308 true))) with 308.
  change (n_des (w_items a (new_node 308 true))) with (n_des (new_node 308 true)).
  change (n_refs (w_items a (new_node 308 true))) with (@Datatypes.nil nat).
  change (n_extras (w_items a (new_node 308 true))) with (@Datatypes.nil nat).
  change (n_items (w_items a (new_node 308 true))) with a.
  change (mem x (ptrs (n_des (new_node 308 true))) || mem x [] || mem x []) with false.
  change (308 =? 144) with false. change (308 =? 180) with false. change (308 =? 308) with true. cbv iota.
  rewrite Ma. unfold item_add, addReference. rewrite Lx, Lp.
  pose proof (p_unheld g [] S0 x n E) as U. fold p in U.
  assert (Fb : forbids n x p (n_type (w_items a (new_node 308 true))) = false).
  { change (n_type (w_items a (new_node 308 true))) with 308. unfold forbids. rewrite Hn.
    assert (U1 : mem p (ptrs (n_slots n) ++ n_items n) = false).
    { apply mem_notin. intros I. apply U. apply in_app_or in I. destruct I as [I|I].
      - right; right; left. now apply ptrs_in.
      - right; right; right; left. exact I. }
    assert (U2 : mem p (ptrs (n_des n)) = false).
    { apply mem_notin. intros I. apply U. left. now apply ptrs_in. }
    rewrite U1, U2. destruct Ht as [T|[T|[T|[]]]]; rewrite <- T; reflexivity. }
  rewrite Fb.
  assert (R1 : mem p (n_refs n) = false) by (apply mem_notin; exact (p_unlisted g [] S0 x n E)).
  assert (R2 : mem p (n_extras n) = false).
  { apply mem_notin. intros I. apply U. right; left. exact I. }
  rewrite R1, R2. cbn [orb].
  rewrite (look_put_ne _ x _ p) by congruence. rewrite Lp.
  change (w_items (n_items (w_items a (new_node 308 true)) ++ [x]) (w_items a (new_node 308 true))) with (w_items (a ++ [x]) (new_node 308 true)).
  unfold settle, SetDependency. rewrite (look_put_ne _ p _ x) by congruence. rewrite look_put_eq.
  change (n_null (w_refs (n_refs n ++ [p]) n)) with (n_null n). rewrite Hn.
  change (n_type (w_refs (n_refs n ++ [p]) n)) with (n_type n).
  assert (Z1 : zmem (n_type n) [124; 314] = false) by (destruct Ht as [T|[T|[T|[]]]]; rewrite <- T; reflexivity).
  assert (Z2 : zmem (n_type n) [502; 504; 508; 510] = false) by (destruct Ht as [T|[T|[T|[]]]]; rewrite <- T; reflexivity).
  rewrite Z1, Z2. cbn [option_map snd].
  unfold adopt. rewrite (look_put_ne _ x _ p) by congruence. rewrite !look_put_eq.
  change (n_own (w_items (a ++ [x]) (new_node 308 true))) with true.
  change (n_own (w_dep 1 (w_refs (n_refs n ++ [p]) n))) with (n_own n). rewrite (Own x n Hg E). cbn [andb negb option_map].
  eexists. split; [reflexivity|]. split; [|split].
  - intros i. rewrite !look_put. destruct (Nat.eqb i x) eqn:Ex.
    + apply Nat.eqb_eq in Ex. subst i. rewrite Hxb, E. cbn [option_map]. unfold self_in.
      rewrite mem_app, mem_cons, Nat.eqb_refl, orb_true_r. reflexivity.
    + destruct (Nat.eqb i p) eqn:Ep; [reflexivity|]. rewrite F, Ep. unfold self_in. rewrite mem_app, mem_cons, Ex.
      cbn [mem existsb]. now rewrite !orb_false_r.
  - exact Fe.
  - exact Fn.
Qed.
Lemma self_all f l : forall a h, self_fill a h -> NoDup (a ++ l) ->
  (forall x, In x l -> In x (g_ents g) /\ (kind g x 408 \/ kind g x 144 \/ kind g x 186)) ->
  exists h', add_each h p f l = Some (true, h') /\ self_fill (a ++ l) h'.
Proof.
  induction l as [|x l IH]; intros a h F N K.
  - exists h. rewrite app_nil_r. split; [reflexivity|exact F].
  - destruct (nodup_mid a x l N) as (N1 & N2 & N3). destruct (K x (or_introl eq_refl)) as (Is & Kx).
    assert (Q : exists n, look g x = Some n /\ n_null n = false /\ In (n_type n) [144; 408; 186]).
    { destruct Kx as [(m & Em & A & B)|[(m & Em & A & B)|(m & Em & A & B)]]; exists m; rewrite B; cbn; auto 10. }
    destruct Q as (n & E & Q1 & Q2).
    destruct (self_step a h x n F E Q1 Is Q2 N1) as (h1 & H1 & F1).
    destruct (IH (a ++ [x]) h1 F1 N3) as (h2 & H2 & F2); [intros; apply K; now right|].
    exists h2. cbn [add_each]. rewrite H1. split; [exact H2|]. now rewrite <- app_assoc in F2.
Qed.
Lemma self_moves h l : (forall x, In x l -> In x (g_ents h) /\ live h x) -> move_each h l = Some h.
Proof.
  induction l as [|x l IH]; intros K; [reflexivity|]. cbn [move_each]. destruct (K x (or_introl eq_refl)) as (I & n & E).
  unfold AddEntity. rewrite E, (proj2 (mem_in _ _) I). apply IH. intros; apply K; now right.
Qed.

Lemma export_self {D} now (s : source D) l : so_ids s = g_ents g -> 1 <= so_grad s <= 2147483647 -> Forall (in_range (so_grad s)) (so_weights s) ->
  contents g (g_ents g) l -> l <> [] ->
  exists h n name s' items ws, Export now true s (mkTarget g (m_unit (so_mdl s)) (m_scale (so_mdl s)) (so_grad s)) = Some (Packed h p name s' items ws) /\
    items = m_ents (so_mdl s) /\ so_ids s' = [] /\ g_ents h = [] /\ look h p = Some n /\ n_type n = 308 /\ n_items n = l /\
    forall i, live g i -> live h i.
Proof.
  intros Ei G W C N. pose proof sides_none as S0. destruct Books as (K1 & K2 & K3 & K4).
  destruct (weights_defined _ _ _ (proj1 G) ltac:(exact G) W) as (q & vs & Eq & Ev & _).
  destruct (sort_all_ok g [] (g_ents g) S0 K4) as (a & Ea & H1 & H2 & H3).
  assert (Ca : contents g (g_ents g) (members a)).
  { unfold members, contents. destruct (ss a) as [|x r] eqn:A; [|left; split; [discriminate|exact H1]].
    destruct (tp a) as [|x r] eqn:B; [right; right; auto|]. right; left. split; [exact H1|]. split; [discriminate|exact H2]. }
  assert (El : members a = l) by (eapply contents_fun; eauto).
  unfold Export. rewrite Ei. destruct (g_ents g) as [|x0 ids] eqn:Es.
  { exfalso. apply N. destruct C as [(_ & H)|[(_ & _ & H)|(_ & _ & H)]]; inversion H; reflexivity. }
  rewrite <- Es in *. cbn [ta_unit ta_scale ta_grad ta_graph].
  assert (Em : convert (so_mdl s) (mkTarget g (m_unit (so_mdl s)) (m_scale (so_mdl s)) (so_grad s)) = Some (so_mdl s)).
  { unfold convert. cbn [ta_unit ta_scale]. rewrite (proj2 (Qeq_bool_iff _ _) (Qeq_refl _)), Z.eqb_refl. reflexivity. }
  rewrite Em, Eq, Ev, Ea. fold (members a).
  rewrite El. destruct l as [|f l']; [contradiction|].
  destruct (self_all f (f :: l') [] _ self_0) as (h1 & E1 & F1).
  { cbn [app]. eapply contents_nodup; [exact C|exact K3]. }
  { intros x I. exact (contents_kind _ _ _ _ C I). }
  unfold p in E1. rewrite E1. destruct F1 as (A & B & Cn).
  assert (Lv : forall i, live g i -> live h1 i).
  { intros i [n E]. unfold live. rewrite A. destruct (Nat.eqb i p); [eauto|]. rewrite E. cbn. eauto. }
  rewrite self_moves.
  2:{ intros x I. rewrite B. split; [apply in_or_app; now left|]. apply Lv. now apply K4. }
  exists (with_ents h1 []), (w_items (f :: l') (new_node 308 true)). eexists _, _, _, _. split; [reflexivity|]. split; [reflexivity|]. split; [reflexivity|]. split; [reflexivity|].
  split. { change (look (with_ents h1 []) p) with (look h1 p). now rewrite A, Nat.eqb_refl. }
  split; [reflexivity|]. split; [reflexivity|]. exact Lv.
Qed.
End Self.

(** ** Side by side *)

Lemma moved_holds_iff k n t : holds (moved k n) t <-> exists t', t = (t' + k)%nat /\ holds n t'.
Proof.
  unfold holds, moved. cbn [n_des n_extras n_slots n_items n_edges n_loops].
  assert (O : forall l, In (Some t) (map (option_map (fun i => i + k)%nat) l) <-> exists t', t = (t' + k)%nat /\ In (Some t') l).
  { intros l. rewrite in_map_iff. split.
    - intros ([y|] & E & I); [|discriminate]. injection E as <-. eauto.
    - intros (t' & -> & I). exists (Some t'). auto. }
  assert (N : forall l, In t (map (fun i => i + k)%nat l) <-> exists t', t = (t' + k)%nat /\ In t' l).
  { intros l. rewrite in_map_iff. split; intros (y & A & B); exists y; auto. }
  rewrite !O, !N. split.
  - intros [(y & E & H)|[(y & E & H)|[(y & E & H)|[(y & E & H)|[(d & I & H)|(q & I & H)]]]]]; try (exists y; tauto).
    + apply in_map_iff in I. destruct I as (d0 & <- & I). cbn [ed_curve ed_start ed_stop] in H.
      destruct H as [->|[->| ->]]; eexists; (split; [reflexivity|]); right; right; right; right; left; exists d0; auto.
    + apply in_map_iff in I. destruct I as (q0 & <- & I). cbn [fst snd] in H. destruct H as [->|H].
      * eexists; split; [reflexivity|]. right; right; right; right; right; exists q0; auto.
      * apply N in H. destruct H as (y & -> & H). exists y. split; [reflexivity|]. right; right; right; right; right; exists q0; auto.
  - intros (y & -> & [H|[H|[H|[H|[(d & I & H)|(q & I & H)]]]]]).
    + left; eauto.
    + right; left; eauto.
    + right; right; left; eauto.
    + right; right; right; left; eauto.
    + right; right; right; right; left. eexists. split; [apply in_map, I|]. cbn [ed_curve ed_start ed_stop]. destruct H as [->|[->| ->]]; auto.
    + right; right; right; right; right. eexists. split; [apply in_map, I|]. cbn [fst snd]. destruct H as [->|H]; [auto|].
      right. apply N. eauto.
Qed.

Lemma beside_low g h i : (i < g_next g)%nat -> look (beside g h) i = look g i.
Proof. intros H. unfold look, beside. cbn [g_heap]. apply Nat.ltb_lt in H. now rewrite H. Qed.
Lemma beside_high g h i : look (beside g h) (i + g_next g) = option_map (moved (g_next g)) (look h i).
Proof.
  unfold look, beside. cbn [g_heap]. assert (H : Nat.ltb (i + g_next g) (g_next g) = false) by (apply Nat.ltb_ge; lia).
  rewrite H. unfold look. now replace (i + g_next g - g_next g)%nat with i by lia.
Qed.

(** Two models with books in order which share nothing stand side by side. *)
Lemma beside_ok g h : consistent g -> (forall i, (g_next g <= i)%nat -> look g i = None) ->
  (forall i n, look g i = Some n -> n_null n = true -> n_type n = 0) ->
  consistent h -> (forall i, (g_next h <= i)%nat -> look h i = None) ->
  (forall i n, look h i = Some n -> n_null n = true -> n_type n = 0) ->
  side_by_side (beside g h) (map (fun i => i + g_next g)%nat (g_ents h)).
Proof.
  intros (A1 & A2 & A3 & A4) Fg Ng (B1 & B2 & B3 & B4) Fh Nh. set (k := g_next g) in *.
  assert (Lg : forall i n, look g i = Some n -> (i < k)%nat).
  { intros i n E. destruct (Nat.lt_ge_cases i k) as [H|H]; [exact H|]. rewrite (Fg i H) in E. discriminate. }
  assert (Cs : forall i n, look (beside g h) i = Some n ->
     (look g i = Some n /\ (i < k)%nat) \/ exists j m, i = (j + k)%nat /\ look h j = Some m /\ n = moved k m).
  { intros i n E. destruct (Nat.lt_ge_cases i k) as [H|H].
    - left. rewrite beside_low in E by exact H. auto.
    - right. exists (i - k)%nat. replace i with (i - k + k)%nat in E by lia. unfold k in E. rewrite beside_high in E. fold k in E.
      destruct (look h (i - k)) as [m|] eqn:X; [|discriminate]. injection E as <-. exists m. split; [lia|auto]. }
  assert (Ig : forall i n, look g i = Some n -> look (beside g h) i = Some n).
  { intros i n E. rewrite beside_low; [exact E|]. eapply Lg; eauto. }
  assert (Ih : forall j m, look h j = Some m -> look (beside g h) (j + k) = Some (moved k m)).
  { intros j m E. unfold k. rewrite beside_high, E. reflexivity. }
  split.
  - split; [|split; [|split]].
    + intros e t (n & E & H). destruct (Cs e n E) as [[E' L]|(j & m & -> & E' & ->)].
      * destruct (A1 e t) as ((m & M) & m' & M' & R); [now exists n|]. split; [exists m; auto|]. exists m'. auto.
      * apply moved_holds_iff in H. destruct H as (t' & -> & H). destruct (B1 j t') as ((q & Q) & q' & Q' & R); [now exists m|].
        split; [exists (moved k q); auto|]. exists (moved k q'). split; [auto|]. apply in_map_iff. exists j. auto.
    + intros e r (n & E & H). destruct (Cs e n E) as [[E' L]|(j & m & -> & E' & ->)].
      * destruct (A2 e r) as ((m & M) & m' & M' & R); [now exists n|]. split; [exists m; auto|]. exists m'. auto.
      * cbn [moved n_refs] in H. apply in_map_iff in H. destruct H as (r' & <- & H). destruct (B2 j r') as ((q & Q) & q' & Q' & R); [now exists m|].
        split; [exists (moved k q); auto|]. exists (moved k q'). split; [auto|]. apply moved_holds_iff. eauto.
    + exact A3.
    + intros e I. destruct (A4 e I) as [n E]. exists n. auto.
  - intros i H. cbn [g_next beside] in H. replace i with (i - k + k)%nat by lia. unfold k. rewrite beside_high. fold k. rewrite Fh by lia. reflexivity.
  - intros i n E. destruct (Cs i n E) as [[E' _]|(j & m & -> & E' & ->)]; [eapply Ng; eauto|]. cbn [moved n_null n_type]. eapply Nh; eauto.
  - apply Injective_map_NoDup; [intros a b H; lia|exact B3].
  - intros i I. apply in_map_iff in I. destruct I as (j & <- & I). destruct (B4 j I) as [m E]. exists (moved k m). split; [auto|]. split; [reflexivity|].
    intros X. cbn [g_ents beside] in X. destruct (A4 _ X) as [n En]. apply Lg in En. lia.
Qed.

(** ** Nesting *)

Lemma go_ok g f (Rec : forall q d, depth_level f g q = Some d -> 0 <= d /\ deepest g q (Z.to_nat d)) (l : list nat) :
  (forall x m, In x l -> look g x = Some m -> n_type m <> 320) -> forall nd r,
  (fix go (nd : Z) (l : list nat) : option Z :=
         match l with
         | [] => Some nd
         | x :: r =>
           match look g x with
           | None => None
           | Some m =>
             if n_type m =? 308 then
               match depth_level f g x with
               | None => None
               | Some tm => go (if tm >=? nd then tm + 1 else nd) r
               end
             else if n_type m =? 408 then
               match (match nth 0 (n_slots m) None with None => Some 0 | Some d => depth_level f g d end) with
               | None => None
               | Some tm => go (if tm >=? nd then tm + 1 else nd) r
               end
             else if n_type m =? 320 then Some (-100)
             else go nd r
           end
         end) nd l = Some r -> 0 <= nd ->
  nd <= r /\
  (r = nd \/ exists x m q d, In x l /\ look g x = Some m /\
     (((n_type m = 308 /\ q = x) \/ (n_type m = 408 /\ nth 0 (n_slots m) None = Some q)) /\ deepest g q (Z.to_nat d) /\ 0 <= d /\ r = d + 1 \/
      (n_type m = 408 /\ nth 0 (n_slots m) None = None /\ r = 1))) /\
  (forall x m q, In x l -> look g x = Some m -> (n_type m = 308 /\ q = x) \/ (n_type m = 408 /\ nth 0 (n_slots m) None = Some q) ->
     exists d, deepest g q (Z.to_nat d) /\ 0 <= d /\ d + 1 <= r) /\
  (forall x m, In x l -> look g x = Some m -> n_type m = 408 -> nth 0 (n_slots m) None = None -> 1 <= r).
Proof.
  induction l as [|x l IH]; intros Net nd r H P.
  { injection H as <-. split; [lia|]. split; [now left|]. split; intros; contradiction. }
  destruct (look g x) as [m|] eqn:E; [|discriminate].
  assert (Net' : forall y k, In y l -> look g y = Some k -> n_type k <> 320) by (intros y k I K; exact (Net y k (or_intror I) K)).
  pose proof (Net x m (or_introl eq_refl) E) as Nx.
  destruct (n_type m =? 308) eqn:T1.
  { apply Z.eqb_eq in T1. destruct (depth_level f g x) as [tm|] eqn:Dx; [|discriminate]. destruct (Rec _ _ Dx) as [P1 D1].
    destruct (IH Net' _ _ H ltac:(destruct (tm >=? nd); lia)) as (I1 & I2 & I3 & I4). split; [destruct (tm >=? nd) eqn:C; lia|]. split; [|split].
    - destruct I2 as [I2|(y & k & q & d & Y & K & Z)]; [|right; exists y, k, q, d; split; [now right|auto]].
      destruct (tm >=? nd) eqn:C; [|now left]. right. exists x, m, x, tm. split; [now left|]. split; [exact E|]. left. auto.
    - intros y k q [<-|Y] K Q; [|eapply I3; eauto]. rewrite E in K. injection K as <-. destruct Q as [[_ ->]|[Q _]]; [|congruence].
      exists tm. split; [exact D1|]. split; [exact P1|]. destruct (tm >=? nd) eqn:C; lia.
    - intros y k [<-|Y] K Q; [|eapply I4; eauto]. rewrite E in K. injection K as <-. congruence. }
  apply Z.eqb_neq in T1.
  destruct (n_type m =? 408) eqn:T2.
  { apply Z.eqb_eq in T2. destruct (nth 0 (n_slots m) None) as [q0|] eqn:Sl.
    - destruct (depth_level f g q0) as [tm|] eqn:Dx; [|discriminate]. destruct (Rec _ _ Dx) as [P1 D1].
      destruct (IH Net' _ _ H ltac:(destruct (tm >=? nd); lia)) as (I1 & I2 & I3 & I4). split; [destruct (tm >=? nd) eqn:C; lia|]. split; [|split].
      + destruct I2 as [I2|(y & k & q & d & Y & K & Z)]; [|right; exists y, k, q, d; split; [now right|auto]].
        destruct (tm >=? nd) eqn:C; [|now left]. right. exists x, m, q0, tm. split; [now left|]. split; [exact E|]. left. auto.
      + intros y k q [<-|Y] K Q; [|eapply I3; eauto]. rewrite E in K. injection K as <-. destruct Q as [[Q _]|[_ Q]]; [congruence|].
        rewrite Sl in Q. injection Q as <-. exists tm. split; [exact D1|]. split; [exact P1|]. destruct (tm >=? nd) eqn:C; lia.
      + intros y k [<-|Y] K Q Q'; [|eapply I4; eauto]. rewrite E in K. injection K as <-. congruence.
    - destruct (IH Net' _ _ H ltac:(destruct (0 >=? nd); lia)) as (I1 & I2 & I3 & I4). split; [destruct (0 >=? nd) eqn:C; lia|]. split; [|split].
      + destruct I2 as [I2|(y & k & q & d & Y & K & Z)]; [|right; exists y, k, q, d; split; [now right|auto]].
        destruct (0 >=? nd) eqn:C; [|now left]. right. exists x, m, x, 0. split; [now left|]. split; [exact E|]. right. auto.
      + intros y k q [<-|Y] K Q; [|eapply I3; eauto]. rewrite E in K. injection K as <-. destruct Q as [[Q _]|[_ Q]]; congruence.
      + intros y k [<-|Y] K Q Q'; [|eapply I4; eauto]. destruct (0 >=? nd) eqn:C; lia. }
  apply Z.eqb_neq in T2. destruct (n_type m =? 320) eqn:T3; [apply Z.eqb_eq in T3; contradiction|].
  destruct (IH Net' _ _ H P) as (I1 & I2 & I3 & I4). split; [exact I1|]. split; [|split].
  - destruct I2 as [I2|(y & k & q & d & Y & K & Z)]; [now left|right; exists y, k, q, d; split; [now right|auto]].
  - intros y k q [<-|Y] K Q; [|eapply I3; eauto]. rewrite E in K. injection K as <-. destruct Q as [[Q _]|[Q _]]; congruence.
  - intros y k [<-|Y] K Q Q'; [|eapply I4; eauto]. rewrite E in K. injection K as <-. congruence.
Qed.

Lemma depth_ok g : no_network g -> forall f p d, depth_level f g p = Some d -> 0 <= d /\ deepest g p (Z.to_nat d).
Proof.
  intros Net. induction f as [|f IH]; intros p d H; [discriminate|]. cbn [depth_level] in H.
  destruct (look g p) as [n|] eqn:E; [|discriminate].
  destruct (go_ok g f IH (n_items n) ltac:(intros; eapply Net; eauto) 0 d H ltac:(lia)) as (A & B & C & Dd).
  split; [exact A|]. split.
  - destruct B as [->|(x & m & q & e & I & M & [(K & De & P & ->)|(T & Sl & ->)])].
    + constructor.
    + rewrite Z2Nat.inj_add by lia. change (Z.to_nat 1) with 1%nat. rewrite Nat.add_1_r. eapply nested_in; [|exact (proj1 De)].
      exists n, x, m. split; [exact E|]. split; [exact I|]. split; [exact M|]. destruct K as [[K1 K2]|[K1 K2]]; [left|right]; auto.
    + apply nested_hollow. exists n, x, m. auto 10.
  - intros j Nj. inversion Nj as [p0|p0 Hh|p0 q k U Nk]; subst.
    + lia.
    + destruct Hh as (n' & x & m & E' & I & M & T & Sl). rewrite E in E'. injection E' as <-. specialize (Dd x m I M T Sl). lia.
    + destruct U as (n' & x & m & E' & I & M & K). rewrite E in E'. injection E' as <-.
      destruct (C x m q I M K) as (e & [_ De] & P & L). specialize (De k Nk). lia.
Qed.

(** With a bound on the nesting it comes to an end. *)
Lemma depth_total g : no_network g -> (forall e t, points g e t -> live g t) -> forall f p,
  live g p -> (forall j, nested g p j -> (j < f)%nat) -> exists d, depth_level f g p = Some d.
Proof.
  intros Net Lv. induction f as [|f IH]; intros p [n E] B; [specialize (B 0%nat (nested_0 g p)); lia|].
  cbn [depth_level]. rewrite E.
  assert (Sub : forall x m q, In x (n_items n) -> look g x = Some m -> (n_type m = 308 /\ q = x) \/ (n_type m = 408 /\ nth 0 (n_slots m) None = Some q) ->
     exists d, depth_level f g q = Some d).
  { intros x m q I M K. apply IH.
    - destruct K as [[_ ->]|[_ K]]; [now exists m|]. apply (Lv x). exists m. split; [exact M|]. right; right; left. rewrite <- K. apply nth_In.
      destruct (n_slots m); [discriminate|cbn; lia].
    - intros j Nj. assert (X : nested g p (S j)); [|specialize (B _ X); lia]. eapply nested_in; [|exact Nj]. exists n, x, m. auto. }
  assert (All : forall x, In x (n_items n) -> live g x).
  { intros x I. apply (Lv p). exists n. split; [exact E|]. right; right; right; left. exact I. }
  clear E B. revert Sub All.
  match goal with |- _ -> _ -> exists d, ?G ?z ?l0 = Some d => generalize l0; enough (X : forall l nd, (forall x m q, In x l -> look g x = Some m ->
      (n_type m = 308 /\ q = x) \/ (n_type m = 408 /\ nth 0 (n_slots m) None = Some q) -> exists d, depth_level f g q = Some d) ->
      (forall x, In x l -> live g x) -> exists d, G nd l = Some d) by (intros l1 Sub All; exact (X l1 z Sub All)) end.
  induction l as [|x l IHl]; intros nd Sub All; [eexists; reflexivity|].
  destruct (All x (or_introl eq_refl)) as [m M]. rewrite M.
  assert (G : forall nd, exists d, (fix go (nd : Z) (l : list nat) : option Z :=
         match l with
         | [] => Some nd
         | x :: r =>
           match look g x with
           | None => None
           | Some m =>
             if n_type m =? 308 then
               match depth_level f g x with
               | None => None
               | Some tm => go (if tm >=? nd then tm + 1 else nd) r
               end
             else if n_type m =? 408 then
               match (match nth 0 (n_slots m) None with None => Some 0 | Some d => depth_level f g d end) with
               | None => None
               | Some tm => go (if tm >=? nd then tm + 1 else nd) r
               end
             else if n_type m =? 320 then Some (-100)
             else go nd r
           end
         end) nd l = Some d).
  { intros nd'. apply IHl; [intros y k q Y K Q; exact (Sub y k q (or_intror Y) K Q)|intros y Y; exact (All y (or_intror Y))]. }
  destruct (n_type m =? 308) eqn:T1.
  { apply Z.eqb_eq in T1. destruct (Sub x m x (or_introl eq_refl) M (or_introl (conj T1 eq_refl))) as (d & ->). apply G. }
  destruct (n_type m =? 408) eqn:T2.
  { apply Z.eqb_eq in T2. destruct (nth 0 (n_slots m) None) as [q|] eqn:Sl; [|apply G].
    destruct (Sub x m q (or_introl eq_refl) M (or_intror (conj T2 Sl))) as (d & ->). apply G. }
  destruct (n_type m =? 320) eqn:T3; [eexists; reflexivity|apply G].
Qed.

Lemma depth_claim g p : no_network g -> consistent g -> live g p ->
  (forall k, deepest g p k -> depth_level (S k) g p = Some (Z.of_nat k)) /\
  ((forall k, exists j, (k <= j)%nat /\ nested g p j) -> forall fuel, depth_level fuel g p = None).
Proof.
  intros Net (K1 & _) L. split.
  - intros k [N B]. destruct (depth_total g Net ltac:(intros e t H; apply (K1 e t H)) (S k) p L) as (d & E).
    { intros j Nj. specialize (B j Nj). lia. }
    rewrite E. destruct (depth_ok g Net _ _ _ E) as (P & N' & B'). specialize (B _ N'). specialize (B' _ N). f_equal. lia.
  - intros U f. destruct (depth_level f g p) as [d|] eqn:E; [|reflexivity]. destruct (depth_ok g Net _ _ _ E) as (P & _ & B).
    destruct (U (S (Z.to_nat d))) as (j & J & N). specialize (B j N). lia.
Qed.

(** A definition within itself has no end. *)
Lemma within_nested g p r j : within g p r -> nested g r j -> exists k, (j < k)%nat /\ nested g p k.
Proof.
  intros W N. induction W as [p q U|p q r U _ IH].
  - exists (S j). split; [lia|]. eapply nested_in; eauto.
  - destruct (IH N) as (k & L & Nk). exists (S k). split; [lia|]. eapply nested_in; eauto.
Qed.
Lemma circle_endless g p : within g p p -> forall k, exists j, (k <= j)%nat /\ nested g p j.
Proof.
  intros W. induction k as [|k (j & L & N)]; [exists 0%nat; split; [lia|constructor]|].
  destruct (within_nested g p p j W N) as (i & L' & N'). exists i. split; [lia|exact N'].
Qed.
