(* Cull and orphans. *)
From Coq Require Import List Bool ZArith Lia ZifyBool ZifyNat.
From Verif Require Import GraphModel GraphSpec GraphFacts GraphOps GraphEdge GraphDel GraphProps GraphProps2.
Import ListNotations.
Open Scope Z_scope.

Lemma nil_true {A} (l : list A) : nil l = true <-> l = [].
Proof. destruct l; cbn; split; congruence. Qed.
Lemma none_true {A} (o : option A) : none o = true <-> o = None.
Proof. destruct o; cbn; split; congruence. Qed.

Lemma zmem_in x l : zmem x l = true <-> In x l.
Proof.
  unfold zmem. rewrite existsb_exists. split.
  - intros (y & H & E). apply Z.eqb_eq in E. now subst.
  - intros H. exists x. split; [exact H|apply Z.eqb_refl].
Qed.

(* the two halves of orphaned, as tests *)
Definition lacksb (n : node) : bool :=
  let part k := none (nth k (n_slots n) None) in
  let t := n_type n in
  n_null n || (zmem t [102; 308; 510; 514] && nil (n_items n)) ||
  (zmem t [120; 122; 144; 164; 186; 408; 510] && part 0%nat) || ((t =? 120) && part 1%nat) ||
  ((t =? 142) && (part 0%nat || (part 1%nat && part 2%nat))) || ((t =? 406) && (n_form n =? 0)) ||
  ((t =? 502) && Nat.eqb (n_points n) 0) || ((t =? 504) && nil (n_edges n)) || ((t =? 508) && nil (n_loops n)).
Definition unwantedb (n : node) : bool :=
  nil (n_refs n) && (zmem (n_type n) [124; 314; 502; 504; 508; 510] || (negb (n_dep n =? 0) && negb (n_type n =? 186))).
Lemma lacksb_ok n : lacks n <-> lacksb n = true.
Proof.
  unfold lacks, lacksb. cbv zeta.
  rewrite !orb_true_iff, !andb_true_iff, !orb_true_iff, !andb_true_iff, !nil_true, !none_true, !zmem_in, !Z.eqb_eq, Nat.eqb_eq.
  rewrite <- !or_assoc. reflexivity.
Qed.
Lemma unwantedb_ok n : unwanted n <-> unwantedb n = true.
Proof.
  unfold unwanted, unwantedb. rewrite andb_true_iff, orb_true_iff, andb_true_iff, !negb_true_iff, nil_true, zmem_in, !Z.eqb_neq.
  reflexivity.
Qed.

Lemma halves n : isOrphaned n = lacksb n || unwantedb n.
Proof.
  unfold isOrphaned, lacksb, unwantedb. cbv zeta.
  destruct (n_null n); [reflexivity|]. cbn [orb].
  generalize (nil (n_refs n)) (nil (n_items n)) (nil (n_edges n)) (nil (n_loops n)) (n_dep n =? 0) (n_form n =? 0) (Nat.eqb (n_points n) 0)
    (none (nth 0 (n_slots n) None)) (none (nth 1 (n_slots n) None)) (none (nth 2 (n_slots n) None)) (n_type n).
  intros r i ed lo d f p s0 s1 s2 t. cbn [zmem existsb].
  repeat match goal with |- context [t =? ?k] =>
    destruct (t =? k) eqn:?;
    [match goal with X : (t =? k) = true |- _ => apply Z.eqb_eq in X; subst t end;
     cbn [Z.eqb Pos.eqb orb andb]; destruct r, d; cbn [negb orb andb]; rewrite ?orb_true_r, ?orb_false_r, ?andb_true_r, ?andb_false_r, ?orb_true_r, ?orb_false_r;
     try reflexivity; destruct s0, s1, s2, i, f, p, ed, lo; reflexivity|] end.
  cbn [orb andb]. destruct r, d; reflexivity.
Qed.

Lemma orphaned_doomed v n : orphaned v n <-> doomed v n = true.
Proof.
  unfold doomed. rewrite halves, !orb_true_iff, !andb_true_iff, negb_true_iff, Z.eqb_neq, nil_true.
  unfold orphaned. rewrite lacksb_ok, unwantedb_ok. tauto.
Qed.

Lemma orphan_doom g v e : orphan g v e <-> doom g v e.
Proof. unfold orphan, doom. split; intros (n & E & H); exists n; split; auto; now apply orphaned_doomed. Qed.

(* an entity that goes was to go when visited *)
Lemma cull_visit v l : forall g kept h k, ginv zero g -> counted g -> few g -> pinned g -> NoDup l ->
  (forall e, In e l -> live g e) -> cull_loop g v l kept = Some (h, k) ->
  forall e n, In e l -> look g e = Some n -> ~ live h e ->
  exists g1 m, ginv zero g1 /\ counted g1 /\ look g1 e = Some m /\ lesser n m /\ doomed v m = true.
Proof.
  induction l as [|a l IH]; intros g kept h k G C F P Nd Lv; cbn [cull_loop]; [intros _ e n []|].
  apply NoDup_cons_iff in Nd. destruct Nd as [Na Nd].
  destruct (Lv a (or_introl eq_refl)) as [na Ea]. rewrite Ea.
  destruct (doomed v na) eqn:D.
  - destruct (destroy_ok g a G C) as (g1 & H1 & D1); [now exists na|now apply (doomed_may_die g v a na)|].
    rewrite H1. pose proof (de_dwindle _ _ _ D1) as W1. intros H e n [->|He] E Dead.
    { rewrite Ea in E. injection E as <-. exists g, na. split; [exact G|]. split; [exact C|]. split; [exact Ea|]. split; [apply lesser_refl|exact D]. }
    assert (Hea : e <> a) by (intros ->; contradiction).
    destruct (de_live _ _ _ D1 e Hea) as [p Hp]; [now exists n|].
    destruct (IH g1 kept h k (de_ginv _ _ _ D1) (de_counted _ _ _ D1) (dw_few _ _ W1 F) (dw_pinned _ _ W1 P) Nd)
      with (e := e) (n := p) as (g2 & m & X1 & X2 & X3 & X4 & X5); auto.
    { intros i Hi. apply (de_live _ _ _ D1); [intros ->; contradiction|]. apply Lv. now right. }
    exists g2, m. split; [exact X1|]. split; [exact X2|]. split; [exact X3|]. split; [|exact X5].
    eapply lesser_trans; [|exact X4]. exact (dw_some _ _ W1 e n p E Hp).
  - intros H e n [->|He] E Dead.
    { exfalso. apply Dead. destruct (cull_ok v l g (kept ++ [e]) G C F P Nd) as (h' & H2 & _ & _ & _ & L2 & _).
      { intros i Hi. apply Lv. now right. }
      rewrite H in H2. injection H2 as -> _. apply L2; [exact Na|now exists n]. }
    apply (IH g (kept ++ [a]) h k G C F P Nd) with (e := e); auto. intros i Hi. apply Lv. now right.
Qed.

Lemma lesser_fewer g1 h1 e n m : ginv zero g1 -> counted g1 -> look g1 e = Some n -> ginv zero h1 -> counted h1 -> look h1 e = Some m ->
  lesser n m -> fewer n m.
Proof.
  intros G C E G1 C1 E1 L. destruct L as [a1 a2 a3 a4 a5 a6 a7 a8 a9 a10 a11 a12 a13]. repeat (split; [assumption|]).
  intros t Ht. apply (holds_tgt h1 e m t G1 C1 E1) in Ht. apply (holds_tgt g1 e n t G C E). auto.
Qed.

Lemma Cull_claim g v : reached g -> few g -> pinned g ->
  exists h, run (OCull v) g = Some (true, h) /\ consistent h /\
    g_ents h = filter (alive h) (g_ents g) /\
    (forall e, live h e -> live g e) /\
    (forall e, ~ In e (g_ents g) -> live g e -> live h e) /\
    (forall e, In e (g_ents g) -> orphan g v e -> ~ live h e) /\
    (forall e n, look g e = Some n -> ~ live h e -> exists m, fewer n m /\ orphaned v m) /\
    (forall e n m, look g e = Some n -> look h e = Some m -> fewer n m) /\
    ((forall e, In e (g_ents g) -> ~ orphan g v e) -> h = g).
Proof.
  intros R F P. apply reached_inv in R as I. destruct (Cull_ok g v I F P) as (h & H & Ih & _ & _ & En & O & U & L & Lv & Id).
  pose proof I as (G & C & S1 & S2). pose proof Ih as (Gh & Ch & _).
  exists h. cbn [run]. rewrite H. split; [reflexivity|]. split; [now apply inv_consistent|]. split; [exact En|].
  split; [exact Lv|]. split; [exact U|]. split; [intros e He Q; apply O; [exact He|now apply orphan_doom]|]. split; [|split].
  - intros e n E Dead. unfold Cull in H. destruct (cull_loop g v (g_ents g) []) as [[h' k]|] eqn:Lp; [|discriminate]. injection H as <-.
    destruct (in_dec Nat.eq_dec e (g_ents g)) as [He|He]; [|exfalso; apply Dead, U; [exact He|now exists n]].
    destruct (cull_visit v (g_ents g) g [] h' k G C F P S1 S2 Lp e n He E Dead) as (g1 & m & X1 & X2 & X3 & X4 & X5).
    exists m. split; [|now apply orphaned_doomed]. eapply lesser_fewer; [exact G|exact C|exact E|exact X1|exact X2|exact X3|exact X4].
  - intros e n m E E1. eapply lesser_fewer; [exact G|exact C|exact E|exact Gh|exact Ch|exact E1|]. eapply L; eauto.
  - intros Q. apply Id. intros e He D. apply (Q e He). now apply orphan_doom.
Qed.

Lemma Cull_group_claim g v a h : reached g -> few g -> pinned g -> (forall b, joined g a b -> ~ orphan g v b) ->
  run (OCull v) g = Some (true, h) -> forall b, joined g a b -> look h b = look g b.
Proof.
  intros R F P Q H b Jb. apply reached_inv in R. cbn [run] in H. destruct (Cull g v) as [h'|] eqn:E; [|discriminate].
  injection H as <-. apply (Cull_group g v a h' R F P); auto. intros c Jc D. apply (Q c Jc). now apply orphan_doom.
Qed.

Lemma culls_claim g v : reached g -> few g -> pinned g ->
  exists h, culls (length (g_ents g)) v g = Some h /\ consistent h /\ (forall e, In e (g_ents h) -> ~ orphan h v e).
Proof.
  intros R F P. apply reached_inv in R. destruct (culls_ok v (length (g_ents g)) g R F P (le_n _)) as (h & H & Ih & N).
  exists h. split; [exact H|]. split; [now apply inv_consistent|]. intros e He Q. apply (N e He). now apply orphan_doom.
Qed.

(* deletion of a segment *)
Lemma ends_first x l : ends x (x :: l) = true.
Proof. cbn. now rewrite Nat.eqb_refl. Qed.
Lemma after_app x a b : ~ In x a -> after x (a ++ x :: b) = b.
Proof.
  induction a as [|y a IH]; cbn [app after]; [now rewrite Nat.eqb_refl|].
  intros N. destruct (Nat.eqb x y) eqn:Q; [apply Nat.eqb_eq in Q; subst; exfalso; apply N; now left|].
  apply IH. intros H. apply N. now right.
Qed.
Lemma left_of_app x a b : ~ In x a -> left_of x (a ++ x :: b) = if (match a, b with [], _ | _, [] => true | _, _ => false end) then a ++ b else [].
Proof.
  intros N. assert (R : rem1 x (a ++ x :: b) = a ++ b).
  { clear - N. induction a as [|y a IH]; cbn [app rem1]; [now rewrite Nat.eqb_refl|].
    destruct (Nat.eqb x y) eqn:Q; [apply Nat.eqb_eq in Q; subst; exfalso; apply N; now left|].
    rewrite IH; [reflexivity|]. intros H. apply N. now right. }
  unfold left_of. rewrite R. unfold ends. rewrite after_app by exact N. destruct a as [|y a].
  - cbn [app]. now rewrite Nat.eqb_refl.
  - cbn [app]. assert (Q : Nat.eqb x y = false) by (apply Nat.eqb_neq; intros ->; apply N; now left).
    rewrite Q. cbn [orb]. destruct b; reflexivity.
Qed.

Lemma segment_claim g c n a x b : reached g -> In x (g_ents g) -> may_die g x ->
  look g c = Some n -> n_null n = false -> n_type n = 102 -> n_items n = a ++ x :: b ->
  exists h m, run (ODel x) g = Some (true, h) /\ look h c = Some m /\
    n_items m = (if (match a, b with [], _ | _, [] => true | _, _ => false end) then a ++ b else []) /\
    (forall t, In t (a ++ b) -> live h t /\ (lists h t c <-> In t (n_items m))).
Proof.
  intros R Hx M E Hn T Hi. apply reached_inv in R as I. destruct (del_ok g x I Hx M) as (k & _ & Hk & Ik & D).
  assert (Hin : In x (n_items n)) by (rewrite Hi, in_app_iff; right; now left).
  destruct (segment_deleted g c x n _ I Hx M E Hn T Hin Hk) as (m & Hm & Im & L).
  destruct (segments_ok g c n I E Hn T) as (Nd & _ & Sg). rewrite Hi in Nd. apply NoDup_remove in Nd. destruct Nd as [_ Nx].
  eexists _, m. split; [exact Hk|]. split; [exact Hm|]. split.
  - rewrite Im, Hi. apply left_of_app. intros Q. apply Nx. rewrite in_app_iff. now left.
  - intros t Ht. assert (Tn : In t (n_items n)).
    { rewrite Hi. apply in_app_iff. apply in_app_iff in Ht. destruct Ht; [now left|right; now right]. }
    split; [|symmetry; now apply L].
    destruct (Sg t Tn) as (q & Hq & _). apply (de_live _ _ _ D); [intros ->; contradiction|now exists q].
Qed.
