(* Composite curves, extrusions, and all entities of a plan. *)
From Coq Require Import List Bool ZArith Lia ZifyBool ZifyNat.
From Verif Require Import GraphModel GraphSpec GraphFacts AssocModel AssocSpec AssocFacts AssocRun AssocPlan.
Import ListNotations.
Open Scope Z_scope.

Lemma view N b T g c m : St N b T g -> b c = Some m -> S1 N b T c m [] g.
Proof.
  intros S E. eapply St_ext; [| |exact S].
  - intros x. symmetry. now apply upd_same.
  - intros r x. unfold plus. cbn [In]. tauto.
Qed.
Lemma free_upd b T e cur L c ty t : free_for b T c ty t -> t <> e -> c <> e -> free_for (upd b e cur) (plus T e L) c ty t.
Proof.
  intros (A & B & nc & C) Te Ce. split; [exact A|]. split.
  - unfold plus. intros [X|[X _]]; auto.
  - exists nc. rewrite upd_ne by exact Te. exact C.
Qed.

Lemma f2_length {A B} (R : A -> B -> Prop) a b : Forall2 R a b -> length a = length b.
Proof. induction 1; cbn [length]; congruence. Qed.

Definition simple : list Z := [100; 104; 110; 126].

Lemma count_up_in v vs : NoDup (map fst vs) -> forall w c, In (w, c) (count_up v vs) <->
  (w <> v /\ In (w, c) vs) \/ (w = v /\ exists d, In (v, d) vs /\ c = S d).
Proof.
  induction vs as [|[a b] vs IH]; intros D w c; cbn [count_up map fst In] in *.
  - split; [intros []|]. intros [[_ []]|[_ (d & [] & _)]].
  - apply NoDup_cons_iff in D. destruct D as [D1 D2]. destruct (Nat.eqb v a) eqn:Q.
    + apply Nat.eqb_eq in Q. subst a. cbn [In]. split.
      * intros [H|H]; [injection H as <- <-; right; split; [reflexivity|]; exists b; auto|].
        left. split; [|auto]. intros ->. apply D1. apply in_map_iff. exists (v, c). auto.
      * intros [[Nw [H|H]]|[-> (d & [H|H] & ->)]]; [injection H as <- <-; tauto|auto|injection H as <-; auto|].
        exfalso. apply D1. apply in_map_iff. exists (v, d). auto.
    + apply Nat.eqb_neq in Q. cbn [In]. rewrite (IH D2 w c). split.
      * intros [H|[[Nw H]|[-> (d & H & ->)]]]; [injection H as <- <-; left; auto|auto|right; split; [reflexivity|]; exists d; auto].
      * intros [[Nw [H|H]]|[-> (d & [H|H] & ->)]]; [auto|auto|injection H as -> _; tauto|]. right. right. split; [reflexivity|]. exists d. auto.
Qed.

Lemma tally_count L : NoDup (map fst (fold_left tally1 L [])) /\
  forall v c, In (v, c) (fold_left tally1 L []) <-> In v L /\ c = count_occ Nat.eq_dec L v.
Proof.
  induction L as [|x L [D IH]] using rev_ind.
  - cbn. split; [constructor|]. intros v c. tauto.
  - rewrite fold_left_app. cbn [fold_left]. set (T := fold_left tally1 L []) in *.
    assert (Co : forall v, count_occ Nat.eq_dec (L ++ [x]) v = (count_occ Nat.eq_dec L v + if Nat.eq_dec x v then 1 else 0)%nat).
    { intros v. rewrite count_occ_app. cbn [count_occ]. destruct (Nat.eq_dec x v); lia. }
    assert (Fs : forall v, In v (map fst T) <-> In v L).
    { intros v. rewrite in_map_iff. split; [intros ([w c] & <- & H); now apply IH in H|]. intros H.
      exists (v, count_occ Nat.eq_dec L v). split; [reflexivity|]. now apply IH. }
    unfold tally1. destruct (mem x (map fst T)) eqn:Q.
    + apply mem_in in Q. split; [now rewrite count_up_fst|]. intros v c. rewrite (count_up_in x T D), in_app_iff, Co. cbn [In]. rewrite IH.
      apply Fs in Q. split.
      * intros [[Nv [H ->]]|[-> (d & H & ->)]].
        -- destruct (Nat.eq_dec x v); [congruence|]. split; [auto|lia].
        -- apply IH in H. destruct H as [_ ->]. destruct (Nat.eq_dec x x); [|congruence]. split; [auto|lia].
      * intros [H ->]. destruct (Nat.eq_dec x v) as [->|Nv].
        -- right. split; [reflexivity|]. exists (count_occ Nat.eq_dec L v). split; [now apply IH|lia].
        -- left. split; [congruence|]. split; [|lia]. destruct H as [H|[H|[]]]; [exact H|congruence].
    + apply mem_notin in Q. split.
      * rewrite map_app. cbn [map fst]. apply nodup_snoc; assumption.
      * intros v c. rewrite !in_app_iff, IH, Co. cbn [In]. rewrite Fs in Q.
        pose proof (proj1 (count_occ_not_In Nat.eq_dec L x) Q) as Z0. destruct (Nat.eq_dec x v) as [->|Nv].
        -- split; [intros [[H _]|[H|[]]]; [tauto|injection H as <-; split; [auto|lia]]|]. intros [_ ->]. rewrite Z0. auto.
        -- split; [intros [[H ->]|[H|[]]]; [split; [auto|lia]|congruence]|]. intros [[H|[H|[]]] ->]; [left; split; [auto|lia]|congruence].
Qed.

Section All.
Variable l : list node.
Variable qs : list wants.
Hypothesis Sd : sound_plan l.
Hypothesis Sy : Forall2 (says l) l qs.
Notation N := (length l).
Notation blv := (blv l).
Notation Tlv := (Tlv l).
Notation Lv := (Lv l).

Definition marks (lv : nat -> nat) (done : list nat) : Prop := forall x, In x done <-> (1 <= lv x)%nat.
Definition grows (lv lv1 : nat -> nat) : Prop := forall x, lv1 x = lv x \/ (lv x = 0%nat /\ lv1 x = 1%nat).

Lemma plain_curve x m : nth_error l x = Some m -> In (n_type m) simple ->
  n_slots m = [] /\ n_items m = [] /\ n_edges m = [] /\ n_loops m = [] /\ n_null m = false.
Proof.
  intros E T. pose proof (d_fits _ Sd _ _ E) as F. assert (Nn : n_null m = false).
  { destruct (n_null m) eqn:Q; [|reflexivity]. rewrite (null_type l qs Sy x m E Q) in T. cbn in T. lia. }
  split; [|split; [|split; [|split]]].
  - pose proof (f_len _ _ F) as Ln. rewrite Nn in Ln. unfold simple in T. cbn [In] in T.
    assert (Z0 : blank_slots (n_type m) = []) by (destruct T as [<-|[<-|[<-|[<-|[]]]]]; reflexivity).
    rewrite Z0 in Ln. now apply length_zero_iff_nil.
  - apply (f_items _ _ F). unfold simple in T. cbn [In] in *. lia.
  - apply (f_edges _ _ F). unfold simple in T. cbn [In] in *. lia.
  - apply (f_loops _ _ F). unfold simple in T. cbn [In] in *. lia.
  - exact Nn.
Qed.

Lemma settled_at lv g x m : Lv lv g -> nth_error l x = Some m -> lv x = 2%nat \/ ((1 <= lv x)%nat /\ In (n_type m) simple) -> settled l g x.
Proof.
  intros S E H. assert (B : blv lv x = Some (at_ (lv x) m)) by (unfold AssocPlan.blv; now rewrite E).
  destruct (St_look _ _ _ _ _ _ S B) as (rs & Lk & _). exists m, (w_refs rs (at_ (lv x) m)). split; [exact E|]. split; [exact Lk|].
  unfold alike. destruct H as [->|[H T]].
  - cbn. auto 12.
  - destruct (plain_curve x m E T) as (A1 & A2 & A3 & A4 & _).
    destruct (lv x) as [|[|k]]; [lia| |cbn; auto 12]. cbn [at_ basis n_type n_null n_form n_points n_des n_extras n_slots n_items n_edges n_loops w_refs].
    rewrite A1, A2, A3, A4. auto 12.
Qed.

(* the base class of c while e is being built *)
Lemma other_base lv e n cur L g done c nc qc : nth_error l e = Some n -> In c (parts n) ->
  S1 N (blv lv) (Tlv lv) e cur L g -> n_type cur = n_type n -> n_null cur = n_null n -> n_form cur = n_form n -> n_points cur = n_points n ->
  nth_error l c = Some nc -> nth_error qs c = Some qc -> says l nc qc -> In (n_type nc) simple -> marks lv done ->
  exists g1 lv1 done1, curve_associate N qs g done c = Some (true, g1, done1) /\ S1 N (blv lv1) (Tlv lv1) e cur L g1 /\
    grows lv lv1 /\ lv1 e = lv e /\ (1 <= lv1 c)%nat /\ marks lv1 done1.
Proof.
  intros E I S C1 C2 C3 C4 Ec Eq Qc T M. assert (Ce : c <> e).
  { intros ->. exact (d_apart _ Sd _ _ _ _ E I E I). }
  pose proof (plain_curve c nc Ec T) as (_ & _ & _ & _ & Nn). pose proof (d_fits _ Sd _ _ Ec) as Fc.
  unfold curve_associate. rewrite Eq.
  assert (Bc : upd (blv lv) e cur c = Some (at_ (lv c) nc)) by (rewrite upd_ne by exact Ce; unfold AssocPlan.blv; now rewrite Ec).
  destruct (St_look _ _ _ _ _ _ S Bc) as (rc & Lc & _). rewrite Lc. cbn [n_type w_refs]. rewrite at_type.
  pose proof (view _ _ _ _ _ _ S Bc) as Vc.
  destruct (Nat.eq_dec (lv c) 0) as [Z0|NZ].
  - rewrite Z0 in Vc. cbn [at_] in Vc.
    assert (Hfree : forall t, In t (early nc) -> free_for (upd (blv lv) e cur) (plus (Tlv lv) e L) c (n_type nc) t).
    { intros t Ht. apply early_parts in Ht. apply free_upd; [|intros ->; exact (d_apart _ Sd _ _ _ _ E I Ec Ht)|exact Ce].
      apply (free l qs Sd Sy lv c nc t Ec Ht). rewrite Z0. intros []. }
    destruct (base_ok l N (upd (blv lv) e cur) (plus (Tlv lv) e L) c nc qc g done) with (4 := Vc) as (g1 & H1 & S1'); auto.
    + intros x m Ex Xc. destruct (Nat.eq_dec x e) as [->|Xe].
      * rewrite E in Ex. injection Ex as <-. split; [now apply (in_range l e n)|]. exists cur. rewrite upd_eq. auto.
      * rewrite upd_ne by exact Xe. apply (classes_lv l lv c); auto.
    + rewrite (M c). lia.
    + apply Forall_forall. intros t Ht. apply early_parts in Ht. exact (part_range l Sd c nc t Ec Ht).
    + apply Forall_forall. exact Hfree.
    + apply (late l Sd c nc Ec).
    + rewrite H1. rewrite (drops_fit l N _ _ c nc (basis nc) _ _ Fc Nn eq_refl S1'). cbn [option_map].
      exists g1, (lift lv c 1), (c :: done). split; [reflexivity|]. split.
      * eapply St_ext; [| |exact S1'].
        -- intros x. unfold upd, AssocPlan.blv, lift. destruct (Nat.eqb x c) eqn:Q1, (Nat.eqb x e) eqn:Q2; try reflexivity.
           ++ apply Nat.eqb_eq in Q1, Q2. congruence.
           ++ apply Nat.eqb_eq in Q1. subst x. now rewrite Ec.
        -- intros r x. unfold plus, AssocPlan.Tlv, lift. destruct (Nat.eqb r c) eqn:Q1.
           ++ apply Nat.eqb_eq in Q1. subst r. split.
              ** intros [[(m & A & B)|[A _]]|[_ A]]; [rewrite Z0 in B; destruct B|congruence|]. left. exists nc. auto.
              ** intros [(m & A & B)|[A _]]; [|congruence]. right. split; [reflexivity|]. rewrite Ec in A. injection A as <-. exact B.
           ++ apply Nat.eqb_neq in Q1. split; [|tauto]. intros [X|[X _]]; [exact X|congruence].
      * split; [|split; [|split]].
        -- intros x. unfold lift. destruct (Nat.eqb x c) eqn:Q1; [|auto]. apply Nat.eqb_eq in Q1. subst. auto.
        -- apply lift_ne. congruence.
        -- now rewrite lift_eq.
        -- intros x. unfold lift. cbn [In]. rewrite (M x). destruct (Nat.eqb x c) eqn:Q1.
           ++ apply Nat.eqb_eq in Q1. subst. split; [lia|auto].
           ++ apply Nat.eqb_neq in Q1. split; [intros [X|X]; [congruence|exact X]|auto].
  - unfold base_associate. assert (Dc : mem c done = true) by (apply mem_in, M; lia). rewrite Dc.
    rewrite (drops_fit l N (upd (blv lv) e cur) (plus (Tlv lv) e L) c nc (at_ (lv c) nc) [] g Fc Nn) ; [|destruct (lv c) as [|[|k]]; [lia|reflexivity|reflexivity]|exact Vc].
    cbn [option_map]. exists g, lv, done. split; [reflexivity|]. split; [exact S|]. split; [intros x; auto|]. split; [reflexivity|]. split; [lia|exact M].
Qed.

Lemma segments_loop e n : nth_error l e = Some n -> n_type n = 102 -> n_null n = false ->
  forall rest its lv L g done, incl rest (n_items n) -> NoDup rest -> (forall c, In c rest -> ~ In c L) ->
  lv e = 1%nat -> marks lv done -> S1 N (blv lv) (Tlv lv) e (w_items its (basis n)) L g ->
  exists g1 lv1 done1, segments N qs g done e (map number rest) true = Some (true, g1, done1) /\
    S1 N (blv lv1) (Tlv lv1) e (w_items (its ++ rest) (basis n)) (L ++ rest) g1 /\
    grows lv lv1 /\ lv1 e = 1%nat /\ Forall (fun c => 1 <= lv1 c)%nat rest /\ marks lv1 done1.
Proof.
  intros E T Nn. pose proof (d_fits _ Sd _ _ E) as Ft. destruct (late l Sd e n E) as (_ & _ & _ & _ & _ & _ & Lt & _).
  induction rest as [|c rest IH]; intros its lv L g done Inc D NL Ve M S; cbn [map segments].
  - exists g, lv, done. rewrite !app_nil_r. split; [reflexivity|]. split; [exact S|]. split; [intros x; auto|]. auto.
  - apply NoDup_cons_iff in D. destruct D as [D1 D2]. assert (Ic : In c (n_items n)) by (apply Inc; now left).
    assert (Pc : In c (parts n)) by (rewrite parts_in; auto).
    destruct (f_102 _ _ Ft T c Ic) as (nc & Ec & Tc). fold simple in Tc.
    rewrite index_number by now apply (in_range l c nc).
    assert (F : free_for (blv lv) (Tlv lv) e (n_type n) c).
    { apply (free l qs Sd Sy lv e n c E Pc). rewrite Ve. now apply Lt. }
    destruct (S1_other _ _ _ _ _ _ _ _ _ S F) as (nx & rs & Bx & Lk). rewrite Lk.
    unfold AssocPlan.blv in Bx. rewrite Ec in Bx. injection Bx as <-.
    destruct (plain_curve c nc Ec Tc) as (_ & _ & _ & _ & Nc).
    assert (Cu : negb (is_curve (w_refs rs (at_ (lv c) nc))) || (n_type (w_refs rs (at_ (lv c) nc)) =? 102) = false).
    { unfold is_curve. cbn [n_null n_type w_refs]. rewrite at_null, at_type, Nc. unfold simple in Tc. cbn [In] in Tc.
      destruct Tc as [<-|[<-|[<-|[<-|[]]]]]; reflexivity. }
    rewrite Cu. destruct (S1_ref N _ _ e (w_items its (basis n)) L g c S F (NL c (or_introl eq_refl))) as (g1 & H1 & S1'). rewrite H1.
    destruct (S1_push_item N _ _ e _ _ _ c S1') as (g2 & H2 & S2). rewrite H2.
    destruct (say l qs Sy c nc Ec) as (qc & Eq & Qc).
    destruct (other_base lv e n _ _ g2 done c nc qc E Pc S2 eq_refl eq_refl eq_refl eq_refl Ec Eq Qc Tc M) as (g3 & lv3 & d3 & H3 & S3 & G3 & V3 & K3 & M3).
    rewrite H3.
    destruct (IH (its ++ [c]) lv3 (L ++ [c]) g3 d3) as (g4 & lv4 & d4 & H4 & S4 & G4 & V4 & K4 & M4); auto.
    + intros x Hx. apply Inc. now right.
    + intros x Hx. rewrite in_app_iff. cbn [In]. intros [X|[X|[]]]; [exact (NL x (or_intror Hx) X)|congruence].
    + congruence.
    + exists g4, lv4, d4. split; [exact H4|]. rewrite <- !app_assoc in S4. split; [exact S4|]. split.
      * intros x. destruct (G4 x) as [X|[X Y]], (G3 x) as [X'|[X' Y']]; try lia; auto.
      * split; [exact V4|]. split; [|exact M4]. constructor; [|exact K4]. destruct (G4 c); lia.
Qed.

Variables (closed : graph -> nat -> bool) (joins : graph -> nat -> nat -> bool).
Hypothesis Dr : drawn closed joins l.

Lemma joined_all g : forall its, (forall l1 a b l2, its = l1 ++ a :: b :: l2 -> joins g a b = true) -> joined_up joins g its = true.
Proof.
  induction its as [|a [|b its] IH]; intros H; [reflexivity|reflexivity|]. cbn [joined_up].
  rewrite (H [] a b its eq_refl). cbn [andb]. apply IH. intros l1 x y l2 Sp. apply (H (a :: l1) x y l2). now rewrite Sp.
Qed.

(* before entity i: all before it are finished, no other is, and the segments of the
   finished composite curves have their own pointers *)
Record stage (i : nat) (lv : nat -> nat) (done : list nat) (g : graph) : Prop := {
  st_lv : Lv lv g;
  st_marks : marks lv done;
  st_past : forall x, (x < i)%nat -> lv x = 2%nat;
  st_next : forall x, (i <= x)%nat -> (lv x <= 1)%nat;
  st_segs : forall x m c, lv x = 2%nat -> nth_error l x = Some m -> n_type m = 102 -> In c (n_items m) -> (1 <= lv c)%nat }.

Lemma stage_next i lv done g n : stage i lv done g -> nth_error l i = Some n -> lv i = 1%nat -> n_type n <> 102 ->
  forall g1, Lv (lift lv i 2) g1 -> stage (S i) (lift lv i 2) done g1.
Proof.
  intros St E V T g1 H. constructor; auto.
  - intros x. rewrite (st_marks _ _ _ _ St x). unfold lift. destruct (Nat.eqb x i) eqn:Q; [|tauto]. apply Nat.eqb_eq in Q. subst. rewrite V. lia.
  - intros x Hx. unfold lift. destruct (Nat.eqb x i) eqn:Q; [reflexivity|]. apply Nat.eqb_neq in Q. apply (st_past _ _ _ _ St). lia.
  - intros x Hx. rewrite lift_ne by lia. apply (st_next _ _ _ _ St). lia.
  - intros x m c Hx Em Tm Hc. assert (x <> i) by congruence. rewrite lift_ne in Hx by assumption.
    pose proof (st_segs _ _ _ _ St x m c Hx Em Tm Hc) as K. unfold lift. destruct (Nat.eqb c i); lia.
Qed.

Lemma class_164 i lv done n q g : stage i lv done g -> lv i = 1%nat -> nth_error l i = Some n -> says l n q -> n_null n = false -> n_type n = 164 ->
  exists g1, all_ok (fun g v => part164 closed N g i v) g (q_slots q) = Some (true, g1) /\ Lv (lift lv i 2) g1.
Proof.
  intros St V E Q Nn T. pose proof (d_fits _ Sd _ _ E) as Ft. destruct (f_164 _ _ Ft T) as (x & Ex & Tx).
  pose proof (f_len _ _ Ft) as Ln. rewrite Nn, T in Ln. cbn in Ln.
  destruct (n_slots n) as [|o [|]] eqn:Es; try discriminate. cbn [nth] in Ex. subst o.
  assert (Px : In x (parts n)) by (rewrite parts_in, Es; cbn [ptrs In]; auto).
  destruct (late l Sd i n E) as (_ & _ & _ & _ & _ & D & _). rewrite Es in D. cbn [ptrs] in D.
  assert (F : free_for (blv lv) (Tlv lv) i (n_type n) x).
  { apply (free l qs Sd Sy lv i n x E Px). rewrite V. apply D. now left. }
  rewrite (s_slots _ _ _ Q), Es. cbn [map all_ok]. pose proof (number_pos x). unfold part164.
  assert (W : number x <? 1 = false) by lia. rewrite W. rewrite index_number by exact (part_range l Sd i n x E Px).
  pose proof (start l lv i n E V g (st_lv _ _ _ _ St)) as S0.
  destruct (S1_ref N _ _ i (basis n) [] g x S0 F (fun H => H)) as (g1 & H1 & S1'). rewrite H1. cbn [app] in S1'.
  destruct (typed_look l N _ _ i _ _ _ x curves _ (classes_lv l lv i) S1' F Tx) as (_ & m & rs & nx & Em & I & Lk & _ & T1 & T2 & _).
  rewrite Lk. rewrite (is_curve_in rs nx m I T1 T2).
  destruct (S1_set_slot N _ _ i _ _ _ 0%nat (Some x) S1') as (g2 & H2 & S2). rewrite H2.
  assert (L2 : Lv (lift lv i 2) g2).
  { apply (end_slots l lv i n E V g2).
    - unfold halfway. rewrite Es. cbn [n_slots basis] in S2. rewrite Es in S2. exact S2.
    - apply (f_items _ _ Ft). cbn [In]. lia.
    - apply (f_edges _ _ Ft). lia.
    - apply (f_loops _ _ Ft). lia. }
  assert (Cl : closed g2 x = true).
  { destruct (d_closed _ _ _ Dr i n x m E T) as [Hc0|[Lt Hc0]]; auto; [now rewrite Es|].
    assert (Vx : lift lv i 2 x = 2%nat) by (rewrite lift_ne by lia; now apply (st_past _ _ _ _ St)).
    apply Hc0; [now apply (settled_at (lift lv i 2) g2 x m L2 Em); left|].
    apply Forall_forall. intros c Hc. destruct (Z.eq_dec (n_type m) 102) as [T3|T3].
    - destruct (f_102 _ _ (d_fits _ Sd _ _ Em) T3 c Hc) as (mc & Ec & Tc).
      apply (settled_at (lift lv i 2) g2 c mc L2 Ec). right. split; [|exact Tc].
      pose proof (st_segs _ _ _ _ St x m c (st_past _ _ _ _ St x Lt) Em T3 Hc). unfold lift. destruct (Nat.eqb c i); lia.
    - destruct (plain_curve x m Em) as (_ & Z0 & _); [unfold curves in I; unfold simple; cbn [In] in *; lia|]. rewrite Z0 in Hc. destruct Hc. }
  rewrite Cl. cbn [next_ok]. exists g2. auto.
Qed.

Lemma stage_base i lv done n q g : stage i lv done g -> nth_error l i = Some n -> nth_error qs i = Some q -> says l n q ->
  exists g1 lv1 done1, base_associate N q g done i = Some (true, g1, done1) /\ stage i lv1 done1 g1 /\ lv1 i = 1%nat.
Proof.
  intros St E Eq Q. pose proof (st_next _ _ _ _ St i (Nat.le_refl i)) as Le. destruct (Nat.eq_dec (lv i) 0) as [Z0|NZ].
  - pose proof (enter l lv i n g (st_lv _ _ _ _ St) E) as S0. rewrite Z0 in S0. cbn [at_] in S0.
    destruct (base_ok l N (blv lv) (Tlv lv) i n q g done) with (4 := S0) as (g1 & H1 & S1'); auto.
    + apply classes_lv.
    + exact (d_fits _ Sd _ _ E).
    + rewrite (st_marks _ _ _ _ St i). lia.
    + apply Forall_forall. intros t Ht. apply early_parts in Ht. exact (part_range l Sd i n t E Ht).
    + apply Forall_forall. intros t Ht. apply (free l qs Sd Sy lv i n t E (early_parts _ _ Ht)). rewrite Z0. intros [].
    + apply (late l Sd i n E).
    + exists g1, (lift lv i 1), (i :: done). split; [exact H1|]. split; [|apply lift_eq].
      assert (L1 : Lv (lift lv i 1) g1).
      { apply (leave l lv i n g1 _ _ 1 S1' E eq_refl). intros x. rewrite Z0. cbn [has In]. tauto. }
      constructor; auto.
      * intros x. cbn [In]. rewrite (st_marks _ _ _ _ St x). unfold lift. destruct (Nat.eqb x i) eqn:Q1.
        -- apply Nat.eqb_eq in Q1. subst. split; [lia|auto].
        -- apply Nat.eqb_neq in Q1. split; [intros [X|X]; [congruence|exact X]|auto].
      * intros x Hx. rewrite lift_ne by lia. now apply (st_past _ _ _ _ St).
      * intros x Hx. unfold lift. destruct (Nat.eqb x i); [lia|]. now apply (st_next _ _ _ _ St).
      * intros x m c Hx Em Tm Hc. unfold lift in *. destruct (Nat.eqb x i) eqn:Q1; [discriminate|].
        pose proof (st_segs _ _ _ _ St x m c Hx Em Tm Hc). destruct (Nat.eqb c i); lia.
  - exists g, lv, done. split; [|split; [exact St|lia]]. unfold base_associate.
    assert (D : mem i done = true) by (apply mem_in, (st_marks _ _ _ _ St); lia). now rewrite D.
Qed.

Lemma stage_step i lv done g : stage i lv done g -> (i < N)%nat ->
  exists g1 lv1 done1, associate closed joins N qs g done i = Some (true, g1, done1) /\ stage (S i) lv1 done1 g1.
Proof.
  intros St Hi. destruct (nth_error l i) as [n|] eqn:E; [|apply nth_error_None in E; lia].
  destruct (say l qs Sy i n E) as (q & Eq & Q). unfold associate. rewrite Eq.
  destruct (stage_base i lv done n q g St E Eq Q) as (g1 & lv1 & d1 & H1 & St1 & V). rewrite H1. clear St lv done H1 g.
  pose proof (d_fits _ Sd _ _ E) as Ft. pose proof (st_lv _ _ _ _ St1) as L1.
  pose proof (start l lv1 i n E V g1 L1) as S0.
  destruct (S1_look N _ _ i _ _ _ S0) as (rs & Lk). rewrite Lk. cbn [n_null n_type w_refs basis].
  destruct (n_null n) eqn:Nn.
  - pose proof (null_type l qs Sy i n E Nn) as T0. exists g1, (lift lv1 i 2), d1. split; [reflexivity|].
    apply (stage_next i lv1 d1 g1 n St1 E V); [lia|]. apply (class_bare l lv1 i n E V g1 L1).
    + pose proof (f_len _ _ Ft) as Ln. rewrite Nn in Ln. now apply length_zero_iff_nil.
    + apply (f_items _ _ Ft). cbn [In]. lia.
    + apply (f_edges _ _ Ft). lia.
    + apply (f_loops _ _ Ft). lia.
  - rewrite (drops_fit l N _ _ i n (basis n) _ _ Ft Nn eq_refl S0).
    destruct (n_type n =? 102) eqn:T102.
    + apply Z.eqb_eq in T102. rewrite (s_items _ _ _ Q).
      pose proof (noslots l Sd i n E 102 T102 eq_refl) as Z0.
      assert (S0' : S1 N (blv lv1) (Tlv lv1) i (w_items [] (basis n)) [] g1) by exact S0.
      destruct (late l Sd i n E) as (_ & _ & Di & _).
      destruct (segments_loop i n E T102 Nn (n_items n) [] lv1 [] g1 d1 (incl_refl _) Di (fun _ _ H => H) V (st_marks _ _ _ _ St1) S0')
        as (g3 & lv3 & d3 & H3 & S3 & G3 & V3 & K3 & M3).
      rewrite H3. destruct (S1_look N _ _ i _ _ _ S3) as (r3 & Lk3). rewrite Lk3. cbn [n_items w_refs w_items app].
      assert (L3 : Lv (lift lv3 i 2) g3).
      { apply (finish l lv3 i n E V3 g3 _ _ S3).
        - unfold goal, uses, basis. rewrite Z0, (f_edges _ _ Ft), (f_loops _ _ Ft) by lia. reflexivity.
        - intros x. rewrite Z0, (f_edges _ _ Ft), (f_loops _ _ Ft) by lia. cbn. tauto. }
      assert (J : joined_up joins g3 (n_items n) = true).
      { apply joined_all. intros l1 a b l2 Sp. rewrite Forall_forall in K3.
        assert (Sg : forall c, In c (n_items n) -> settled l g3 c).
        { intros c Hc. destruct (f_102 _ _ Ft T102 c Hc) as (mc & Ec & Tc). apply (settled_at (lift lv3 i 2) g3 c mc L3 Ec).
          right. split; [|exact Tc]. pose proof (K3 c Hc). unfold lift. destruct (Nat.eqb c i); lia. }
        apply (d_joins _ _ _ Dr i n l1 a b l2 E T102 Sp); apply Sg; rewrite Sp, in_app_iff; cbn [In]; auto. }
      rewrite J. exists g3, (lift lv3 i 2), d3. split; [reflexivity|]. rewrite Forall_forall in K3. constructor; auto.
      * intros x. rewrite (M3 x). unfold lift. destruct (Nat.eqb x i) eqn:Q1; [|tauto]. apply Nat.eqb_eq in Q1. subst. rewrite V3. lia.
      * intros x Hx. unfold lift. destruct (Nat.eqb x i) eqn:Q1; [reflexivity|]. apply Nat.eqb_neq in Q1.
        assert (V2 : lv1 x = 2%nat) by (apply (st_past _ _ _ _ St1); lia). destruct (G3 x); lia.
      * intros x Hx. rewrite lift_ne by lia. assert (V2 : (lv1 x <= 1)%nat) by (apply (st_next _ _ _ _ St1); lia). destruct (G3 x); lia.
      * intros x m c Hx Em Tm Hc. destruct (Nat.eq_dec x i) as [->|Xi].
        -- rewrite E in Em. injection Em as <-. pose proof (K3 c Hc). unfold lift. destruct (Nat.eqb c i); lia.
        -- rewrite lift_ne in Hx by exact Xi. assert (Hx1 : lv1 x = 2%nat) by (destruct (G3 x); lia).
           pose proof (st_segs _ _ _ _ St1 x m c Hx1 Em Tm Hc). unfold lift. destruct (Nat.eqb c i); [lia|]. destruct (G3 c); lia.
    + apply Z.eqb_neq in T102.
      assert (Fin : forall r, (exists g2, r = Some (true, g2) /\ Lv (lift lv1 i 2) g2) ->
        exists g2 lv2 d2, option_map (fun p : bool * graph => (fst p, snd p, d1)) r = Some (true, g2, d2) /\ stage (S i) lv2 d2 g2).
      { intros r (g2 & -> & L2). exists g2, (lift lv1 i 2), d1. split; [reflexivity|]. exact (stage_next i lv1 d1 g1 n St1 E V T102 g2 L2). }
      apply Fin. clear Fin.
      destruct (n_type n =? 120) eqn:T120; [apply (class_120 l qs Sd Sy lv1 i n q E Q V); auto; lia|].
      destruct (n_type n =? 122) eqn:T122; [apply (class_122 l qs Sd Sy lv1 i n q E Q V); auto; lia|].
      destruct (n_type n =? 142) eqn:T142; [apply (class_142 l qs Sd Sy lv1 i n q E Q V); auto; lia|].
      destruct (n_type n =? 144) eqn:T144; [apply (class_144 l qs Sd Sy lv1 i n q E Q V); auto; lia|].
      destruct (n_type n =? 164) eqn:T164; [apply (class_164 i lv1 d1 n q g1 St1 V E Q Nn); lia|].
      destruct (n_type n =? 180) eqn:T180; [apply (class_180 l qs Sd Sy lv1 i n q E Q V); auto; lia|].
      destruct (n_type n =? 186) eqn:T186; [apply (class_186 l qs Sd Sy lv1 i n q E Q V); auto; lia|].
      destruct (n_type n =? 308) eqn:T308; [apply (class_308 l qs Sd Sy lv1 i n q E Q V); auto; lia|].
      destruct (n_type n =? 408) eqn:T408; [apply (class_408 l qs Sd Sy lv1 i n q E Q V); auto; lia|].
      destruct (n_type n =? 504) eqn:T504; [apply (class_504 l qs Sd Sy lv1 i n q E Q V); auto; lia|].
      destruct (n_type n =? 508) eqn:T508; [apply (class_508 l qs Sd Sy lv1 i n q E Q V); auto; lia|].
      destruct (n_type n =? 510) eqn:T510; [apply (class_510 l qs Sd Sy lv1 i n q E Q V); auto; lia|].
      destruct (n_type n =? 514) eqn:T514.
      { apply Z.eqb_eq in T514. destruct (class_514 l qs Sd Sy lv1 i n q E Q V g1 Nn T514 L1) as [Nq Ok]. rewrite Nq. exact Ok. }
      exists g1. split; [reflexivity|]. apply (class_bare l lv1 i n E V g1 L1).
      * pose proof (f_len _ _ Ft) as Ln. rewrite Nn in Ln. apply length_zero_iff_nil. rewrite Ln. unfold blank_slots.
        destruct (zmem (n_type n) [122; 164; 186; 408; 510]) eqn:Z1; [apply zmem_in in Z1; cbn [In] in Z1; lia|].
        destruct (zmem (n_type n) [120; 144]) eqn:Z2; [apply zmem_in in Z2; cbn [In] in Z2; lia|]. rewrite T142. reflexivity.
      * apply (f_items _ _ Ft). cbn [In]. lia.
      * apply (f_edges _ _ Ft). lia.
      * apply (f_loops _ _ Ft). lia.
Qed.

Lemma stages k : forall i lv done g, stage i lv done g -> (i + k = N)%nat ->
  exists g1 lv1 done1, associate_all closed joins N qs g done (seq i k) = Some (true, g1) /\ stage N lv1 done1 g1.
Proof.
  induction k as [|k IH]; intros i lv done g St Hk; cbn [seq associate_all].
  - exists g, lv, done. split; [reflexivity|]. now replace N with i by lia.
  - destruct (stage_step i lv done g St) as (g1 & lv1 & d1 & H1 & St1); [lia|]. rewrite H1. apply (IH (S i) lv1 d1 g1 St1). lia.
Qed.

Lemma blank_loaded i n q : nth_error l i = Some n -> says l n q -> loaded q = blank n.
Proof.
  intros E Q. unfold loaded, blank, new_node. cbn [n_type n_null n_des n_slots].
  destruct (s_rest _ _ _ Q) as (A1 & A2 & A3). destruct (s_des _ _ _ Q) as (_ & Ld & _). pose proof (s_class _ _ _ Q) as C.
  rewrite <- A1, <- A2, <- A3.
  assert (D : nothing (n_des n) = [None; None; None; None; None; None; None]).
  { unfold nothing. destruct (n_des n) as [|a1 [|a2 [|a3 [|a4 [|a5 [|a6 [|a7 [|]]]]]]]]; try discriminate. reflexivity. }
  rewrite D. pose proof (f_len _ _ (d_fits _ Sd _ _ E)) as Ln.
  assert (R : forall k : list (option nat), length (n_slots n) = length k -> Forall (fun o => o = None) k -> k = nothing (n_slots n)).
  { unfold nothing. clear. generalize (n_slots n) as s. intros s k. revert s. induction k as [|o k IH]; intros [|x s] H F; try discriminate; [reflexivity|].
    apply Forall_cons_iff in F. destruct F as [F1 F2]. cbn [map]. rewrite (IH s) at 1; [now subst|now injection H|exact F2]. }
  destruct (zmem (q_type q) known) eqn:K; destruct C as [C1 C2]; rewrite C1 in *; cbn [negb].
  - rewrite <- C2. rewrite <- (R (blank_slots (n_type n))); [reflexivity|exact Ln|].
    unfold blank_slots. destruct (zmem (n_type n) [122; 164; 186; 408; 510]), (zmem (n_type n) [120; 144]), (n_type n =? 142); repeat (apply Forall_cons; [reflexivity|]); apply Forall_nil.
  - rewrite <- (R []); [now rewrite C2|exact Ln|constructor].
Qed.

Lemma same_length : length qs = N.
Proof. symmetry. exact (f2_length _ _ _ Sy). Qed.

Lemma start_all : stage 0 (fun _ => 0%nat) [] (loaded_graph qs).
Proof.
  assert (Len : length qs = N) by (apply same_length).
  constructor.
  - split; [unfold loaded_graph; cbn [g_ents]; now rewrite Len|]. split; [unfold loaded_graph; cbn [g_next]; exact Len|].
    intros x. unfold AssocPlan.blv, look, loaded_graph. cbn [g_heap at_].
    destruct (nth_error l x) as [n|] eqn:E.
    + destruct (say l qs Sy x n E) as (q & Eq & Q). rewrite Eq. cbn [option_map]. rewrite (blank_loaded x n q E Q).
      cbn [n_refs blank]. split; [reflexivity|]. split; [constructor|]. intros r. unfold AssocPlan.Tlv. cbn [has In].
      split; [tauto|]. intros (m & _ & H). exact H.
    + assert (Eq : nth_error qs x = None) by (apply nth_error_None; rewrite Len; now apply nth_error_None). now rewrite Eq.
  - intros x. cbn [In]. lia.
  - intros x Hx. lia.
  - intros x _. lia.
  - intros x m c H. discriminate.
Qed.

Lemma stage_rebuilt lv done g : stage N lv done g -> rebuilt l g.
Proof.
  intros St. destruct (st_lv _ _ _ _ St) as (E1 & E2 & H). split; [exact E1|]. split; [exact E2|]. intros i. specialize (H i). unfold AssocPlan.blv in H.
  destruct (nth_error l i) as [n|] eqn:E.
  - cbn [option_map] in H. destruct (look g i) as [m|]; [|contradiction]. rewrite (st_past _ _ _ _ St i (in_range l i n E)) in H.
    cbn [at_] in H. destruct H as (A & B & C). split; [rewrite A; unfold alike; cbn; auto 12|]. split; [rewrite A; reflexivity|]. split; [rewrite A; reflexivity|].
    split; [exact B|]. split.
    { intros r. rewrite C. unfold AssocPlan.Tlv. split; intros (k & K1 & K2); exists k; (split; [exact K1|]);
        rewrite (st_past _ _ _ _ St r (in_range l r k K1)) in *; exact K2. }
    rewrite A. cbn [n_verts w_refs goal]. destruct (tally_count (uses n)) as [T1 T2]. split; [exact T1|exact T2].
  - cbn [option_map] in H. destruct (look g i); [contradiction|exact I].
Qed.

Lemma all_associate : exists g, associate_all closed joins (length qs) qs (loaded_graph qs) [] (g_ents (loaded_graph qs)) = Some (true, g) /\ rebuilt l g.
Proof.
  assert (Len : length qs = N) by (apply same_length).
  unfold loaded_graph at 2. cbn [g_ents]. rewrite Len.
  destruct (stages N 0 _ _ _ start_all (Nat.add_0_l N)) as (g & lv & done & H & St). exists g. split; [exact H|]. exact (stage_rebuilt lv done g St).
Qed.
End All.
