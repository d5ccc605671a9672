(* Establishing references one by one: the state between two steps. *)
From Coq Require Import List Bool ZArith Lia ZifyBool ZifyNat.
From Verif Require Import GraphModel GraphSpec GraphFacts AssocModel AssocSpec.
Import ListNotations.
Open Scope Z_scope.

(* everything a node points to *)
Definition tparts (n : node) : list nat := tgt n ++ loop_parts (n_loops n).

Definition upd (b : nat -> option node) (e : nat) (n : node) : nat -> option node :=
  fun i => if Nat.eqb i e then Some n else b i.
Definition plus (T : nat -> nat -> Prop) (e : nat) (L : list nat) : nat -> nat -> Prop :=
  fun r x => T r x \/ (r = e /\ In x L).

(* The graph has the nodes b, and r is a referrer of x when T r x. *)
Definition St (N : nat) (b : nat -> option node) (T : nat -> nat -> Prop) (g : graph) : Prop :=
  g_ents g = seq 0 N /\ g_next g = N /\
  forall x, match b x, look g x with
            | Some n, Some m => m = w_refs (n_refs m) n /\ NoDup (n_refs m) /\ forall r, In r (n_refs m) <-> T r x
            | None, None => True
            | _, _ => False
            end.

Lemma St_ext N b b' (T T' : nat -> nat -> Prop) g :
  (forall x, b x = b' x) -> (forall r x, T r x <-> T' r x) -> St N b T g -> St N b' T' g.
Proof.
  intros Hb HT (E & F & H). split; [exact E|]. split; [exact F|]. intros x. specialize (H x). rewrite <- (Hb x).
  destruct (b x), (look g x); auto. destruct H as (A & B & C). split; [exact A|]. split; [exact B|].
  intros r. rewrite C. apply HT.
Qed.

Lemma St_look N b T g x n : St N b T g -> b x = Some n ->
  exists rs, look g x = Some (w_refs rs n) /\ NoDup rs /\ forall r, In r rs <-> T r x.
Proof.
  intros (_ & _ & H) E. specialize (H x). rewrite E in H. destruct (look g x) as [m|]; [|contradiction].
  destruct H as (A & B & C). exists (n_refs m). split; [congruence|]. auto.
Qed.
Lemma St_some N b T g x m : St N b T g -> look g x = Some m -> exists n, b x = Some n /\ m = w_refs (n_refs m) n.
Proof.
  intros (_ & _ & H) E. specialize (H x). rewrite E in H. destruct (b x) as [n|]; [|contradiction].
  exists n. split; [reflexivity|]. apply H.
Qed.

Lemma upd_eq b e n : upd b e n e = Some n.
Proof. unfold upd. now rewrite Nat.eqb_refl. Qed.
Lemma upd_ne b e n x : x <> e -> upd b e n x = b x.
Proof. intros H. unfold upd. apply Nat.eqb_neq in H. now rewrite H. Qed.
Lemma upd_upd b e n m x : upd (upd b e n) e m x = upd b e m x.
Proof. unfold upd. destruct (Nat.eqb x e); reflexivity. Qed.
Lemma upd_same b e n x : b e = Some n -> upd b e n x = b x.
Proof. intros H. unfold upd. destruct (Nat.eqb x e) eqn:Q; [|reflexivity]. apply Nat.eqb_eq in Q. now subst. Qed.

(* the node changes, the referrers do not *)
Lemma put_ok N b T g e rs n n' : St N b T g -> b e = Some n -> look g e = Some (w_refs rs n) ->
  St N (upd b e n') T (put g e (w_refs rs n')).
Proof.
  intros (E & F & H) Eb El. split; [exact E|]. split; [exact F|]. intros x. rewrite look_put. unfold upd.
  specialize (H x). destruct (Nat.eqb x e) eqn:Q; [|exact H].
  apply Nat.eqb_eq in Q. subst x. rewrite Eb, El in H. destruct H as (_ & B & C). cbn [n_refs w_refs] in *.
  split; [reflexivity|]. split; assumption.
Qed.

Lemma forbids_no n c p pt : n_null n = false -> p <> c -> ~ In p (tparts n) -> (n_type n = 102 -> pt <> 102) ->
  forbids n c p pt = false.
Proof.
  intros H1 H2 H3 H4. unfold forbids. rewrite H1. unfold tparts, tgt in H3. rewrite !in_app_iff in H3.
  assert (A1 : mem p (ptrs (n_slots n) ++ n_items n) = false) by (apply mem_notin; rewrite in_app_iff; tauto).
  assert (A2 : Nat.eqb p c = false) by now apply Nat.eqb_neq.
  assert (A3 : mem p (edge_curves (n_edges n)) = false) by (apply mem_notin; tauto).
  assert (A4 : mem p (loop_parts (n_loops n)) = false) by (apply mem_notin; tauto).
  assert (A5 : mem p (ptrs (n_des n)) = false) by (apply mem_notin; tauto).
  rewrite A1, A2, A3, A4, A5, !andb_false_r, !orb_false_r. cbn [orb].
  destruct (n_type n =? 102) eqn:Q; [|reflexivity]. cbn [andb]. apply Z.eqb_eq in Q. specialize (H4 Q). lia.
Qed.

(* c accepts e as its referrer *)
Lemma ref_ok N b T g e c ne nc : St N b T g -> b e = Some ne -> b c = Some nc -> c <> e ->
  ~ T e c -> ~ In e (tparts nc) -> n_null nc = false -> (n_type nc = 102 -> n_type ne <> 102) ->
  exists g1, addReference g c e = Some (Added, g1) /\ St N b (plus T e [c]) g1.
Proof.
  intros S Ee Ec Hce HT Hp Hn H102.
  destruct (St_look _ _ _ _ _ _ S Ee) as (re & Le & _). destruct (St_look _ _ _ _ _ _ S Ec) as (rc & Lc & Dc & Rc).
  exists (put g c (w_refs (rc ++ [e]) nc)). split.
  - unfold addReference. rewrite Lc, Le. cbn [n_type w_refs n_refs n_extras].
    rewrite (forbids_no (w_refs rc nc)); [|exact Hn|congruence|exact Hp|exact H102].
    assert (M1 : mem e rc = false) by (apply mem_notin; now rewrite Rc).
    assert (M2 : mem e (n_extras nc) = false).
    { apply mem_notin. intros X. apply Hp. unfold tparts, tgt. rewrite !in_app_iff. auto. }
    rewrite M1, M2. reflexivity.
  - destruct S as (E & F & H). split; [exact E|]. split; [exact F|]. intros x. rewrite look_put. specialize (H x).
    unfold plus. destruct (Nat.eqb x c) eqn:Q.
    + apply Nat.eqb_eq in Q. subst x. rewrite Ec. cbn [n_refs w_refs]. split; [reflexivity|]. split.
      * apply nodup_snoc; [exact Dc|]. now rewrite Rc.
      * intros r. rewrite in_app_iff, Rc. cbn [In]. split; [intros [A|[A|[]]]; [auto|subst; auto]|].
        intros [A|[A [B|[]]]]; auto.
    + apply Nat.eqb_neq in Q. destruct (b x) as [nx|], (look g x) as [mx|]; try exact H.
      destruct H as (A & B & C). split; [exact A|]. split; [exact B|]. intros r. rewrite C.
      split; [auto|]. intros [X|[_ [X|[]]]]; [exact X|congruence].
Qed.

(* the same with a pointer that was set before *)
Lemma ref_after N b T g e c ne nc : St N b T g -> b e = Some ne -> b c = Some nc -> c <> e ->
  ~ T e c -> ~ In e (tparts nc) -> n_null nc = false -> (n_type nc = 102 -> n_type ne <> 102) ->
  exists g1, addReference g c e = Some (Added, g1) /\ St N b (plus T e [c]) g1 /\
    exists rs, look g1 e = Some (w_refs rs ne).
Proof.
  intros. destruct (ref_ok N b T g e c ne nc) as (g1 & A & B); auto. exists g1. split; [exact A|]. split; [exact B|].
  destruct (St_look _ _ _ _ _ _ B H0) as (rs & L & _). now exists rs.
Qed.

Lemma plus_plus T e L M r x : plus (plus T e L) e M r x <-> plus T e (L ++ M) r x.
Proof. unfold plus. rewrite in_app_iff. tauto. Qed.

Lemma index_number n i : (i < n)%nat -> index_of n (number i) = Some i.
Proof.
  intros H. unfold index_of, number. rewrite Z.shiftr_div_pow2 by lia. change (2 ^ 1) with 2.
  replace ((2 * Z.of_nat i + 1) / 2) with (Z.of_nat i) by (rewrite Z.mul_comm, Z.div_add_l by lia; cbn; lia).
  destruct ((0 <=? Z.of_nat i) && (Z.of_nat i <? Z.of_nat n)) eqn:Q; [|lia]. now rewrite Nat2Z.id.
Qed.
Lemma number_pos i : 0 < number i.
Proof. unfold number. lia. Qed.
Lemma odd_number_ok n i : (i < n)%nat -> Z.of_nat n <= 4999999 -> odd_number (number i) = true.
Proof.
  intros H1 H2. unfold odd_number, number. rewrite Z.odd_add, Z.odd_mul. change (Z.odd 2) with false. change (Z.odd 1) with true. cbn [andb xorb]. lia.
Qed.
Lemma number_nz i : (number i =? 0) = false.
Proof. unfold number. lia. Qed.

(* w_* on nodes with referrers *)
Lemma wr_des rs n v : w_des v (w_refs rs n) = w_refs rs (w_des v n). Proof. reflexivity. Qed.
Lemma wr_extras rs n v : w_extras v (w_refs rs n) = w_refs rs (w_extras v n). Proof. reflexivity. Qed.
Lemma wr_slots rs n v : w_slots v (w_refs rs n) = w_refs rs (w_slots v n). Proof. reflexivity. Qed.
Lemma wr_items rs n v : w_items v (w_refs rs n) = w_refs rs (w_items v n). Proof. reflexivity. Qed.
Lemma wr_edges rs n v : w_edges v (w_refs rs n) = w_refs rs (w_edges v n). Proof. reflexivity. Qed.
Lemma wr_verts rs n v : w_verts v (w_refs rs n) = w_refs rs (w_verts v n). Proof. reflexivity. Qed.
Lemma wr_loops rs n v : w_loops v (w_refs rs n) = w_refs rs (w_loops v n). Proof. reflexivity. Qed.

(* the vertex lists (edge lists) with the number of their uses *)
Definition tally1 (vs : list (nat * nat)) (v : nat) : list (nat * nat) :=
  if mem v (map fst vs) then count_up v vs else vs ++ [(v, 1%nat)].
Lemma count_up_fst v vs : map fst (count_up v vs) = map fst vs.
Proof. induction vs as [|[w c] vs IH]; cbn; [reflexivity|]. destruct (Nat.eqb v w); cbn; [reflexivity|]. now rewrite IH. Qed.
Lemma tally1_in vs v x : In x (map fst (tally1 vs v)) <-> In x (map fst vs) \/ x = v.
Proof.
  unfold tally1. destruct (mem v (map fst vs)) eqn:Q.
  - rewrite count_up_fst. apply mem_in in Q. split; [tauto|]. intros [H|H]; [exact H|now subst].
  - rewrite map_app, in_app_iff. cbn. intuition.
Qed.
Lemma tally_in l : forall vs x, In x (map fst (fold_left tally1 l vs)) <-> In x (map fst vs) \/ In x l.
Proof.
  induction l as [|v l IH]; intros vs x; cbn [fold_left In]; [tauto|]. rewrite IH, tally1_in. intuition.
Qed.

(* ---- single steps on entity e, all else being fixed ---- *)

Section Entity.
Variables (N : nat) (b0 : nat -> option node) (T0 : nat -> nat -> Prop) (e : nat).

Definition S1 (cur : node) (L : list nat) (g : graph) : Prop := St N (upd b0 e cur) (plus T0 e L) g.

(* c can be referred to by e, of type te *)
Definition free_for (te : Z) (c : nat) : Prop :=
  c <> e /\ ~ T0 e c /\ exists nc, b0 c = Some nc /\ n_null nc = false /\ n_own nc = true /\ ~ In e (tparts nc) /\ (n_type nc = 102 -> te <> 102).

Lemma S1_ref cur L g c : S1 cur L g -> free_for (n_type cur) c -> ~ In c L ->
  exists g1, addReference g c e = Some (Added, g1) /\ S1 cur (L ++ [c]) g1.
Proof.
  intros S (A & B & nc & C & D & _ & E & F) HL.
  destruct (ref_ok N _ _ g e c cur nc S) as (g1 & H1 & H2); auto.
  - apply upd_eq.
  - now rewrite upd_ne.
  - unfold plus. intros [X|[_ X]]; auto.
  - exists g1. split; [exact H1|]. apply (St_ext _ (upd b0 e cur) _ (plus (plus T0 e L) e [c])); auto.
    intros r x. apply plus_plus.
Qed.

Lemma S1_look cur L g : S1 cur L g -> exists rs, look g e = Some (w_refs rs cur).
Proof. intros S. destruct (St_look _ _ _ _ _ _ S (upd_eq b0 e cur)) as (rs & H & _). now exists rs. Qed.

Lemma S1_put cur cur' L g rs : S1 cur L g -> look g e = Some (w_refs rs cur) -> S1 cur' L (put g e (w_refs rs cur')).
Proof.
  intros S H. pose proof (put_ok _ _ _ _ _ _ _ cur' S (upd_eq b0 e cur) H) as X.
  apply (St_ext _ (upd (upd b0 e cur) e cur') _ (plus T0 e L)); auto; [|tauto]. intros x. apply upd_upd.
Qed.

Lemma S1_other cur L g te c : S1 cur L g -> free_for te c ->
  exists nc rs, b0 c = Some nc /\ look g c = Some (w_refs rs nc).
Proof.
  intros S (A & _ & nc & C & _). exists nc.
  assert (Ec : upd b0 e cur c = Some nc) by now rewrite upd_ne.
  destruct (St_look _ _ _ _ _ _ S Ec) as (rs & H & _). now exists rs.
Qed.

Lemma S1_set_slot cur L g k x : S1 cur L g ->
  exists g1, set_slot g e k x = Some g1 /\ S1 (w_slots (set_nth k x (n_slots cur)) cur) L g1.
Proof.
  intros S. destruct (S1_look _ _ _ S) as (rs & H). unfold set_slot. rewrite H. eexists. split; [reflexivity|].
  rewrite wr_slots. now apply (S1_put cur).
Qed.
Lemma S1_set_de cur L g k x : S1 cur L g ->
  exists g1, set_de g e k x = Some g1 /\ S1 (w_des (set_nth k x (n_des cur)) cur) L g1.
Proof.
  intros S. destruct (S1_look _ _ _ S) as (rs & H). unfold set_de. rewrite H. eexists. split; [reflexivity|].
  rewrite wr_des. now apply (S1_put cur).
Qed.
Lemma S1_push_item cur L g x : S1 cur L g ->
  exists g1, push_item g e x = Some g1 /\ S1 (w_items (n_items cur ++ [x]) cur) L g1.
Proof.
  intros S. destruct (S1_look _ _ _ S) as (rs & H). unfold push_item. rewrite H. eexists. split; [reflexivity|].
  rewrite wr_items. now apply (S1_put cur).
Qed.
Lemma S1_push_extra cur L g x : S1 cur L g ->
  exists g1, push_extra g e x = Some (true, g1) /\ S1 (w_extras (n_extras cur ++ [x]) cur) L g1.
Proof.
  intros S. destruct (S1_look _ _ _ S) as (rs & H). unfold push_extra. rewrite H. eexists. split; [reflexivity|].
  rewrite wr_extras. now apply (S1_put cur).
Qed.

Lemma S1_link_slot cur L g k c r a : S1 cur L g -> free_for (n_type cur) c -> ~ In c L ->
  exists g1, link_slot g e k c r a = Some (true, g1) /\
    S1 (w_slots (set_nth k (Some c) (n_slots cur)) cur) (L ++ [c]) g1.
Proof.
  intros S F NL. unfold link_slot. destruct (S1_set_slot _ _ _ k (Some c) S) as (g0 & H0 & S0). rewrite H0.
  destruct (S1_ref _ _ _ c S0 F NL) as (g1 & H1 & S1'). rewrite H1. now exists g1.
Qed.
Lemma S1_link_item cur L g c a : S1 cur L g -> free_for (n_type cur) c -> ~ In c L ->
  exists g1, link_item g e c a = Some (true, g1) /\ S1 (w_items (n_items cur ++ [c]) cur) (L ++ [c]) g1.
Proof.
  intros S F NL. unfold link_item. destruct (S1_ref _ _ _ c S F NL) as (g0 & H0 & S0). rewrite H0.
  destruct (S1_push_item _ _ _ c S0) as (g1 & H1 & S1'). rewrite H1. now exists g1.
Qed.

(* ---- loops ---- *)

(* lists of members *)
Lemma items_loop f (ok : nat -> Prop) te : 
  (forall cur L g c, n_type cur = te -> S1 cur L g -> ok c -> free_for te c -> ~ In c L ->
     exists g1, f g (number c) = Some (true, g1) /\ S1 (w_items (n_items cur ++ [c]) cur) (L ++ [c]) g1) ->
  forall l cur L g, n_type cur = te -> S1 cur L g -> Forall ok l -> Forall (free_for te) l -> NoDup l ->
    (forall c, In c l -> ~ In c L) ->
    exists g1, all_ok f g (map number l) = Some (true, g1) /\ S1 (w_items (n_items cur ++ l) cur) (L ++ l) g1.
Proof.
  intros Step. induction l as [|c l IH]; intros cur L g Ty S O F D NL; cbn [map all_ok].
  - exists g. split; [reflexivity|]. rewrite !app_nil_r. destruct cur; exact S.
  - apply Forall_cons_iff in O. destruct O as [O1 O2]. apply Forall_cons_iff in F. destruct F as [F1 F2].
    apply NoDup_cons_iff in D. destruct D as [D1 D2].
    destruct (Step cur L g c Ty S O1 F1 (NL c (or_introl eq_refl))) as (g1 & H1 & S1'). rewrite H1. cbn [next_ok].
    destruct (IH (w_items (n_items cur ++ [c]) cur) (L ++ [c]) g1) as (g2 & H2 & S2); auto.
    + intros x Hx. rewrite in_app_iff. cbn [In]. intros [X|[X|[]]]; [exact (NL x (or_intror Hx) X)|congruence].
    + exists g2. split; [exact H2|]. cbn [n_items w_items] in S2. rewrite <- !app_assoc in S2. exact S2.
Qed.

(* optional entities *)
Lemma extras_loop n : forall l cur L g, S1 cur L g ->
  Forall (fun c => (c < n)%nat /\ exists nc, b0 c = Some nc /\ n_type nc = 406) l -> Forall (free_for (n_type cur)) l -> NoDup l ->
  (forall c, In c l -> ~ In c L) ->
  exists g1, link_extras n g e (map number l) true = Some (true, g1) /\ S1 (w_extras (n_extras cur ++ l) cur) (L ++ l) g1.
Proof.
  induction l as [|c l IH]; intros cur L g S O F D NL; cbn [map link_extras].
  - exists g. split; [reflexivity|]. rewrite !app_nil_r. destruct cur; exact S.
  - apply Forall_cons_iff in O. destruct O as [[O1 (nc & Bc & Tc)] O2]. apply Forall_cons_iff in F. destruct F as [F1 F2].
    apply NoDup_cons_iff in D. destruct D as [D1 D2].
    unfold link_extra. rewrite index_number by exact O1.
    destruct (S1_other _ _ _ _ _ S F1) as (nc' & rs & Bc' & Lc). rewrite Bc in Bc'. injection Bc' as <-.
    rewrite Lc. cbn [n_type w_refs]. rewrite Tc. change (zmem 406 [406; 212; 312]) with true. cbv iota.
    destruct (S1_ref _ _ _ c S F1 (NL c (or_introl eq_refl))) as (g0 & H0 & S0). rewrite H0.
    destruct (S1_push_extra _ _ _ c S0) as (g1 & H1 & S1'). rewrite H1. cbn [andb].
    destruct (IH (w_extras (n_extras cur ++ [c]) cur) (L ++ [c]) g1) as (g2 & H2 & S2); auto.
    + intros x Hx. rewrite in_app_iff. cbn [In]. intros [X|[X|[]]]; [exact (NL x (or_intror Hx) X)|congruence].
    + exists g2. split; [exact H2|]. cbn [n_extras w_extras] in S2. rewrite <- !app_assoc in S2. exact S2.
Qed.

(* single pointers: done so far, then to do *)
Definition num0 (o : option nat) : Z := match o with Some x => number x | None => 0 end.

Lemma set_nth_mid {A} (p : list A) v a r : set_nth (length p) v (p ++ a :: r) = p ++ v :: r.
Proof. induction p; cbn; [reflexivity|]. now rewrite IHp. Qed.

Lemma slots_loop f (ok : nat -> nat -> Prop) te :
  (forall cur L g k c, n_type cur = te -> S1 cur L g -> ok k c -> free_for te c -> ~ In c L ->
     exists g1, f g k (number c) = Some (true, g1) /\ S1 (w_slots (set_nth k (Some c) (n_slots cur)) cur) (L ++ [c]) g1) ->
  forall l p cur L g, n_type cur = te -> S1 cur L g -> n_slots cur = p ++ map (fun _ => None) l ->
    (forall j, nth_error l j = Some None -> forall g, f g (length p + j)%nat 0 = Some (true, g)) ->
    (forall j c, nth_error l j = Some (Some c) -> ok (length p + j)%nat c) ->
    Forall (free_for te) (ptrs l) -> NoDup (ptrs l) -> (forall c, In c (ptrs l) -> ~ In c L) ->
    exists g1, parts_ok f g (length p) (map num0 l) = Some (true, g1) /\ S1 (w_slots (p ++ l) cur) (L ++ ptrs l) g1.
Proof.
  intros Step. induction l as [|o l IH]; intros p cur L g Ty S Sl No Ok F D NL; cbn [map parts_ok].
  - exists g. split; [reflexivity|]. cbn [map] in Sl. rewrite !app_nil_r in *. rewrite <- Sl. destruct cur; exact S.
  - assert (Hlen : length (p ++ [o]) = Datatypes.S (length p)) by (rewrite app_length; cbn; lia).
    destruct o as [c|]; cbn [num0].
    + cbn [ptrs] in F, D, NL. apply Forall_cons_iff in F. destruct F as [F1 F2]. apply NoDup_cons_iff in D. destruct D as [D1 D2].
      assert (O1 : ok (length p) c) by (rewrite <- (Nat.add_0_r (length p)); now apply Ok).
      destruct (Step cur L g (length p) c Ty S O1 F1 (NL c (or_introl eq_refl))) as (g1 & H1 & S1'). rewrite H1. cbn [next_ok].
      rewrite <- Hlen.
      destruct (IH (p ++ [Some c]) (w_slots (set_nth (length p) (Some c) (n_slots cur)) cur) (L ++ [c]) g1) as (g2 & H2 & S2); auto.
      * cbn [n_slots w_slots]. rewrite Sl. cbn [map]. rewrite set_nth_mid, <- app_assoc. reflexivity.
      * intros j Hj g'. rewrite Hlen, Nat.add_succ_comm. now apply No.
      * intros j c' Hj. rewrite Hlen, Nat.add_succ_comm. now apply Ok.
      * intros x Hx. rewrite in_app_iff. cbn [In]. intros [X|[X|[]]]; [exact (NL x (or_intror Hx) X)|congruence].
      * exists g2. split; [rewrite Hlen; rewrite Hlen in H2; exact H2|]. rewrite <- !app_assoc in S2. exact S2.
    + rewrite <- (Nat.add_0_r (length p)). rewrite (No 0%nat eq_refl g). cbn [next_ok]. rewrite Nat.add_0_r, <- Hlen.
      destruct (IH (p ++ [None]) cur L g) as (g2 & H2 & S2); auto.
      * rewrite Sl, <- app_assoc. reflexivity.
      * intros j Hj g'. rewrite Hlen, Nat.add_succ_comm. now apply No.
      * intros j c' Hj. rewrite Hlen, Nat.add_succ_comm. now apply Ok.
      * exists g2. split; [exact H2|]. rewrite <- app_assoc in S2. exact S2.
Qed.

(* ---- edges and loops ---- *)

Lemma adopt_same g x n m : look g e = Some n -> look g x = Some m -> n_own m = true -> adopt g e x = Some g.
Proof. intros A B C. unfold adopt. rewrite A, B, C. now rewrite andb_false_r. Qed.

Lemma S1_adopt cur L g te x : S1 cur L g -> free_for te x -> adopt g e x = Some g.
Proof.
  intros S F. destruct (S1_look _ _ _ S) as (rs & H). destruct F as (A & B & nc & C & D & E & F).
  assert (Ec : upd b0 e cur x = Some nc) by now rewrite upd_ne.
  destruct (St_look _ _ _ _ _ _ S Ec) as (rx & Hx & _). now apply (adopt_same g x (w_refs rs cur) (w_refs rx nc)).
Qed.

(* L holds the vertex lists in use, and v is new or one of them *)
Lemma S1_vertex cur L g v : S1 cur L g -> (forall x, In x (map fst (n_verts cur)) -> In x L) ->
  free_for (n_type cur) v -> (In v L -> In v (map fst (n_verts cur))) ->
  exists g1 L1, addVertexList g e v = Some (true, g1) /\ S1 (w_verts (tally1 (n_verts cur) v) cur) L1 g1 /\
    forall x, In x L1 <-> In x L \/ x = v.
Proof.
  intros S Sub F Old. unfold addVertexList, tally1. destruct (S1_look _ _ _ S) as (rs & H). rewrite H. cbn [n_verts w_refs].
  destruct (mem v (map fst (n_verts cur))) eqn:Q.
  - eexists. exists L. split; [reflexivity|]. split; [rewrite wr_verts; now apply (S1_put cur)|].
    apply mem_in in Q. intros x. split; [tauto|]. intros [X|X]; [exact X|]. subst. auto.
  - apply mem_notin in Q. assert (NL : ~ In v L) by tauto.
    destruct (S1_ref _ _ _ v S F NL) as (g1 & H1 & S1'). rewrite H1.
    destruct (S1_look _ _ _ S1') as (rs1 & L1). rewrite L1. cbn [n_verts w_refs]. rewrite wr_verts.
    assert (S2 : S1 (w_verts (n_verts cur ++ [(v, 1%nat)]) cur) (L ++ [v])
      (put g1 e (w_refs rs1 (w_verts (n_verts cur ++ [(v, 1%nat)]) cur)))) by now apply (S1_put cur).
    rewrite (S1_adopt _ _ _ _ _ S2 F). cbn [option_map]. do 2 eexists. split; [reflexivity|]. split; [exact S2|].
    intros x. rewrite in_app_iff. cbn. intuition.
Qed.

Definition edge_ok (d : edge) (w : Z * (Z * Z) * (Z * Z)) : Prop :=
  exists s t nc ms mt, w = (number (ed_curve d), (number (ed_start d), s), (number (ed_stop d), t)) /\
    b0 (ed_curve d) = Some nc /\ In (n_type nc) curves /\
    b0 (ed_start d) = Some ms /\ n_null ms = false /\ n_type ms = 502 /\ 1 <= s <= Z.of_nat (n_points ms) /\
    b0 (ed_stop d) = Some mt /\ n_null mt = false /\ n_type mt = 502 /\ 1 <= t <= Z.of_nat (n_points mt) /\
    (ed_curve d < N)%nat /\ (ed_start d < N)%nat /\ (ed_stop d < N)%nat.

Definition ends (d : edge) : list nat := [ed_start d; ed_stop d].

Lemma S1_edge cur L g d w : S1 cur L g -> n_type cur = 504 -> n_null cur = false -> edge_ok d w ->
  (forall x, In x (map fst (n_verts cur)) -> In x L) ->
  Forall (free_for 504) (ed_curve d :: ends d) -> ~ In (ed_curve d) L -> ~ In (ed_curve d) (ends d) ->
  (forall v, In v (ends d) -> In v L -> In v (map fst (n_verts cur))) ->
  exists g1 L1, item504 N g e w = Some (true, g1) /\
    S1 (w_edges (n_edges cur ++ [d]) (w_verts (fold_left tally1 (ends d) (n_verts cur)) cur)) L1 g1 /\
    forall x, In x L1 <-> In x L \/ x = ed_curve d \/ In x (ends d).
Proof.
  intros S Ty Nu (s & t & nc & ms & mt & -> & Bc & Tc & Bs & Ns & Ts & Rs & Bt & Nt & Tt & Rt & I1 & I2 & I3) Sub F NL ND Old.
  apply Forall_cons_iff in F. destruct F as [Fc F]. unfold ends in F. apply Forall_cons_iff in F. destruct F as [Fs F].
  apply Forall_cons_iff in F. destruct F as [Ft _]. unfold item504. rewrite !index_number by assumption.
  destruct (S1_other _ _ _ _ _ S Fs) as (ms' & rs & Bs' & Ls). rewrite Bs in Bs'. injection Bs' as <-.
  destruct (S1_other _ _ _ _ _ S Ft) as (mt' & rt & Bt' & Lt). rewrite Bt in Bt'. injection Bt' as <-.
  destruct (S1_other _ _ _ _ _ S Fc) as (nc' & rc & Bc' & Lc). rewrite Bc in Bc'. injection Bc' as <-.
  destruct (S1_look _ _ _ S) as (re & Le).
  rewrite Ls, Lt. unfold is_a at 1 2. cbn [n_null n_type w_refs]. rewrite Ns, Ts, Nt, Tt. cbn [negb andb Z.eqb Pos.eqb].
  unfold AddEdge. rewrite Le, Ls, Lt. unfold is_a. cbn [n_null n_type w_refs]. rewrite Ns, Ts, Nt, Tt, Ty, Nu.
  cbn [negb andb orb Z.eqb Pos.eqb]. unfold addCurve. rewrite Lc. cbn [n_type w_refs].
  assert (Z1 : zmem (n_type nc) [100; 102; 104; 110; 112; 126; 130] = true).
  { apply zmem_in. unfold curves in Tc. cbn [In] in *. tauto. }
  rewrite Z1. cbn [orb]. rewrite <- Ty in Fc, Fs, Ft.
  destruct (S1_ref _ _ _ _ S Fc NL) as (g1 & H1 & S1'). rewrite H1.
  rewrite (S1_adopt _ _ _ _ _ S1' Fc). cbn [option_map].
  destruct (S1_vertex cur _ g1 (ed_start d) S1') as (g2 & L2 & H2 & S2 & In2).
  { intros x Hx. rewrite in_app_iff. auto. }
  { exact Fs. }
  { rewrite in_app_iff. intros [X|[X|[]]]; [apply Old; [left; reflexivity|exact X]|]. exfalso. apply ND. rewrite X. left. reflexivity. }
  rewrite H2.
  destruct (S1_vertex _ _ g2 (ed_stop d) S2) as (g3 & L3 & H3 & S3 & In3).
  { cbn [n_verts w_verts]. intros x Hx. rewrite tally1_in in Hx. rewrite In2, in_app_iff. destruct Hx as [Hx|Hx]; auto. }
  { exact Ft. }
  { cbn [n_verts w_verts]. rewrite In2, in_app_iff, tally1_in. intros [[X|[X|[]]]|X]; [|exfalso|auto].
    - left. apply Old; [right; left; reflexivity|exact X].
    - apply ND. rewrite X. right. left. reflexivity. }
  rewrite H3. cbn [n_points w_refs].
  assert (R : (s <? 1) || (s >? Z.of_nat (n_points ms)) || (t <? 1) || (t >? Z.of_nat (n_points mt)) = false) by lia.
  rewrite R. destruct (S1_look _ _ _ S3) as (r3 & L3'). rewrite L3'. do 2 eexists. split; [reflexivity|].
  rewrite wr_edges. split.
  - cbn [n_verts w_verts n_edges w_edges w_refs] in *. destruct d as [a b c]. cbn [ed_curve ed_start ed_stop ends fold_left] in *.
    eapply S1_put in S3; [exact S3|exact L3'].
  - intros x. rewrite In3, In2, in_app_iff. unfold ends. cbn [In]. intuition.
Qed.

Lemma edges_loop : forall l ws cur L g, S1 cur L g -> n_type cur = 504 -> n_null cur = false -> Forall2 edge_ok l ws ->
  (forall x, In x (map fst (n_verts cur)) -> In x L) ->
  Forall (free_for 504) (map ed_curve l ++ flat_map ends l) -> NoDup (map ed_curve l) ->
  (forall c, In c (map ed_curve l) -> ~ In c L /\ ~ In c (flat_map ends l)) ->
  (forall v, In v (flat_map ends l) -> In v L -> In v (map fst (n_verts cur))) ->
  exists g1 L1, all_ok (fun g d => item504 N g e d) g ws = Some (true, g1) /\
    S1 (w_edges (n_edges cur ++ l) (w_verts (fold_left tally1 (flat_map ends l) (n_verts cur)) cur)) L1 g1 /\
    forall x, In x L1 <-> In x L \/ In x (map ed_curve l) \/ In x (flat_map ends l).
Proof.
  induction l as [|d l IH]; intros ws cur L g S Ty Nu F2 Sub F D NC Old; inversion F2; subst; cbn [all_ok].
  - exists g, L. split; [reflexivity|]. cbn [map flat_map fold_left In]. rewrite app_nil_r. split; [destruct cur; exact S|tauto].
  - cbn [map flat_map] in *. apply NoDup_cons_iff in D. destruct D as [D1 D2].
    apply Forall_app in F. destruct F as [Fc F]. apply Forall_app in F. destruct F as [Fe Fr].
    apply Forall_cons_iff in Fc. destruct Fc as [Fc Fcr].
    destruct (NC (ed_curve d) (or_introl eq_refl)) as [NC1 NC2]. rewrite in_app_iff in NC2.
    destruct (S1_edge cur L g d y S Ty Nu H1 Sub) as (g1 & L1 & E1 & S1' & In1); auto.
    { intros v Hv. apply Old. rewrite in_app_iff. auto. }
    rewrite E1. cbn [next_ok].
    destruct (IH l' _ L1 g1 S1') as (g2 & L2 & E2 & S2 & In2); auto.
    + cbn [n_verts w_edges w_verts]. intros x Hx. rewrite tally_in in Hx. rewrite In1. destruct Hx; auto.
    + apply Forall_app. auto.
    + intros c Hc. destruct (NC c (or_intror Hc)) as [A B]. rewrite in_app_iff in B. rewrite In1. split; [|tauto].
      intros [X|[X|X]]; [tauto|subst; tauto|tauto].
    + cbn [n_verts w_edges w_verts]. intros v Hv Hl. rewrite tally_in. rewrite In1 in Hl.
      destruct Hl as [X|[X|X]]; auto.
      * left. apply Old; auto. rewrite in_app_iff. auto.
      * subst. tauto.
    + exists g2, L2. split; [exact E2|]. split.
      * rewrite fold_left_app. cbn [n_edges n_verts w_edges w_verts] in S2. rewrite <- app_assoc in S2. exact S2.
      * intros x. rewrite In2, In1, in_app_iff. cbn [In]. intuition.
Qed.

Lemma S1_pcurves : forall l cur L g done, S1 cur L g -> Forall (free_for (n_type cur)) l -> NoDup l ->
  (forall c, In c l -> ~ In c L /\ ~ In c (flat_map snd (n_loops cur))) ->
  exists g1, add_pcurves g e done l = Some (true, g1) /\ S1 cur (L ++ l) g1.
Proof.
  induction l as [|c l IH]; intros cur L g done S F D NL; cbn [add_pcurves].
  - exists g. rewrite app_nil_r. auto.
  - apply Forall_cons_iff in F. destruct F as [F1 F2]. apply NoDup_cons_iff in D. destruct D as [D1 D2].
    destruct (S1_look _ _ _ S) as (rs & H). rewrite H. cbn [n_loops w_refs].
    destruct (NL c (or_introl eq_refl)) as [A B]. apply mem_notin in B. rewrite B.
    destruct (S1_ref _ _ _ _ S F1 A) as (g1 & H1 & S1'). rewrite H1. rewrite (S1_adopt _ _ _ _ _ S1' F1).
    destruct (IH cur (L ++ [c]) g1 (c :: done) S1' F2 D2) as (g2 & H2 & S2).
    + intros x Hx. destruct (NL x (or_intror Hx)) as [A' B']. split; [|exact B']. rewrite in_app_iff. cbn [In].
      intros [X|[X|[]]]; [tauto|congruence].
    + exists g2. split; [exact H2|]. rewrite <- app_assoc in S2. exact S2.
Qed.

Lemma indices_numbers l : Forall (fun i => (i < N)%nat) l -> indices N (map number l) = Some l.
Proof.
  induction 1 as [|i l Hi _ IH]; cbn [map indices]; [reflexivity|]. now rewrite index_number, IH.
Qed.

Definition say_loop (p : nat * list nat) : Z * list Z := (number (fst p), map number (snd p)).

Lemma S1_loop cur L g d cs : S1 cur L g -> n_type cur = 508 -> n_null cur = false ->
  (forall x, In x (map fst (n_verts cur)) -> In x L) -> Forall (fun i => (i < N)%nat) (d :: cs) ->
  Forall (free_for 508) (d :: cs) -> NoDup cs -> ~ In d cs -> (In d L -> In d (map fst (n_verts cur))) ->
  (forall c, In c cs -> ~ In c L /\ ~ In c (flat_map snd (n_loops cur))) ->
  exists g1 L1, item508 N g e (say_loop (d, cs)) = Some (true, g1) /\
    S1 (w_loops (n_loops cur ++ [(d, cs)]) (w_verts (tally1 (n_verts cur) d) cur)) L1 g1 /\
    forall x, In x L1 <-> In x L \/ x = d \/ In x cs.
Proof.
  intros S Ty Nu Sub R F D ND Old NL. unfold item508, say_loop. cbn [fst snd].
  apply Forall_cons_iff in R. destruct R as [R1 R2]. apply Forall_cons_iff in F. destruct F as [F1 F2].
  rewrite index_number, indices_numbers by assumption.
  unfold AddLoopEdge. destruct (S1_look _ _ _ S) as (rs & H). rewrite H. unfold is_a. cbn [n_null n_type w_refs].
  rewrite Nu, Ty. cbn [negb andb Z.eqb Pos.eqb]. rewrite <- Ty in F1, F2.
  destruct (S1_vertex _ _ _ d S Sub F1 Old) as (g1 & L1 & H1 & S1' & In1). rewrite H1.
  destruct (S1_pcurves cs _ _ _ [] S1' F2 D) as (g2 & H2 & S2).
  { intros c Hc. destruct (NL c Hc) as [A B]. split; [|exact B]. rewrite In1. intros [X|X]; [tauto|]. subst. tauto. }
  rewrite H2. destruct (S1_look _ _ _ S2) as (r2 & L2). rewrite L2. do 2 eexists. split; [reflexivity|]. rewrite wr_loops. split.
  - cbn [n_loops w_refs w_verts] in *. eapply S1_put in S2; [exact S2|exact L2].
  - intros x. rewrite in_app_iff, In1. tauto.
Qed.

Lemma loops_loop : forall l cur L g, S1 cur L g -> n_type cur = 508 -> n_null cur = false ->
  (forall x, In x (map fst (n_verts cur)) -> In x L) ->
  Forall (fun i => (i < N)%nat) (map fst l ++ flat_map snd l) ->
  Forall (free_for 508) (map fst l ++ flat_map snd l) -> NoDup (flat_map snd l) ->
  (forall d, In d (map fst l) -> ~ In d (flat_map snd l) /\ (In d L -> In d (map fst (n_verts cur)))) ->
  (forall c, In c (flat_map snd l) -> ~ In c L /\ ~ In c (flat_map snd (n_loops cur))) ->
  exists g1 L1, all_ok (fun g d => item508 N g e d) g (map say_loop l) = Some (true, g1) /\
    S1 (w_loops (n_loops cur ++ l) (w_verts (fold_left tally1 (map fst l) (n_verts cur)) cur)) L1 g1 /\
    forall x, In x L1 <-> In x L \/ In x (map fst l) \/ In x (flat_map snd l).
Proof.
  induction l as [|[d cs] l IH]; intros cur L g S Ty Nu Sub R F D Old NL; cbn [map all_ok].
  - exists g, L. split; [reflexivity|]. cbn [map flat_map fold_left In]. rewrite app_nil_r. split; [destruct cur; exact S|tauto].
  - cbn [map flat_map fst snd] in *. rewrite <- app_comm_cons in R, F.
    apply Forall_cons_iff in R. destruct R as [R1 R2]. apply Forall_app in R2. destruct R2 as [R2 R3].
    apply Forall_app in R3. destruct R3 as [R3 R4].
    apply Forall_cons_iff in F. destruct F as [F1 F2]. apply Forall_app in F2. destruct F2 as [F2 F3].
    apply Forall_app in F3. destruct F3 as [F3 F4].
    assert (D1 : NoDup cs) by (apply nodup_cnt; intros x; pose proof (cnt_nodup _ D x) as X; rewrite cnt_app in X; lia).
    assert (D2 : NoDup (flat_map snd l)) by (apply nodup_cnt; intros x; pose proof (cnt_nodup _ D x) as X; rewrite cnt_app in X; lia).
    assert (D3 : forall x, In x cs -> ~ In x (flat_map snd l)).
    { intros x A B. pose proof (cnt_nodup _ D x) as X. rewrite cnt_app in X. apply cnt_in in A, B. lia. }
    destruct (Old d (or_introl eq_refl)) as [O1 O2]. rewrite in_app_iff in O1.
    destruct (S1_loop cur L g d cs S Ty Nu Sub) as (g1 & L1 & E1 & S1' & In1); auto.
    { intros c Hc. apply NL. rewrite in_app_iff. auto. }
    rewrite E1. cbn [next_ok].
    destruct (IH _ L1 g1 S1') as (g2 & L2 & E2 & S2 & In2); auto.
    + cbn [n_verts w_loops w_verts]. intros x Hx. rewrite tally1_in in Hx. rewrite In1. destruct Hx; auto.
    + apply Forall_app. auto.
    + apply Forall_app. auto.
    + cbn [n_verts w_loops w_verts]. intros x Hx. destruct (Old x (or_intror Hx)) as [A B]. rewrite in_app_iff in A.
      split; [tauto|]. rewrite In1, tally1_in. intros [X|[X|X]]; [left; auto|auto|tauto].
    + cbn [n_loops w_loops w_verts]. intros c Hc. destruct (NL c) as [A B]; [rewrite in_app_iff; auto|].
      rewrite In1, flat_map_app, in_app_iff. cbn [flat_map snd]. rewrite app_nil_r. split.
      * intros [X|[X|X]]; [tauto|subst; tauto|]. exact (D3 c X Hc).
      * intros [X|X]; [tauto|]. exact (D3 c X Hc).
    + exists g2, L2. split; [exact E2|]. cbn [fold_left]. split.
      * cbn [n_loops n_verts w_loops w_verts] in S2. rewrite <- app_assoc in S2. exact S2.
      * intros x. rewrite In2, In1, in_app_iff. cbn [In]. intuition.
Qed.
End Entity.

Lemma all_parts f g k l : all_ok f g l = parts_ok (fun g _ v => f g v) g k l.
Proof.
  revert g k. induction l as [|v l IH]; intros g k; cbn [all_ok parts_ok]; [reflexivity|].
  destruct (f g v) as [[[] g1]|]; cbn [next_ok]; auto.
Qed.
