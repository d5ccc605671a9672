(* What the setters do to the pointers, and to nothing else. *)
From Coq Require Import List Bool ZArith Lia ZifyBool ZifyNat.
From Verif Require Import GraphModel GraphSpec GraphFacts GraphOps GraphEdge GraphDel GraphProps GraphProps2.
Import ListNotations.
Open Scope Z_scope.

Lemma alike_refl n : alike n n.
Proof. repeat split. Qed.
Lemma alike_trans n m p : alike n m -> alike m p -> alike n p.
Proof. unfold alike. intuition congruence. Qed.


Lemma keep_refl g : keep g g.
Proof. intros i. unfold unchanged. destruct (look g i); auto using alike_refl. Qed.
Lemma unchanged_trans g h k i : unchanged g h i -> unchanged h k i -> unchanged g k i.
Proof.
  unfold unchanged. destruct (look g i), (look h i), (look k i); try tauto. apply alike_trans.
Qed.
Lemma keep_trans g h k : keep g h -> keep h k -> keep g k.
Proof. intros A B i. eapply unchanged_trans; eauto. Qed.
Lemma keep_put g i n m : look g i = Some n -> alike n m -> keep g (put g i m).
Proof.
  intros E A j. unfold unchanged. rewrite look_put. destruct (Nat.eqb j i) eqn:Q.
  - apply Nat.eqb_eq in Q. subst. now rewrite E.
  - destruct (look g j); auto using alike_refl.
Qed.
Lemma keep_ents g l : keep g (with_ents g l).
Proof. exact (keep_refl g). Qed.

Lemma addReference_keep g c p a h : addReference g c p = Some (a, h) -> keep g h.
Proof.
  unfold addReference. destruct (look g c) as [n|] eqn:E; [|discriminate]. destruct (look g p); [|discriminate].
  destruct (forbids _ _ _ _); [intros [= _ <-]; apply keep_refl|].
  destruct (_ || _); intros [= _ <-]; [apply keep_refl|]. apply (keep_put g c n); [exact E|repeat split].
Qed.
Lemma SetDependency_keep g c d b h : SetDependency g c d = Some (b, h) -> keep g h.
Proof.
  unfold SetDependency. destruct (look g c) as [n|] eqn:E; [|discriminate].
  destruct (n_null n); [intros [= _ <-]; apply keep_refl|].
  destruct (zmem _ _); [intros [= _ <-]; apply keep_refl|].
  destruct (zmem _ _); intros [= _ <-]; [apply keep_refl|]. apply (keep_put g c n); [exact E|repeat split].
Qed.
Lemma adopt_keep g e x h : adopt g e x = Some h -> keep g h.
Proof.
  unfold adopt, AddEntity. destruct (look g e); [|discriminate]. destruct (look g x) as [m|] eqn:E; [|discriminate].
  destruct (_ && _); [|intros [= <-]; apply keep_refl].
  destruct (mem _ _); cbn [option_map snd]; intros [= <-]; [apply keep_refl|].
  refine (keep_trans _ (put g x (w_own true m)) _ _ _); [apply (keep_put g x m); [exact E|repeat split]|apply keep_ents].
Qed.
Lemma settle_keep g e x d b h : settle g e x d = Some (b, h) -> b = true /\ keep g h.
Proof.
  unfold settle. destruct d.
  - destruct (SetDependency g x 1) as [[b1 g1]|] eqn:E; cbn [option_map snd]; [|discriminate].
    destruct (adopt g1 e x) eqn:A; [|discriminate]. intros [= <- <-]. split; [reflexivity|].
    eapply keep_trans; [eapply SetDependency_keep|eapply adopt_keep]; eauto.
  - destruct (adopt g e x) eqn:A; [|discriminate]. intros [= <- <-]. split; [reflexivity|]. eapply adopt_keep; eauto.
Qed.

(* an operation on e's record that does not look at what alike ignores *)
Definition steady (f : node -> node) : Prop := forall n m, alike n m -> alike (f n) (f m).

Lemma only_keep e f g h k : only e f g h -> keep h k -> only e f g k.
Proof.
  intros [A B] K. split.
  - intros i Hi. eapply unchanged_trans; [now apply A|apply K].
  - destruct B as (n & m & E & F & L). specialize (K e). unfold unchanged in K. rewrite F in K.
    destruct (look k e) as [p|]; [|tauto]. exists n, p. split; [exact E|]. split; [reflexivity|]. eapply alike_trans; eauto.
Qed.
Lemma keep_only e f g h k : steady f -> keep g h -> only e f h k -> only e f g k.
Proof.
  intros St K [A B]. split.
  - intros i Hi. eapply unchanged_trans; [apply K|now apply A].
  - destruct B as (n & m & E & F & L). specialize (K e). unfold unchanged in K. rewrite E in K.
    destruct (look g e) as [p|]; [|tauto]. exists p, m. split; [reflexivity|]. split; [exact F|].
    eapply alike_trans; [apply St; exact K|exact L].
Qed.
Lemma only_put e f g n m : look g e = Some n -> alike (f n) m -> only e f g (put g e m).
Proof.
  intros E L. split.
  - intros i Hi. unfold unchanged. rewrite look_put_ne by auto. destruct (look g i); auto using alike_refl.
  - exists n, m. split; [exact E|]. split; [apply look_put_eq|exact L].
Qed.
Lemma only_trans e f k g h i : steady k -> only e f g h -> only e k h i -> only e (fun n => k (f n)) g i.
Proof.
  intros St [A B] [A2 B2]. split.
  - intros j Hj. eapply unchanged_trans; [now apply A|now apply A2].
  - destruct B as (n & m & E & F & L). destruct B2 as (n2 & m2 & E2 & F2 & L2). rewrite F in E2. injection E2 as <-.
    exists n, m2. split; [exact E|]. split; [exact F2|]. eapply alike_trans; [apply St; exact L|exact L2].
Qed.
Lemma only_ext e f k g h : (forall n, alike (k n) (f n)) -> only e f g h -> only e k g h.
Proof.
  intros H [A B]. split; [exact A|]. destruct B as (n & m & E & F & L). exists n, m.
  split; [exact E|]. split; [exact F|]. eapply alike_trans; [apply H|exact L].
Qed.
Lemma keep_is_only e f g h n : look g e = Some n -> alike (f n) n -> keep g h -> only e f g h.
Proof.
  intros E L K. eapply only_keep; [|exact K]. split.
  - intros i _. apply keep_refl.
  - exists n, n. auto.
Qed.

Lemma des_steady k x : steady (des_to k x).
Proof. intros n m (a&b&c&d&f&h&i&j&l&p). unfold alike, des_to. cbn. rewrite f. repeat split; auto. Qed.
Lemma slot_steady k x : steady (slot_to k x).
Proof. intros n m (a&b&c&d&f&h&i&j&l&p). unfold alike, slot_to. cbn. rewrite i. repeat split; auto. Qed.
Lemma set_set {A} k (v w : A) l : set_nth k v (set_nth k w l) = set_nth k v l.
Proof. revert k. induction l as [|a l IH]; intros [|k]; cbn; auto. now rewrite IH. Qed.
Lemma set_same (k : nat) (l : list (option nat)) : nth k l None = None -> set_nth k None l = l.
Proof. revert k. induction l as [|a l IH]; intros [|k]; cbn; auto; intros H; [now subst|now rewrite IH]. Qed.

(* dropping a pointer *)
Lemma delReference_keep g e n x b h : ginv zero g -> look g e = Some n -> In x (tgt n) ->
  delReference g x e = Some (b, h) -> keep g h.
Proof.
  intros G E Hi H. destruct (link_listed _ _ _ _ G E Hi) as (m & F & Hm).
  destruct (delReference_ok zero g x e m G F Hm) as [H1 _]. rewrite H1 in H. injection H as <- <-.
  apply (keep_put g x m); [exact F|repeat split].
Qed.

Lemma drop_de_only g e k h n : ginv zero g -> look g e = Some n -> drop_de g e k = Some h -> only e (des_to k None) g h.
Proof.
  intros G E. unfold drop_de. rewrite E. destruct (nth k (n_des n) None) as [x|] eqn:K.
  - destruct (delReference g x e) as [[b g1]|] eqn:D; [|discriminate].
    assert (Hx : In x (tgt n)).
    { apply in_tgt_des, ptrs_in. rewrite <- K. apply nth_In.
      destruct (le_lt_dec (length (n_des n)) k) as [Q|Q]; [rewrite nth_overflow in K by exact Q; discriminate|exact Q]. }
    destruct (look g1 e) as [n1|] eqn:E1; [|discriminate]. intros [= <-].
    eapply keep_only; [apply des_steady|eapply delReference_keep; eauto|].
    apply (only_put e _ g1 n1); [exact E1|apply alike_refl].
  - intros [= <-]. eapply keep_is_only; [exact E| |apply keep_refl]. unfold des_to. rewrite set_same by exact K.
    repeat split.
Qed.
Lemma drop_slot_only g e k h n : ginv zero g -> look g e = Some n -> drop_slot g e k = Some h -> only e (slot_to k None) g h.
Proof.
  intros G E. unfold drop_slot. rewrite E. destruct (nth k (n_slots n) None) as [x|] eqn:K.
  - destruct (delReference g x e) as [[b g1]|] eqn:D; [|discriminate].
    assert (Hx : In x (tgt n)).
    { apply in_tgt_slots, ptrs_in. rewrite <- K. apply nth_In.
      destruct (le_lt_dec (length (n_slots n)) k) as [Q|Q]; [rewrite nth_overflow in K by exact Q; discriminate|exact Q]. }
    destruct (look g1 e) as [n1|] eqn:E1; [|discriminate]. intros [= <-].
    eapply keep_only; [apply slot_steady|eapply delReference_keep; eauto|].
    apply (only_put e _ g1 n1); [exact E1|apply alike_refl].
  - intros [= <-]. eapply keep_is_only; [exact E| |apply keep_refl]. unfold slot_to. rewrite set_same by exact K.
    repeat split.
Qed.

Lemma des_twice e k x g h i : only e (des_to k None) g h -> only e (des_to k x) h i -> only e (des_to k x) g i.
Proof.
  intros A B. eapply only_ext; [|eapply only_trans; [|exact A|exact B]; apply des_steady].
  intros n. unfold des_to. cbn [n_des w_des]. rewrite set_set. repeat split.
Qed.
Lemma slot_twice e k y x g h i : only e (slot_to k y) g h -> only e (slot_to k x) h i -> only e (slot_to k x) g i.
Proof.
  intros A B. eapply only_ext; [|eapply only_trans; [|exact A|exact B]; apply slot_steady].
  intros n. unfold slot_to. cbn [n_slots w_slots]. rewrite set_set. repeat split.
Qed.
Lemma des_again e k y x g h i : only e (des_to k y) g h -> only e (des_to k x) h i -> only e (des_to k x) g i.
Proof.
  intros A B. eapply only_ext; [|eapply only_trans; [|exact A|exact B]; apply des_steady].
  intros n. unfold des_to. cbn [n_des w_des]. rewrite set_set. repeat split.
Qed.

Lemma SetDe_effect g e k x n b h : ginv zero g -> look g e = Some n -> setter n k = Basic -> (0 < k)%nat ->
  SetDe g e k x = Some (b, h) -> only e (des_to k (if b then x else None)) g h.
Proof.
  intros G E B Hk. unfold SetDe. rewrite E.
  assert (Main : base_set_de g e k x = Some (b, h) -> only e (des_to k (if b then x else None)) g h).
  { unfold base_set_de. destruct (drop_de g e k) as [g1|] eqn:D; [|discriminate].
    pose proof (drop_de_only g e k g1 n G E D) as O1.
    destruct x as [c|]; [|intros [= <- <-]; exact O1].
    destruct (look g1 c) as [m|] eqn:F; [|discriminate].
    destruct (de_type_ok k m); [|intros [= <- <-]; exact O1].
    destruct (addReference g1 c e) as [[[| |] g2]|] eqn:A; [| | |discriminate].
    - intros [= <- <-]. eapply only_keep; [exact O1|eapply addReference_keep; eauto].
    - intros [= <- <-]. eapply only_keep; [exact O1|eapply addReference_keep; eauto].
    - destruct (look g2 e) as [n2|] eqn:E2; [|discriminate].
      destruct (adopt _ e c) as [g3|] eqn:Ad; [|discriminate]. cbn [option_map]. intros [= <- <-].
      eapply des_again; [eapply only_keep; [exact O1|eapply addReference_keep; eauto]|].
      eapply only_keep; [|eapply adopt_keep; eauto]. apply (only_put e _ g2 n2); [exact E2|apply alike_refl]. }
  assert (Tr : k = 4%nat -> base_set_transform g e x = Some (b, h) -> only e (des_to k (if b then x else None)) g h).
  { intros ->. unfold base_set_transform. destruct (drop_de g e 4) as [g1|] eqn:D; [|discriminate].
    pose proof (drop_de_only g e 4 g1 n G E D) as O1.
    destruct x as [c|]; [|intros [= <- <-]; exact O1].
    destruct (look g1 c) as [m|] eqn:F; [|discriminate]. destruct (look g1 e) as [n1|] eqn:E1; [|discriminate].
    destruct (de_type_ok 4 m); [|intros [= <- <-]; exact O1].
    assert (O2 : only e (des_to 4 (Some c)) g (put g1 e (w_des (set_nth 4 (Some c) (n_des n1)) n1))).
    { eapply des_again; [exact O1|]. apply (only_put e _ g1 n1); [exact E1|apply alike_refl]. }
    destruct (addReference _ c e) as [[[| |] g2]|] eqn:A; [| | |discriminate].
    - destruct (look g2 e) as [n2|] eqn:E2; [|discriminate]. intros [= <- <-].
      eapply des_again; [eapply only_keep; [exact O2|eapply addReference_keep; eauto]|].
      apply (only_put e _ g2 n2); [exact E2|apply alike_refl].
    - destruct (look g2 e) as [n2|] eqn:E2; [|discriminate]. intros [= <- <-].
      eapply des_again; [eapply only_keep; [exact O2|eapply addReference_keep; eauto]|].
      apply (only_put e _ g2 n2); [exact E2|apply alike_refl].
    - destruct (adopt _ e c) as [g3|] eqn:Ad; [|discriminate]. cbn [option_map]. intros [= <- <-].
      eapply only_keep; [eapply only_keep; [exact O2|eapply addReference_keep; eauto]|eapply adopt_keep; eauto]. }
  destruct k as [|[|[|[|[|k]]]]]; [lia|..]; rewrite B; auto.
Qed.

Lemma SetDeNum_effect g e k n v b h : ginv zero g -> look g e = Some n -> setter n k = Basic -> In k [1; 2; 6]%nat ->
  SetDeNum g e k v = Some (b, h) -> b = v /\ only e (des_to k None) g h.
Proof.
  intros G E B Hk. unfold SetDeNum. rewrite E. apply mem_in in Hk. rewrite Hk, B.
  destruct (drop_de g e k) as [g1|] eqn:D; [|discriminate]. cbn [option_map]. intros [= <- <-].
  split; [reflexivity|]. eapply drop_de_only; eauto.
Qed.

Lemma AddOptional_effect g e x b h : AddOptional g e x = Some (b, h) -> live g e ->
  only e (fun n => w_extras (n_extras n ++ if b then [x] else []) n) g h.
Proof.
  unfold AddOptional. intros H [n E]. rewrite E in H. destruct (look g x) as [m|] eqn:F; [|discriminate].
  assert (St : steady (fun n => w_extras (n_extras n ++ [x]) n)).
  { intros p q (a&b1&c&d&f&h1&i&j&l&r). unfold alike. cbn. rewrite h1. repeat split; auto. }
  assert (No : forall k, keep g k -> only e (fun n => w_extras (n_extras n ++ []) n) g k).
  { intros k K. eapply keep_is_only; [exact E| |exact K]. rewrite app_nil_r. repeat split. }
  destruct (zmem _ _); [|injection H as <- <-; apply No, keep_refl].
  assert (Go : forall g1, keep g g1 -> match look g1 e with
        | Some n1 => option_map (fun g0 => (true, g0)) (adopt (put g1 e (w_extras (n_extras n1 ++ [x]) n1)) e x)
        | None => None end = Some (b, h) -> only e (fun n => w_extras (n_extras n ++ if b then [x] else []) n) g h).
  { intros g1 K. destruct (look g1 e) as [n1|] eqn:E1; [|discriminate].
    destruct (adopt _ e x) as [g3|] eqn:Ad; [|discriminate]. cbn [option_map]. intros [= <- <-].
    eapply only_keep; [|eapply adopt_keep; eauto]. eapply keep_only; [exact St|exact K|].
    apply (only_put e _ g1 n1); [exact E1|apply alike_refl]. }
  destruct (n_type m =? 402); [apply (Go g (keep_refl g)); exact H|].
  destruct (addReference g x e) as [[[| |] g1]|] eqn:A; [| | |discriminate].
  - injection H as <- <-. apply No. eapply addReference_keep; eauto.
  - injection H as <- <-. apply No. eapply addReference_keep; eauto.
  - apply (Go g1); [eapply addReference_keep; eauto|exact H].
Qed.

(* the class of e has a pointer k that can be set *)
Lemma SetSlot_effect g e k x cl n b h : ginv zero g -> look g e = Some n -> (forall c, x = Some c -> live g c) ->
  SetSlot g e k x cl = Some (b, h) ->
  if b then only e (slot_to k x) g h else h = g \/ only e (slot_to k None) g h.
Proof.
  intros G E L. unfold SetSlot. rewrite E.
  assert (Af : forall c, live g c -> slot_after g e k c true = Some (b, h) ->
     if b then only e (slot_to k (Some c)) g h else h = g \/ only e (slot_to k None) g h).
  { intros c Lc. unfold slot_after. destruct (drop_slot g e k) as [g1|] eqn:D; [|discriminate].
    pose proof (drop_slot_only g e k g1 n G E D) as O1.
    destruct (addReference g1 c e) as [[[| |] g2]|] eqn:A; [| | |discriminate].
    - intros [= <- <-]. right. eapply only_keep; [exact O1|eapply addReference_keep; eauto].
    - intros [= <- <-]. right. eapply only_keep; [exact O1|eapply addReference_keep; eauto].
    - destruct (look g2 e) as [n2|] eqn:E2; [|discriminate]. intros H. apply settle_keep in H. destruct H as [-> K].
      eapply slot_twice; [eapply only_keep; [exact O1|eapply addReference_keep; eauto]|].
      eapply only_keep; [|exact K]. apply (only_put e _ g2 n2); [exact E2|apply alike_refl]. }
  assert (Bf : forall ok d, slot_before g e k x ok d = Some (b, h) ->
     if b then only e (slot_to k x) g h else h = g \/ only e (slot_to k None) g h).
  { intros ok d. unfold slot_before. destruct (drop_slot g e k) as [g1|] eqn:D; [|discriminate].
    pose proof (drop_slot_only g e k g1 n G E D) as O1.
    destruct x as [c|]; [|intros [= <- <-]; exact O1].
    destruct ok; [|intros [= <- <-]; right; exact O1].
    destruct (look g1 e) as [n1|] eqn:E1; [|discriminate].
    assert (O2 : only e (slot_to k (Some c)) g (put g1 e (w_slots (set_nth k (Some c) (n_slots n1)) n1))).
    { eapply slot_twice; [exact O1|]. apply (only_put e _ g1 n1); [exact E1|apply alike_refl]. }
    destruct (addReference _ c e) as [[[| |] g2]|] eqn:A; [| | |discriminate].
    - destruct (look g2 e) as [n2|] eqn:E2; [|discriminate]. intros [= <- <-]. right.
      eapply slot_twice; [eapply only_keep; [exact O2|eapply addReference_keep; eauto]|].
      apply (only_put e _ g2 n2); [exact E2|apply alike_refl].
    - destruct (look g2 e) as [n2|] eqn:E2; [|discriminate]. intros [= <- <-]. right.
      eapply slot_twice; [eapply only_keep; [exact O2|eapply addReference_keep; eauto]|].
      apply (only_put e _ g2 n2); [exact E2|apply alike_refl].
    - intros H. apply settle_keep in H. destruct H as [-> K].
      eapply only_keep; [eapply only_keep; [exact O2|eapply addReference_keep; eauto]|exact K]. }
  assert (No : Some (false, g) = Some (b, h) ->
     if b then only e (slot_to k x) g h else h = g \/ only e (slot_to k None) g h).
  { intros [= <- <-]. now left. }
  destruct x as [c|].
  - destruct (L c eq_refl) as [m F]. rewrite F.
    destruct (n_null n); [exact No|].
    destruct (n_type n =? 120).
    { destruct (is_curve m); [|exact No]. destruct k as [|[|k]]; [|apply Af; now exists m|exact No].
      destruct (n_type m =? 110); [apply Af; now exists m|exact No]. }
    destruct (n_type n =? 122).
    { destruct (is_curve m && Nat.eqb k 0) eqn:Q; [|exact No]. apply andb_prop in Q. destruct Q as [_ Q].
      apply Nat.eqb_eq in Q. subst k. apply Af. now exists m. }
    destruct (n_type n =? 142); [destruct (Nat.ltb k 3); [apply Bf|exact No]|].
    destruct (n_type n =? 144).
    { destruct k as [|[|k]]; [apply Bf|destruct (is_a 142 m); [apply Bf|exact No]|exact No]. }
    destruct (n_type n =? 164).
    { destruct (is_curve m && cl && Nat.eqb k 0) eqn:Q; [|exact No]. apply andb_prop in Q. destruct Q as [_ Q].
      apply Nat.eqb_eq in Q. subst k. apply Bf. }
    destruct (n_type n =? 408); [|exact No].
    destruct (is_a 308 m && Nat.eqb k 0) eqn:Q; [|exact No]. apply andb_prop in Q. destruct Q as [_ Q].
    apply Nat.eqb_eq in Q. subst k. apply Bf.
  - destruct (n_null n); [exact No|].
    destruct (_ && _); [exact No|]. destruct (_ && _); [discriminate|]. destruct (_ && _); [exact No|].
    destruct (_ || _); [apply Bf|exact No].
Qed.

Lemma items_steady l : steady (fun n => w_items (n_items n ++ l) n).
Proof. intros p q (a&b1&c&d&f&h1&i&j&k&r). unfold alike. cbn. rewrite j. repeat split; auto. Qed.

(* e's list of pointers grows by x; or e points to x already and nothing changes *)
Lemma AddSegment_effect g e x cl b h n : inv g -> look g e = Some n -> AddSegment g e x cl = Some (b, h) ->
  if b then
    (~ holds n x /\ only e (fun p => w_items (n_items p ++ [x]) p) g h) \/ (holds n x /\ keep g h)
  else keep g h.
Proof.
  intros I E. unfold AddSegment. rewrite E. destruct (look g x) as [m|] eqn:F; [|discriminate].
  pose proof I as (G & C & _).
  destruct (negb (is_a 102 n) || negb (is_curve m)) eqn:Q; [intros [= <- <-]; apply keep_refl|].
  destruct (n_type m =? 102); [intros [= <- <-]; apply keep_refl|].
  destruct (_ && cl); [intros [= <- <-]; apply keep_refl|].
  apply orb_false_iff in Q. destruct Q as [Q _]. apply negb_false_iff in Q. unfold is_a in Q.
  apply andb_prop in Q. destruct Q as [Q1 Q2]. apply negb_true_iff in Q1. apply Z.eqb_eq in Q2.
  destruct (addReference_cases g x e m n F E) as [A|[A|(A & A1 & A2 & A3)]]; rewrite A.
  - intros [= <- <-]. apply keep_refl.
  - destruct (adopt g e x) as [g2|] eqn:Ad; [|discriminate]. cbn [option_map]. intros [= <- <-]. right.
    split; [|eapply adopt_keep; eauto]. apply (holds_tgt g e n x G C E).
    unfold addReference in A. rewrite F, E in A. destruct (forbids m x e (n_type n)) eqn:Fb; [discriminate|].
    destruct (mem e (n_refs m) || mem e (n_extras m)) eqn:Mm; [|discriminate].
    apply orb_true_iff in Mm. destruct Mm as [Mm|Mm]; apply mem_in in Mm.
    + destruct (link_pointed g x e m G F Mm) as (n' & En & Ht). rewrite E in En. injection En as <-. exact Ht.
    + exfalso. pose proof (sh_extras _ _ _ (g_shape _ _ G _ _ F) e (n_type n, n_null n) Mm) as X.
      unfold ty in X. rewrite E in X. specialize (X eq_refl). injection X. rewrite Q2. discriminate.
  - destruct (SetDependency _ x 1) as [[b1 g2]|] eqn:S1; [|discriminate].
    destruct (look g2 e) as [n2|] eqn:E2; [|discriminate].
    destruct (adopt _ e x) as [g3|] eqn:Ad; [|discriminate]. cbn [option_map]. intros [= <- <-]. left. split.
    + intros Hh. apply (holds_tgt g e n x G C E) in Hh.
      destruct (link_listed g e x n G E Hh) as (m' & Em & Hr). rewrite F in Em. injection Em as <-. contradiction.
    + eapply only_keep; [|eapply adopt_keep; eauto].
      eapply keep_only; [apply (items_steady [x])| |apply (only_put e _ g2 n2); [exact E2|apply alike_refl]].
      eapply keep_trans; [eapply addReference_keep; eauto|eapply SetDependency_keep; eauto].
Qed.

Lemma item_add_effect g e x d b h n : look g e = Some n -> item_add g e x d = Some (b, h) ->
  if b then only e (fun p => w_items (n_items p ++ [x]) p) g h else keep g h.
Proof.
  intros E. unfold item_add.
  destruct (addReference g x e) as [[[| |] g2]|] eqn:A; [| | |discriminate].
  - intros [= <- <-]. eapply addReference_keep; eauto.
  - intros [= <- <-]. eapply addReference_keep; eauto.
  - destruct (look g2 e) as [n2|] eqn:E2; [|discriminate]. intros H. apply settle_keep in H. destruct H as [-> K].
    eapply only_keep; [|exact K]. eapply keep_only; [apply (items_steady [x])|eapply addReference_keep; eauto|].
    apply (only_put e _ g2 n2); [exact E2|apply alike_refl].
Qed.

Lemma AddItem_effect g e x b h n : look g e = Some n -> AddItem g e x = Some (b, h) ->
  if b then only e (fun p => w_items (n_items p ++ [x]) p) g h \/ (In x (n_items n) /\ keep g h)
  else keep g h.
Proof.
  intros E. unfold AddItem. rewrite E. destruct (look g x) as [m|] eqn:F; [|discriminate].
  assert (No : Some (false, g) = Some (b, h) -> if b then only e (fun p => w_items (n_items p ++ [x]) p) g h \/ (In x (n_items n) /\ keep g h) else keep g h).
  { intros [= <- <-]. apply keep_refl. }
  assert (Ad : forall d, item_add g e x d = Some (b, h) -> if b then only e (fun p => w_items (n_items p ++ [x]) p) g h \/ (In x (n_items n) /\ keep g h) else keep g h).
  { intros d H. pose proof (item_add_effect g e x d b h n E H). destruct b; auto. }
  destruct (n_null n); [exact No|].
  destruct (n_type n =? 144).
  { destruct (negb _); [exact No|]. destruct (mem x (n_items n)) eqn:M; [|apply Ad].
    intros [= <- <-]. right. apply mem_in in M. split; [exact M|apply keep_refl]. }
  destruct (n_type n =? 180); [destruct (zmem _ _); [apply Ad|exact No]|].
  destruct (n_type n =? 308); [|exact No].
  destruct (_ || _); [exact No|]. destruct (mem x (n_items n)) eqn:M; [|apply Ad].
  intros [= <- <-]. right. apply mem_in in M. split; [exact M|apply keep_refl].
Qed.

Lemma addVertexList_keep g e v h : addVertexList g e v = Some (true, h) -> keep g h.
Proof.
  unfold addVertexList. destruct (look g e) as [n|] eqn:E; [|discriminate].
  destruct (mem v _); [intros [= <-]; apply (keep_put g e n); [exact E|repeat split]|].
  destruct (addReference g v e) as [[[| |] g2]|] eqn:A; try discriminate.
  destruct (look g2 e) as [n2|] eqn:E2; [|discriminate].
  destruct (adopt _ e v) as [g3|] eqn:Ad; [|discriminate]. cbn [option_map]. intros [= <-].
  eapply keep_trans; [eapply addReference_keep; eauto|]. eapply keep_trans; [|eapply adopt_keep; eauto].
  apply (keep_put g2 e n2); [exact E2|repeat split].
Qed.

Lemma AddEdge_effect g e x sv s tv t h : AddEdge g e x sv s tv t = Some (true, h) ->
  only e (fun p => w_edges (n_edges p ++ [mkEdge x sv tv]) p) g h.
Proof.
  unfold AddEdge. destruct (look g e) as [n|] eqn:E; [|discriminate].
  destruct (look g sv); [|discriminate]. destruct (look g tv); [|discriminate].
  destruct (_ || _); [discriminate|].
  destruct (addCurve g e x) as [[[|] g1]|] eqn:A; [|discriminate|discriminate].
  assert (K1 : keep g g1).
  { revert A. unfold addCurve. destruct (look g x); [|discriminate]. destruct (_ || _); [|discriminate].
    destruct (addReference g x e) as [[[| |] g2]|] eqn:A; try discriminate.
    destruct (adopt g2 e x) as [g3|] eqn:Ad; [|discriminate]. cbn [option_map]. intros [= <-].
    eapply keep_trans; [eapply addReference_keep|eapply adopt_keep]; eauto. }
  destruct (addVertexList g1 e sv) as [[[|] g2]|] eqn:V1; [| |discriminate].
  2:{ unfold then_false. destruct (delReference g2 x e); discriminate. }
  destruct (addVertexList g2 e tv) as [[[|] g3]|] eqn:V2; [| |discriminate].
  2:{ unfold and_then, then_false. destruct (delReference g3 x e) as [[? ?]|]; [|discriminate].
      destruct (delVertexList _ e sv); discriminate. }
  destruct (_ || _).
  { unfold and_then, then_false. destruct (delReference g3 x e) as [[? ?]|]; [|discriminate].
    destruct (delVertexList _ e sv) as [[? ?]|]; [|discriminate]. destruct (delVertexList _ e tv); discriminate. }
  destruct (look g3 e) as [n3|] eqn:E3; [|discriminate]. intros [= <-].
  eapply keep_only; [| |apply (only_put e _ g3 n3); [exact E3|apply alike_refl]].
  - intros p q (a&b&c&d&f&i&j&k&l&r). unfold alike. cbn. rewrite l. repeat split; auto.
  - eapply keep_trans; [exact K1|]. eapply keep_trans; eapply addVertexList_keep; eauto.
Qed.

(* ---- deletion ---- *)

Lemma cutoff_tgt D g c n e : ginv D g -> look g c = Some n -> In e (tgt n) -> ~ In e (edge_curves (n_edges n)) ->
  ~ In e (map fst (n_verts n)) -> ~ (n_type n = 102 /\ In e (n_items n)) ->
  forall t, In t (tgt (cutoff e n)) <-> In t (tgt n) /\ t <> e.
Proof.
  intros G E Hin N1 N2 N3. pose proof (tgt_one _ _ _ _ _ G E Hin) as One.
  assert (X : forall t, cnt (tgt (cutoff e n)) t = (cnt (tgt n) t - if Nat.eqb e t then 1 else 0)%nat).
  { intros t. rewrite cnt_tgt_eq in *. apply cnt_notin in N1. apply cnt_notin in N2. rewrite N1, N2 in One.
    unfold cutoff. rewrite !mem_cnt.
    destruct (Nat.leb 1 (cnt (ptrs (n_des n)) e)) eqn:Q1.
    { rewrite cnt_tgt_eq. cbn [n_des n_extras n_slots n_items n_edges n_verts w_des]. rewrite cnt_clear1.
      destruct (Nat.eqb e t) eqn:Q; [apply Nat.eqb_eq in Q; subst t|]; lia. }
    destruct (Nat.leb 1 (cnt (n_extras n) e)) eqn:Q2.
    { rewrite cnt_tgt_eq. cbn [n_des n_extras n_slots n_items n_edges n_verts w_extras]. rewrite cnt_rem1.
      destruct (Nat.eqb e t) eqn:Q; [apply Nat.eqb_eq in Q; subst t|]; lia. }
    destruct (n_type n =? 102) eqn:Q3.
    { exfalso. apply Z.eqb_eq in Q3. pose proof (g_shape _ _ G _ _ E) as Sh.
      assert (Hn : n_null n = false) by (eapply tgt_not_null; eauto).
      rewrite (no_slots _ _ _ Sh Hn) in One by (rewrite Q3; reflexivity). cbn [ptrs] in One. rewrite cnt_nil in One.
      apply N3. split; [exact Q3|]. apply cnt_in. lia. }
    destruct (Nat.leb 1 (cnt (ptrs (n_slots n)) e)) eqn:Q4.
    { rewrite cnt_tgt_eq. cbn [n_des n_extras n_slots n_items n_edges n_verts w_slots]. rewrite cnt_clear1.
      destruct (Nat.eqb e t) eqn:Q; [apply Nat.eqb_eq in Q; subst t|]; lia. }
    rewrite cnt_tgt_eq. cbn [n_des n_extras n_slots n_items n_edges n_verts w_items]. rewrite cnt_rem1.
    destruct (Nat.eqb e t) eqn:Q; [apply Nat.eqb_eq in Q; subst t|]; lia. }
  intros t. rewrite !cnt_in, X. destruct (Nat.eqb e t) eqn:Q.
  - apply Nat.eqb_eq in Q. subst t. split; [lia|]. intros [_ Y]. congruence.
  - apply Nat.eqb_neq in Q. split; intros; [split; [lia|congruence]|lia].
Qed.


Lemma delete_effect g e : inv g -> In e (g_ents g) -> may_die g e ->
  exists h, run (ODel e) g = Some (true, h) /\ ~ live h e /\ g_ents h = rem1 e (g_ents g) /\
    forall c n, c <> e -> look g c = Some n -> exists m, look h c = Some m /\
      (~ holds n e -> alike n m) /\
      (forall t, holds m t -> holds n t /\ t <> e) /\
      (~ costly n e -> forall t, holds n t -> t <> e -> holds m t).
Proof.
  intros I He M. destruct (del_ok g e I He M) as (k & _ & Hk & Ik & D). pose proof I as (G & C & _).
  exists (with_ents k (rem1 e (g_ents g))). split; [exact Hk|]. split.
  { intros [q Hq]. change (look k e = Some q) in Hq. rewrite (de_gone _ _ _ D) in Hq. discriminate. }
  split; [reflexivity|].
  intros c n Hc E. pose proof Ik as (Gk & Ck & _).
  assert (Lk : live k c) by (apply (de_live _ _ _ D); [exact Hc|now exists n]). destruct Lk as [m Hm].
  exists m. split; [exact Hm|].
  assert (Hm' : look (with_ents k (rem1 e (g_ents g))) c = Some m) by exact Hm.
  pose proof (dw_some _ _ (de_dwindle _ _ _ D) c n m E Hm) as Les.
  assert (Sub : forall t, holds m t -> holds n t /\ t <> e).
  { intros t Ht. apply (holds_tgt _ c m t Gk Ck Hm') in Ht. split.
    - apply (holds_tgt g c n t G C E). now apply (le_tgt _ _ Les).
    - intros ->. destruct (link_listed _ c e m Gk Hm' Ht) as (q & Hq & _).
      change (look k e = Some q) in Hq. rewrite (de_gone _ _ _ D) in Hq. discriminate. }
  split; [|split; [exact Sub|]].
  - intros N. destruct (de_others _ _ _ D c n Hc E) as (v & Hv).
    { intros Q. apply N. now apply (holds_tgt g c n e G C E). }
    rewrite Hm in Hv. injection Hv as ->. repeat split.
  - intros NC t Ht Hte. destruct (in_dec Nat.eq_dec e (tgt n)) as [Q|Q].
    + assert (N1 : ~ In e (edge_curves (n_edges n))).
      { intros X. apply NC. right. unfold edge_curves in X. apply in_map_iff in X. destruct X as (d & X1 & X2). exists d. auto. }
      destruct (de_cut _ _ _ D c n Hc E Q N1) as (v & Hv). rewrite Hm in Hv. injection Hv as ->.
      apply (holds_tgt _ c _ t Gk Ck Hm'). rewrite tgt_refs.
      apply (cutoff_tgt zero g c n e G E Q N1).
      * intros X. pose proof (g_shape _ _ G _ _ E) as Sh.
        apply (vcount_in _ _ (sh_pos _ _ _ Sh)) in X. rewrite (C c n E) in X.
        apply uses_exists in X. destruct X as (d & X1 & X2). destruct M as [_ M2].
        destruct (M2 c n d E X1) as [Y1 Y2]. destruct X2; contradiction.
      * intros X. apply NC. now left.
      * split; [|exact Hte]. now apply (holds_tgt g c n t G C E).
    + destruct (de_others _ _ _ D c n Hc E Q) as (v & Hv). rewrite Hm in Hv. injection Hv as ->. exact Ht.
Qed.

(* ---- when SetTransform accepts ---- *)

Lemma transform_accepted g e c n m b h : inv g -> look g e = Some n -> setter n 4 = Basic -> look g c = Some m ->
  run (OSetDe e 4 (Some c)) g = Some (b, h) ->
  b = true <-> n_type m = 124 /\ n_null m = false /\ c <> e /\ nth 4 (n_des m) None <> Some e /\ ~ holds (des_to 4 None n) c.
Proof.
  intros I E B F. cbn [run]. unfold SetDe. rewrite E, B. unfold base_set_transform.
  pose proof I as (G & C & _).
  destruct (drop_de_ok g e 4 n G E) as (g1 & n1 & D & G1 & Fr & E1 & N4 & K & _); [lia|]. rewrite D.
  pose proof (drop_de_only g e 4 g1 n G E D) as [O1 O2].
  destruct O2 as (n' & n1' & E' & E1' & A1). rewrite E in E'. injection E' as <-. rewrite E1 in E1'. injection E1' as <-.
  assert (Hc1 : exists m1, look g1 c = Some m1 /\ (if Nat.eqb c e then m1 = n1 else alike m m1)).
  { destruct (Nat.eqb c e) eqn:Q.
    - apply Nat.eqb_eq in Q. subst c. eauto.
    - apply Nat.eqb_neq in Q. specialize (O1 c Q). unfold unchanged in O1. rewrite F in O1.
      destruct (look g1 c) as [m1|]; [|tauto]. eauto. }
  destruct Hc1 as (m1 & F1 & Am). rewrite F1, E1.
  assert (Ty1 : n_type m1 = n_type m /\ n_null m1 = n_null m).
  { destruct (Nat.eqb c e) eqn:Q.
    - apply Nat.eqb_eq in Q. subst c m1. rewrite E in F. injection F as <-. destruct K. auto.
    - destruct Am as (a & a2 & _). auto. }
  destruct Ty1 as [Ty1 Nu1].
  unfold de_type_ok. rewrite Ty1, Nu1.
  destruct ((n_type m =? 124) && negb (n_null m)) eqn:T.
  2:{ intros [= <- <-]. split; [discriminate|]. intros (X & Y & _). rewrite X, Y in T. discriminate. }
  apply andb_prop in T. destruct T as [T1 T2]. apply Z.eqb_eq in T1. apply negb_true_iff in T2.
  set (g2 := put g1 e (w_des (set_nth 4 (Some c) (n_des n1)) n1)).
  assert (Len1 : length (n_des n1) = 7%nat) by (apply (sh_len _ _ _ (g_shape _ _ G1 _ _ E1))).
  destruct (Nat.eqb c e) eqn:Q.
  - (* itself *)
    apply Nat.eqb_eq in Q. subst c m1. intros H. split; [|intros (_ & _ & X & _); congruence].
    intros ->. exfalso. revert H. unfold addReference, g2. rewrite look_put_eq.
    assert (Fb : forbids (w_des (set_nth 4 (Some e) (n_des n1)) n1) e e (n_type (w_des (set_nth 4 (Some e) (n_des n1)) n1)) = true).
    { unfold forbids. cbn [n_des w_des].
      assert (X : mem e (ptrs (set_nth 4 (Some e) (n_des n1))) = true).
      { apply mem_in. apply ptrs_in. destruct (n_des n1) as [|a0 [|a1 [|a2 [|a3 [|a4 l]]]]]; try discriminate Len1.
        cbn. tauto. }
      rewrite X. now rewrite !orb_true_r. }
    rewrite Fb. rewrite look_put_eq. discriminate.
  - apply Nat.eqb_neq in Q.
    assert (Ad : addReference g2 c e = if mem e (ptrs (n_des m)) then Some (Refused, g2)
        else if mem e (n_refs m1) then Some (Already, g2) else Some (Added, put g2 c (w_refs (n_refs m1 ++ [e]) m1))).
    { unfold addReference, g2. rewrite look_put_ne by auto. rewrite F1, look_put_eq.
      assert (Fb : forall t, forbids m1 c e t = mem e (ptrs (n_des m))).
      { intros t. unfold forbids. rewrite Ty1, Nu1, T1, T2. cbn [zmem existsb Z.eqb Pos.eqb orb andb].
        destruct Am as (_ & _ & _ & _ & a5 & _). now rewrite a5. }
      rewrite Fb. destruct (mem e (ptrs (n_des m))); [reflexivity|].
      destruct (sh_124 _ _ _ (g_shape _ _ G1 _ _ F1)) as [X1 _]; [now rewrite Ty1|]. rewrite X1. cbn [mem existsb].
      now rewrite orb_false_r. }
    assert (R1 : mem e (n_refs m1) = true <-> holds (des_to 4 None n) c).
    { assert (Hh : holds (des_to 4 None n) c <-> holds n1 c).
      { destruct A1 as (a&b1&c1&d&f&h1&i&j&k&l). unfold holds. now rewrite f, h1, i, j, k, l. }
      rewrite Hh. rewrite (holds_tgt g1 e n1 c G1 (frame_counted _ _ Fr C) E1).
      pose proof (g_link _ _ G1 e c) as L. unfold zero in L.
      rewrite (ct_look _ _ _ _ E1), (cr_look _ _ _ _ F1) in L.
      rewrite mem_in, !cnt_in. lia. }
    assert (R2 : mem e (ptrs (n_des m)) = true <-> nth 4 (n_des m) None = Some e).
    { destruct (sh_124 _ _ _ (g_shape _ _ G _ _ F) T1) as [_ X2]. rewrite mem_in, ptrs_in. split.
      - intros X. destruct (In_nth _ _ None X) as (j & J1 & J2). destruct (Nat.eq_dec j 4) as [->|N]; [exact J2|].
        rewrite (X2 j N) in J2. discriminate.
      - intros X. rewrite <- X. apply nth_In. rewrite (sh_len _ _ _ (g_shape _ _ G _ _ F)). lia. }
    rewrite Ad. destruct (mem e (ptrs (n_des m))) eqn:M1.
    { unfold g2. rewrite look_put_eq. intros [= <- <-]. split; [discriminate|]. intros (_ & _ & _ & X & _).
      exfalso. now apply X, R2. }
    destruct (mem e (n_refs m1)) eqn:M2.
    { unfold g2. rewrite look_put_eq. intros [= <- <-]. split; [discriminate|]. intros (_ & _ & _ & _ & X). exfalso. now apply X, R1. }
    destruct (adopt _ e c) as [g3|]; [|discriminate]. cbn [option_map]. intros [= <- <-].
    split; [intros _|reflexivity]. split; [exact T1|]. split; [exact T2|]. split; [exact Q|].
    split; [intros X; apply R2 in X; discriminate|]. intros X. apply R1 in X. discriminate.
Qed.
