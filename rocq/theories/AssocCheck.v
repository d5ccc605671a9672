(* Tests for the conditions of the claims about association, to establish concrete cases. *)
From Coq Require Import List Bool ZArith Lia ZifyBool ZifyNat.
From Verif Require Import GraphModel GraphSpec GraphFacts GraphCull AssocModel AssocSpec.
Import ListNotations.
Open Scope Z_scope.

Definition typedb (l : list node) (x : nat) (ts : list Z) : bool :=
  match nth_error l x with Some m => zmem (n_type m) ts | None => false end.
Lemma typedb_ok l x ts : typedb l x ts = true -> typed l x ts.
Proof. unfold typedb, typed. destruct (nth_error l x) as [m|]; [|discriminate]. intros H. exists m. split; [reflexivity|]. now apply zmem_in. Qed.

Definition if_some (o : option nat) (f : nat -> bool) : bool := match o with Some x => f x | None => true end.
Definition is_some_and (o : option nat) (f : nat -> bool) : bool := match o with Some x => f x | None => false end.
Definition impb (a b : bool) : bool := negb a || b.
Definition desb (l : list node) (n : node) : bool :=
  forallb (fun k => if_some (nth k (n_des n) None) (fun x =>
    (Nat.eqb k 4 && typedb l x [124]) || (Nat.eqb k 6 && typedb l x [314] && negb (n_type n =? 124)) || (Nat.eqb k 0 && n_null n))) (seq 0 7).
Definition slot (n : node) k := nth k (n_slots n) None.
Definition fitsb (l : list node) (n : node) : bool :=
  let t := n_type n in
  let s k := nth k (n_slots n) None in
  let every ts := forallb (fun x => typedb l x ts) (n_items n) in
  (if n_null n then t =? 0 else zmem t known) && Nat.eqb (length (n_des n)) 7 && impb (t =? 406) (n_form n =? 15) && desb l n &&
  impb (zmem t [314; 406]) (nil (ptrs (n_des n))) && forallb (fun x => typedb l x [406]) (n_extras n) &&
  Nat.eqb (length (n_slots n)) (length (if n_null n then [] else blank_slots t)) &&
  (zmem t [102; 144; 180; 186; 308; 510; 514] || nil (n_items n)) && ((t =? 504) || nil (n_edges n)) && ((t =? 508) || nil (n_loops n)) &&
  impb (t =? 102) (every [100; 104; 110; 126]) &&
  impb (t =? 120) (if_some (s 0%nat) (fun x => typedb l x [110]) && if_some (s 1%nat) (fun x => typedb l x curves)) &&
  impb (t =? 122) (if_some (s 0%nat) (fun x => typedb l x curves)) &&
  impb (t =? 142) (negb (none (s 0%nat))) &&
  impb (t =? 144) (is_some_and (s 0%nat) (fun x => typedb l x [120; 122; 128]) && is_some_and (s 1%nat) (fun x => typedb l x [142]) && every [142]) &&
  impb (t =? 164) (is_some_and (s 0%nat) (fun x => typedb l x curves)) &&
  impb (t =? 180) (every [154; 164; 180; 186]) &&
  impb (t =? 186) (is_some_and (s 0%nat) (fun x => typedb l x [514]) && every [514] &&
     forallb (fun x => match nth_error l x with Some m => n_form m =? 1 | None => true end) (match s 0%nat with Some x => x :: n_items n | None => n_items n end)) &&
  impb (t =? 408) (if_some (s 0%nat) (fun x => typedb l x [308])) &&
  impb (t =? 504) (forallb (fun d => typedb l (ed_curve d) curves && typedb l (ed_start d) [502] && typedb l (ed_stop d) [502]) (n_edges n)) &&
  impb (t =? 510) (is_some_and (s 0%nat) (fun x => typedb l x [120; 122; 128]) && every [508]) &&
  impb (t =? 514) (negb (nil (n_items n)) && every [510]).

Lemma impb_ok a b : impb a b = true -> a = true -> b = true.
Proof. intros H ->. exact H. Qed.
Lemma if_some_ok o f : if_some o f = true -> forall x, o = Some x -> f x = true.
Proof. intros H x ->. exact H. Qed.
Lemma is_some_ok o f : is_some_and o f = true -> exists x, o = Some x /\ f x = true.
Proof. destruct o as [x|]; [|discriminate]. intros H. now exists x. Qed.
Lemma every_ok l ts xs : forallb (fun x => typedb l x ts) xs = true -> forall x, In x xs -> typed l x ts.
Proof. intros H x Hx. apply typedb_ok. rewrite forallb_forall in H. auto. Qed.
Ltac flat := repeat match goal with H : _ && _ = true |- _ => apply andb_prop in H; destruct H end.

Lemma fitsb_ok l n : fitsb l n = true -> fits l n.
Proof.
  unfold fitsb. cbv zeta. intros H. flat.
  repeat match goal with H : impb _ _ = true |- _ => pose proof (impb_ok _ _ H); clear H end.
  constructor.
  all: try (intros T; match goal with H : (n_type ?n =? ?k) = true -> _ |- _ =>
         match type of T with n_type n = k => apply Z.eqb_eq in T; specialize (H T); flat end end;
         repeat match goal with H : is_some_and _ _ = true |- _ => apply is_some_ok in H; destruct H as (? & ? & ?) end;
         repeat match goal with |- _ /\ _ => split end; intros;
         repeat match goal with
         | H : if_some _ _ = true, E : _ = Some ?x |- typed _ ?x _ => exact (typedb_ok _ _ _ (if_some_ok _ _ H x E)) || fail
         | H : forallb (fun x => typedb _ x _) _ = true, E : In ?x _ |- typed _ ?x _ => exact (every_ok _ _ _ H x E)
         | H : typedb _ ?x _ = true, E : _ = Some ?x |- exists _, _ => exists x; split; [exact E|exact (typedb_ok _ _ _ H)]
         end).
  - match goal with H : (if n_null n then _ else _) = true |- _ => rename H into F end. destruct (n_null n); [now apply Z.eqb_eq|now apply zmem_in].
  - now apply Nat.eqb_eq.
  - now apply Z.eqb_eq.
  - intros k x E. match goal with H : desb _ _ = true |- _ => unfold desb in H; rewrite forallb_forall in H; specialize (H k) end.
    assert (Hk : In k (seq 0 7)).
    { apply in_seq. destruct (le_lt_dec 7 k) as [K|K]; [|split; [apply Nat.le_0_l|exact K]]. rewrite nth_overflow in E; [discriminate|]. now replace (length (n_des n)) with 7%nat by (symmetry; now apply Nat.eqb_eq). }
    match goal with H : In k (seq 0 7) -> _ |- _ => specialize (H Hk); rewrite E in H; cbn [if_some] in H;
      apply orb_prop in H; destruct H as [H|H]; [apply orb_prop in H; destruct H as [H|H]|] end; flat.
    + left. split; [now apply Nat.eqb_eq|]. now apply typedb_ok.
    + right. left. split; [now apply Nat.eqb_eq|]. split; [now apply typedb_ok|]. apply Z.eqb_neq. now apply negb_true_iff.
    + right. right. split; [now apply Nat.eqb_eq|assumption].
  - intros T. apply zmem_in in T. match goal with H : _ -> nil (ptrs _) = true |- _ => now apply nil_true, H end.
  - intros x Hx. match goal with H : forallb _ (n_extras n) = true |- _ => exact (every_ok _ _ _ H x Hx) end.
  - match goal with H : (length (n_slots n) =? _)%nat = true |- _ => now apply Nat.eqb_eq in H end.
  - intros T. match goal with H : zmem _ _ || nil (n_items n) = true |- _ => apply orb_prop in H; destruct H as [H|H]; [|now apply nil_true];
    exfalso; apply T; now apply zmem_in end.
  - intros T. match goal with H : _ || nil (n_edges n) = true |- _ => apply orb_prop in H; destruct H as [H|H]; [now apply Z.eqb_eq in H|now apply nil_true] end.
  - intros T. match goal with H : _ || nil (n_loops n) = true |- _ => apply orb_prop in H; destruct H as [H|H]; [now apply Z.eqb_eq in H|now apply nil_true] end.
  - intros Q. rewrite Q in *. discriminate.
  - match goal with H : forallb _ (match _ with Some x => x :: _ | None => _ end) = true |- _ => rename H into F end.
    match goal with H : nth 0 (n_slots n) None = Some _, E : nth_error l ?y = Some ?m |- n_form ?m = 1 => rewrite H in F; rewrite forallb_forall in F;
      specialize (F y) end.
    match goal with E : nth_error l ?y = Some ?m |- _ => rewrite E in F end. apply Z.eqb_eq, F. cbn [In].
    match goal with H : _ \/ _ |- _ => destruct H as [H|H] end; [left; congruence|now right].
  - match goal with H : forallb _ (n_edges n) = true |- _ => rewrite forallb_forall in H end.
    match goal with H : forall x, In x (n_edges n) -> _, E : In ?d _ |- _ => specialize (H d E) end. flat. split; [|split]; now apply typedb_ok.
  - intros Q. rewrite Q in *. discriminate.
Qed.

Fixpoint distinct (l : list nat) : bool := match l with [] => true | x :: r => negb (mem x r) && distinct r end.
Lemma distinct_ok l : distinct l = true -> NoDup l.
Proof.
  induction l as [|x l IH]; cbn; [constructor|]. intros H. flat. constructor; [|auto]. apply mem_notin.
  destruct (mem x l); [discriminate|reflexivity].
Qed.

(* f holds of every entity with its place *)
Definition everywhere (l : list node) (f : nat -> node -> bool) : bool :=
  forallb (fun i => match nth_error l i with Some n => f i n | None => true end) (seq 0 (length l)).
Lemma everywhere_ok l f : everywhere l f = true -> forall i n, nth_error l i = Some n -> f i n = true.
Proof.
  unfold everywhere. rewrite forallb_forall. intros H i n E. assert (Hi : (i < length l)%nat) by (apply nth_error_Some; congruence).
  specialize (H i). rewrite E in H. apply H. apply in_seq. lia.
Qed.

Definition soundb (l : list node) : bool :=
  (Z.of_nat (length l) <=? 4999999) &&
  everywhere l (fun i n => distinct (parts n) && fitsb l n &&
    forallb (fun t => match nth_error l t with Some m => negb (n_null m) && negb (mem i (parts m)) | None => false end) (parts n)).
Lemma soundb_ok l : soundb l = true -> sound_plan l.
Proof.
  unfold soundb. intros H. flat. match goal with H : everywhere _ _ = true |- _ => pose proof (everywhere_ok _ _ H) as E end.
  constructor.
  - lia.
  - intros i n t En Ht. specialize (E i n En). cbv beta in E. flat. match goal with H : forallb _ (parts n) = true |- _ => rewrite forallb_forall in H; specialize (H t Ht) end.
    destruct (nth_error l t) as [m|]; [|discriminate]. flat. exists m. split; [reflexivity|]. now destruct (n_null m).
  - intros i n En. specialize (E i n En). cbv beta in E. flat. now apply distinct_ok.
  - intros i n t m En Ht Em. specialize (E i n En). cbv beta in E. flat. match goal with H : forallb _ (parts n) = true |- _ => rewrite forallb_forall in H; specialize (H t Ht) end.
    rewrite Em in *. flat. apply mem_notin. now destruct (mem i (parts m)).
  - intros i n En. specialize (E i n En). cbv beta in E. flat. now apply fitsb_ok.
Qed.

Definition namedb (l : list node) (i : nat) : bool := existsb (fun k => mem i (parts k)) l.
Definition wholeb (l : list node) : bool :=
  everywhere l (fun i n => negb (lacksb n) &&
    impb (zmem (n_type n) [124; 314; 502; 504; 508; 510] || (negb (n_dep n =? 0) && negb (n_type n =? 186))) (namedb l i)).
Lemma namedb_ok l i : namedb l i = true -> named l i.
Proof.
  unfold namedb, named. rewrite existsb_exists. intros (k & Hk & H). apply In_nth_error in Hk. destruct Hk as [r Hr].
  exists r, k. split; [exact Hr|now apply mem_in].
Qed.
Lemma wholeb_ok l : wholeb l = true -> whole l.
Proof.
  intros H i n E. pose proof (everywhere_ok _ _ H i n E) as X. cbv beta in X. flat. split.
  - rewrite lacksb_ok. intros Y. rewrite Y in *. discriminate.
  - intros T. match goal with H : impb _ _ = true |- _ => pose proof (impb_ok _ _ H) as Q end. apply namedb_ok, Q.
    apply orb_true_iff. destruct T as [T|[T1 T2]]; [left; now apply zmem_in|right; lia].
Qed.

Definition bookableb (l : list node) : bool :=
  forallb (fun n => impb (n_null n) (nil (parts n)) && impb (n_type n =? 124) (nil (n_extras n)) && nil (n_loops n)) l.
Lemma bookableb_ok l : bookableb l = true -> bookable l.
Proof.
  unfold bookableb. rewrite forallb_forall. intros H i n E. specialize (H n (nth_error_In _ _ E)). cbv beta in H. flat. split; [|split].
  - intros N. apply nil_true. match goal with H : impb (n_null n) _ = true |- _ => exact (impb_ok _ _ H N) end.
  - intros T. apply nil_true. match goal with H : impb (n_type n =? 124) _ = true |- _ => apply (impb_ok _ _ H); now apply Z.eqb_eq end.
  - now apply nil_true.
Qed.
Definition few_treesb (l : list node) : bool := forallb (fun n => impb (n_type n =? 180) (Nat.leb (length (n_items n)) 1)) l.
Lemma few_treesb_ok l : few_treesb l = true -> few_trees l.
Proof.
  unfold few_treesb. rewrite forallb_forall. intros H i n E T. specialize (H n (nth_error_In _ _ E)). cbv beta in H.
  apply Z.eqb_eq in T. pose proof (impb_ok _ _ H T). lia.
Qed.

(* what the file of a plan without edges says, the numbers that are no pointers aside *)
Definition said (l : list node) (n : node) (des : list Z) (idx : list (Z * Z)) : wants :=
  mkWants (n_type n) (n_form n) (n_dep n) (n_points n)
    (map (fun k => match nth k (n_des n) None with Some x => if signed k then - number x else number x | None => nth k des 0 end) (seq 0 7))
    (map number (n_extras n)) (map (fun o => match o with Some x => number x | None => 0 end) (n_slots n))
    (map number (n_items n))
    (map (fun p => (number (ed_curve (fst p)), (number (ed_start (fst p)), fst (snd p)), (number (ed_stop (fst p)), snd (snd p))))
       (combine (n_edges n) idx))
    (map (fun p => (number (fst p), map number (snd p))) (n_loops n)).
Definition index_in (l : list node) (v : nat) (s : Z) : bool :=
  match nth_error l v with Some m => (1 <=? s) && (s <=? Z.of_nat (n_points m)) | None => true end.
Definition saysb (l : list node) (n : node) (des : list Z) (idx : list (Z * Z)) : bool :=
  negb (n_null n) && zmem (n_type n) known && Nat.eqb (length (n_des n)) 7 &&
  forallb (fun k => if signed k then 0 <=? nth k des 0 else nth k des 0 <=? 0) (seq 0 7) &&
  Nat.eqb (length idx) (length (n_edges n)) &&
  forallb (fun p => index_in l (ed_start (fst p)) (fst (snd p)) && index_in l (ed_stop (fst p)) (snd (snd p))) (combine (n_edges n) idx).
Lemma index_in_ok l v s : index_in l v s = true -> forall m, nth_error l v = Some m -> 1 <= s <= Z.of_nat (n_points m).
Proof. unfold index_in. intros H m E. rewrite E in H. lia. Qed.
Lemma says_ok l n des idx : saysb l n des idx = true -> says l n (said l n des idx).
Proof.
  unfold saysb. intros H. flat. constructor; unfold said; cbn [q_type q_form q_dep q_points q_des q_extras q_slots q_items q_edges q_loops]; auto.
  - match goal with H : zmem _ _ = true |- _ => rewrite H end. split; [now destruct (n_null n)|reflexivity].
  - split; [now rewrite map_length, seq_length|]. split; [lia|]. intros k v E.
    rewrite nth_error_map in E. destruct (nth_error (seq 0 7) k) as [j|] eqn:Q; [|discriminate]. cbn in E. injection E as <-.
    assert (Hk : (k < 7)%nat) by (change 7%nat with (length (seq 0 7)); apply nth_error_Some; congruence).
    assert (j = k) as ->. { apply (nth_error_nth _ _ 0%nat) in Q. rewrite seq_nth in Q by exact Hk. now rewrite <- Q. }
    destruct (nth k (n_des n) None); [reflexivity|]. match goal with H : forallb _ (seq 0 7) = true |- _ => rewrite forallb_forall in H; specialize (H k) end.
    assert (In k (seq 0 7)) by (apply in_seq; lia). destruct (signed k); intuition lia.
  - match goal with H : (length idx =? _)%nat = true |- _ => apply Nat.eqb_eq in H; rename H into L end.
    match goal with H : forallb _ (combine _ _) = true |- _ => rename H into F end. revert idx L F. generalize (n_edges n). intros ds.
    induction ds as [|d ds IH]; intros [|[s t] idx] L F; cbn in L; try discriminate; cbn; constructor.
    + cbn in F. flat. exists s, t. split; [reflexivity|]. split; intros m; now apply index_in_ok.
    + apply IH; [lia|]. cbn in F. now flat.
Qed.
