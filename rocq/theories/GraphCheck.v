(* Deciding whether a history is tidy, for the concrete cases. *)
From Coq Require Import List Bool ZArith Lia ZifyBool ZifyNat.
From Verif Require Import GraphModel GraphSpec GraphFacts GraphOps GraphEdge GraphDel GraphProps GraphProps2 GraphCull.
Import ListNotations.
Open Scope Z_scope.

(* P holds of every live entity *)
Definition every (g : graph) (P : nat -> node -> bool) : bool :=
  forallb (fun i => match look g i with Some n => P i n | None => true end) (seq 0 (g_next g)).
Lemma every_ok g P : ginv zero g -> every g P = true -> forall i n, look g i = Some n -> P i n = true.
Proof.
  intros G H i n E. unfold every in H. rewrite forallb_forall in H.
  destruct (le_lt_dec (g_next g) i) as [L|L]; [rewrite (g_fresh _ _ G i L) in E; discriminate|].
  specialize (H i). rewrite E in H. apply H. apply in_seq. lia.
Qed.

Definition liveb (g : graph) (e : nat) : bool := match look g e with Some _ => true | None => false end.
Lemma liveb_ok g e : liveb g e = true -> live g e.
Proof. unfold liveb, live. destruct (look g e); [eauto|discriminate]. Qed.

Definition one_of (e : nat) (l : list nat) : bool := match l with [x] => Nat.eqb x e | _ => false end.
Definition may_dieb (g : graph) (e : nat) : bool :=
  every g (fun r m =>
    (Nat.eqb r e || negb (n_type m =? 180) || negb (mem e (n_items m)) || one_of e (n_items m)) &&
    forallb (fun d => negb (Nat.eqb e (ed_start d)) && negb (Nat.eqb e (ed_stop d))) (n_edges m)).
Lemma may_dieb_ok g e : ginv zero g -> may_dieb g e = true -> may_die g e.
Proof.
  intros G H. pose proof (every_ok _ _ G H) as K. split.
  - intros r m Hr E T M. specialize (K r m E). cbv beta in K. apply andb_prop in K. destruct K as [K _].
    apply Nat.eqb_neq in Hr. apply mem_in in M. rewrite Hr, T, M in K. cbn in K.
    destruct (n_items m) as [|x [|y l]]; try discriminate. cbn in K. apply Nat.eqb_eq in K. now subst.
  - intros r m d E D. specialize (K r m E). cbv beta in K. apply andb_prop in K. destruct K as [_ K].
    rewrite forallb_forall in K. specialize (K d D). lia.
Qed.

Definition fewb (g : graph) : bool := every g (fun _ m => negb (n_type m =? 180) || Nat.leb (length (n_items m)) 1).
Lemma fewb_ok g : ginv zero g -> fewb g = true -> few g.
Proof.
  intros G H r m E T. pose proof (every_ok _ _ G H r m E) as K. cbv beta in K. rewrite T in K. cbn in K. lia.
Qed.

Definition haspointb (g : graph) (v : nat) : bool :=
  match look g v with Some k => negb (Nat.eqb (n_points k) 0) | None => true end.
Definition pinnedb (g : graph) : bool :=
  every g (fun _ m => forallb (fun d => haspointb g (ed_start d) && haspointb g (ed_stop d)) (n_edges m)).
Lemma pinnedb_ok g : ginv zero g -> pinnedb g = true -> pinned g.
Proof.
  intros G H r v k (m & d & E & D & U) K. pose proof (every_ok _ _ G H r m E) as X. cbv beta in X.
  rewrite forallb_forall in X. specialize (X d D). apply andb_prop in X. destruct X as [X1 X2].
  unfold haspointb in *. destruct U; subst v; rewrite K in *; lia.
Qed.

Fixpoint beforeb (r v : nat) (l : list nat) : bool :=
  match l with
  | [] => true
  | x :: rest => if Nat.eqb x v then false else if Nat.eqb x r then true else beforeb r v rest
  end.
Lemma beforeb_ok r v l : beforeb r v l = true -> In v l -> exists l1 l2, l = l1 ++ v :: l2 /\ In r l1.
Proof.
  induction l as [|x l IH]; cbn [beforeb In]; [tauto|]. intros H Hv.
  destruct (Nat.eqb x v) eqn:Q; [discriminate|]. apply Nat.eqb_neq in Q.
  destruct Hv as [->|Hv]; [contradiction|].
  destruct (Nat.eqb x r) eqn:Q2.
  - apply Nat.eqb_eq in Q2. subst x. apply in_split in Hv. destruct Hv as (l1 & l2 & ->).
    exists (r :: l1), l2. split; [reflexivity|now left].
  - destruct (IH H Hv) as (l1 & l2 & -> & I). exists (x :: l1), l2. split; [reflexivity|now right].
Qed.
Definition edges_firstb (g : graph) : bool :=
  every g (fun r m => forallb (fun d => beforeb r (ed_start d) (g_ents g) && beforeb r (ed_stop d) (g_ents g)) (n_edges m)).
Lemma edges_firstb_ok g : ginv zero g -> edges_firstb g = true -> edges_first g.
Proof.
  intros G H r v (m & d & E & D & U) I. pose proof (every_ok _ _ G H r m E) as X. cbv beta in X.
  rewrite forallb_forall in X. specialize (X d D). apply andb_prop in X. destruct X as [X1 X2].
  destruct U; subst v; now apply beforeb_ok.
Qed.

Definition holderb (g : graph) (e : nat) : bool :=
  match look g e with Some n => negb (n_null n) && negb (n_type n =? 124) | None => false end.
Definition typeb (g : graph) (x : nat) (l : list Z) : bool :=
  match look g x with Some m => negb (zmem (n_type m) l) | None => false end.
Definition optb (g : graph) (x : option nat) : bool := match x with Some c => liveb g c | None => true end.
Definition not122b (g : graph) (e : nat) : bool :=
  match look g e with Some n => negb (negb (n_null n) && (n_type n =? 122)) | None => true end.

Definition tidyb (g : graph) (o : op) : bool :=
  match o with
  | ONew _ | OMake _ | OUnlink _ => true
  | OAdd e => liveb g e
  | ODel e => may_dieb g e
  | OFree e => liveb g e && negb (mem e (g_ents g)) && may_dieb g e
  | OCull _ => fewb g && pinnedb g
  | OClear => fewb g && edges_firstb g
  | OSetDe e _ x => liveb g e && optb g x
  | OSetDeNum e _ _ | ODepend e _ | OAddVertex e => liveb g e
  | OAddOptional e x => holderb g e && negb (Nat.eqb e x) && typeb g x [402]
  | ODelOptional e x => liveb g e && typeb g x [402; 212; 312]
  | OSetSlot e _ x _ => liveb g e && optb g x && (match x with None => not122b g e | _ => true end)
  | OAddSegment e x _ | OAddItem e x => liveb g e && liveb g x
  | OAddEdge e x sv _ tv _ => liveb g e && liveb g x && liveb g sv && liveb g tv
  | ODelItem _ _ | OSetSurface _ _ | OAddBound _ _ | OAddLoopEdge _ _ _ => false
  end.

Lemma typeb_ok g x l : typeb g x l = true -> exists m, look g x = Some m /\ ~ In (n_type m) l.
Proof.
  unfold typeb. destruct (look g x) as [m|]; [|discriminate]. intros H. exists m. split; [reflexivity|].
  rewrite <- zmem_in. destruct (zmem _ _); discriminate.
Qed.
Lemma optb_ok g x : optb g x = true -> forall c, x = Some c -> live g c.
Proof. intros H c ->. now apply liveb_ok. Qed.

Lemma tidyb_ok g o : ginv zero g -> tidyb g o = true -> tidy g o.
Proof.
  intros G H. destruct o; cbn [tidyb tidy] in *; try exact Logic.I; try discriminate;
    repeat match goal with X : _ && _ = true |- _ => apply andb_prop in X; destruct X end;
    auto using liveb_ok, may_dieb_ok, fewb_ok, pinnedb_ok, edges_firstb_ok.
  - split; [now apply liveb_ok|]. split; [|now apply may_dieb_ok]. rewrite <- mem_in. destruct (mem _ _); discriminate.
  - split; [now apply liveb_ok|]. now apply optb_ok.
  - unfold holderb in H. destruct (look g e) as [n|] eqn:E; [|discriminate]. apply andb_prop in H. destruct H as [X Y].
    split; [exists n; split; [reflexivity|]; split; lia|]. split; [lia|].
    destruct (typeb_ok _ _ _ H0) as (m & Hm & N). exists m. split; [exact Hm|]. cbn in N. intuition lia.
  - split; [now apply liveb_ok|]. now apply typeb_ok.
  - split; [now apply liveb_ok|]. split; [now apply optb_ok|]. intros ->. intros (n & E & N1 & N2).
    unfold not122b in H0. rewrite E, N1, N2 in H0. discriminate.
Qed.

Fixpoint tidy_runb (l : list op) (g : graph) : bool :=
  match l with
  | [] => true
  | o :: rest => tidyb g o && match run o g with Some (_, g1) => tidy_runb rest g1 | None => true end
  end.
Lemma tidy_runb_ok l : forall g, inv g -> tidy_runb l g = true -> tidy_run l g.
Proof.
  induction l as [|o l IH]; intros g I H; cbn [tidy_run tidy_runb] in *; [exact Logic.I|].
  apply andb_prop in H. destruct H as [H1 H2]. pose proof I as (G & _). apply tidyb_ok in H1; [|exact G].
  split; [exact H1|]. intros b g1 R. rewrite R in H2. apply IH; [|exact H2].
  destruct (run_ok g o I H1) as (b' & h & R' & Ih). rewrite R in R'. injection R' as -> ->. exact Ih.
Qed.
Lemma tidy_case l : tidy_runb l empty_graph = true -> tidy_run l empty_graph.
Proof. apply tidy_runb_ok, inv_empty. Qed.
