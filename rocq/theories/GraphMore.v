(* The claims about setters and deletion, for every state a tidy history leads to;
   and the operations that break the books. *)
From Coq Require Import List Bool ZArith Lia ZifyBool ZifyNat.
From Verif Require Import GraphModel GraphSpec GraphFacts GraphOps GraphEdge GraphDel GraphProps GraphRead GraphProps2 GraphEffect GraphCull GraphCheck.
Import ListNotations.
Open Scope Z_scope.

Lemma takes_basic n k : takes n k <-> (0 < k)%nat /\ setter n k = Basic.
Proof.
  unfold takes, setter. cbv zeta. destruct (n_null n); [split; intros H; [|destruct H]; intuition discriminate|].
  destruct (n_type n =? 124) eqn:T1.
  { apply Z.eqb_eq in T1. rewrite T1. destruct (Nat.eqb k 4) eqn:Q; [apply Nat.eqb_eq in Q|apply Nat.eqb_neq in Q];
      [|split; [intros (_ & _ & _ & X & _); elim Q; now apply X|intros [_ X]; discriminate]].
    subst k. split; [intros _; split; [lia|reflexivity]|]. intros _. repeat split; try lia; intros X; exfalso; cbn in X; intuition discriminate. }
  destruct (n_type n =? 314) eqn:T2; [apply Z.eqb_eq in T2; rewrite T2; intuition discriminate|].
  destruct (n_type n =? 406) eqn:T3.
  { apply Z.eqb_eq in T3. rewrite T3. destruct (Nat.eqb k 2) eqn:Q; [apply Nat.eqb_eq in Q|apply Nat.eqb_neq in Q];
      [|split; [intros (_ & _ & _ & _ & X & _); elim Q; now apply X|intros [_ X]; discriminate]].
    subst k. split; [intros _; split; [lia|reflexivity]|]. intros _. repeat split; try lia; intros X; exfalso; cbn in X; intuition discriminate. }
  apply Z.eqb_neq in T1, T2, T3.
  destruct (zmem (n_type n) [502; 504; 510; 514]) eqn:T4.
  { pose proof T4 as T4'. apply zmem_in in T4'. destruct (mem k [1; 3; 4; 6]%nat) eqn:Q.
    - apply mem_in in Q. split; [|intuition discriminate]. intros (_ & _ & _ & _ & _ & X & _). exfalso. exact (X T4' Q).
    - split; [intuition congruence|]. intros [H _]. apply mem_notin in Q.
      assert (n_type n <> 508) by (intros X; rewrite X in T4; discriminate). intuition congruence. }
  assert (N4 : ~ In (n_type n) [502; 504; 510; 514]) by (rewrite <- zmem_in; congruence).
  destruct (n_type n =? 508) eqn:T5.
  { apply Z.eqb_eq in T5. destruct (mem k [3; 4]%nat) eqn:Q.
    - apply mem_in in Q. split; [|intuition discriminate]. intros (_ & _ & _ & _ & _ & _ & X). exfalso. exact (X T5 Q).
    - apply mem_notin in Q. intuition congruence. }
  apply Z.eqb_neq in T5. intuition congruence.
Qed.

Lemma de_claim g e k x n : reached g -> look g e = Some n -> (forall c, x = Some c -> live g c) ->
  exists b h, run (OSetDe e k x) g = Some (b, h) /\
    (takes n k -> only e (des_to k (if b then x else None)) g h) /\ (~ takes n k -> h = g).
Proof.
  intros R E L. apply reached_inv in R as I. destruct (run_ok g (OSetDe e k x) I) as (b & h & H & _).
  { split; [now exists n|exact L]. }
  exists b, h. split; [exact H|]. pose proof I as (G & _). cbn [run] in H. split.
  - intros T. apply takes_basic in T. destruct T as [T1 T2]. eapply SetDe_effect; eauto.
  - intros T. unfold SetDe in H. rewrite E in H. destruct k as [|k]; [now injection H as <- <-|].
    assert (N : setter n (S k) <> Basic) by (intros Q; apply T, takes_basic; split; [lia|exact Q]).
    destruct (setter n (S k)) eqn:Q; [| |congruence];
      destruct k as [|[|[|[|k]]]]; rewrite ?Q in H; now injection H as <- <-.
Qed.

Lemma transform_claim g e c n m b h : reached g -> look g e = Some n -> takes n 4 -> look g c = Some m ->
  run (OSetDe e 4 (Some c)) g = Some (b, h) ->
  b = true <-> n_type m = 124 /\ n_null m = false /\ c <> e /\ nth 4 (n_des m) None <> Some e /\ ~ holds (des_to 4 None n) c.
Proof.
  intros R E T F H. apply reached_inv in R. apply takes_basic in T. destruct T as [_ T]. eapply transform_accepted; eauto.
Qed.

Lemma number_claim g e k v n : reached g -> look g e = Some n -> takes n k -> In k [1; 2; 6]%nat ->
  exists h, run (OSetDeNum e k v) g = Some (v, h) /\ only e (des_to k None) g h.
Proof.
  intros R E T K. apply reached_inv in R as I. destruct (run_ok g (OSetDeNum e k v) I) as (b & h & H & _); [now exists n|].
  pose proof I as (G & _). apply takes_basic in T. destruct T as [_ T]. cbn [run] in *.
  destruct (SetDeNum_effect g e k n v b h G E T K H) as [-> O]. eauto.
Qed.

Lemma delete_claim g e : reached g -> In e (g_ents g) -> may_die g e ->
  exists h, run (ODel e) g = Some (true, h) /\ ~ live h e /\ g_ents h = rem1 e (g_ents g) /\
    forall c n, c <> e -> look g c = Some n -> exists m, look h c = Some m /\
      (~ holds n e -> alike n m) /\
      (forall t, holds m t -> holds n t /\ t <> e) /\
      (~ costly n e -> forall t, holds n t -> t <> e -> holds m t).
Proof. intros R. apply delete_effect. now apply reached_inv. Qed.

Lemma optional_claim g e x : reached g -> tidy g (OAddOptional e x) ->
  exists b h, run (OAddOptional e x) g = Some (b, h) /\
    only e (fun n => w_extras (n_extras n ++ if b then [x] else []) n) g h.
Proof.
  intros R T. apply reached_inv in R as I. destruct (run_ok g _ I T) as (b & h & H & _). exists b, h. split; [exact H|].
  eapply AddOptional_effect; [exact H|]. destruct T as ((n & E & _) & _). now exists n.
Qed.

Lemma part_claim g e k x cl : reached g -> tidy g (OSetSlot e k x cl) ->
  exists b h, run (OSetSlot e k x cl) g = Some (b, h) /\
    (if b then only e (slot_to k x) g h else h = g \/ only e (slot_to k None) g h).
Proof.
  intros R T. apply reached_inv in R as I. destruct (run_ok g _ I T) as (b & h & H & _). exists b, h. split; [exact H|].
  destruct T as ((n & E) & L & _). pose proof I as (G & _). eapply SetSlot_effect; eauto.
Qed.

Lemma member_claim g e x n : reached g -> look g e = Some n -> live g x ->
  exists b h, run (OAddItem e x) g = Some (b, h) /\
    (if b then only e (fun p => w_items (n_items p ++ [x]) p) g h \/ (In x (n_items n) /\ keep g h) else keep g h).
Proof.
  intros R E L. apply reached_inv in R as I. destruct (run_ok g (OAddItem e x) I) as (b & h & H & _); [split; [now exists n|exact L]|].
  exists b, h. split; [exact H|]. eapply AddItem_effect; eauto.
Qed.

Lemma add_segment_claim g c x cl n : reached g -> look g c = Some n -> live g x ->
  exists b h, run (OAddSegment c x cl) g = Some (b, h) /\
    (if b then (~ holds n x /\ only c (fun p => w_items (n_items p ++ [x]) p) g h) \/ (holds n x /\ keep g h)
     else keep g h).
Proof.
  intros R E L. apply reached_inv in R as I. destruct (run_ok g (OAddSegment c x cl) I) as (b & h & H & _); [split; [now exists n|exact L]|].
  exists b, h. split; [exact H|]. eapply AddSegment_effect; eauto.
Qed.

Lemma segments_claim g c n : reached g -> look g c = Some n -> n_null n = false -> n_type n = 102 ->
  NoDup (n_items n) /\ ~ In c (n_items n) /\
  (forall x, In x (n_items n) -> exists m, look g x = Some m /\ n_null m = false /\
     In (n_type m) [100; 104; 110; 126] /\ In c (n_refs m)).
Proof. intros R. apply segments_ok. now apply reached_inv. Qed.

Lemma books_claim g0 l : g0 = empty_graph \/ read_in g0 -> tidy_run l g0 -> exists g, runs l g0 = Some g /\ consistent g.
Proof.
  intros S T. assert (I0 : inv g0) by (destruct S as [->|S]; [exact inv_empty|now apply inv_read]).
  destruct (runs_ok l g0 I0 T) as (g & H & I). exists g. split; [exact H|]. now apply inv_consistent.
Qed.

Lemma clear_claim g : reached g -> few g -> edges_first g ->
  exists h, run OClear g = Some (true, h) /\ consistent h /\ g_ents h = [] /\
    (forall e, live h e <-> live g e /\ ~ In e (g_ents g)).
Proof.
  intros R F P. apply reached_inv in R. destruct (Clear_ok g R F P) as (h & H & Ih & En & L). exists h. cbn [run].
  rewrite H. split; [reflexivity|]. split; [now apply inv_consistent|]. auto.
Qed.

(* ---- removing a member of a subfigure or an inner boundary ---- *)
Lemma member_removed g e x n : reached g -> look g e = Some n -> n_null n = false -> In (n_type n) [144; 308] ->
  In x (n_items n) ->
  exists h, run (ODelItem e x) g = Some (true, h) /\ ~ points h e x /\ lists h x e /\ ~ consistent h.
Proof.
  intros R E N T X. apply reached_inv in R as I. pose proof I as (G & C & _). cbn [run]. unfold DelItem. rewrite E.
  assert (A : (is_a 144 n || is_a 308 n) && mem x (n_items n) = true).
  { apply mem_in in X. rewrite X, andb_true_r. unfold is_a. rewrite N. cbn [negb andb].
    destruct T as [T|[T|[]]]; rewrite <- T; reflexivity. }
  rewrite A. set (h := put g e _). exists h. split; [reflexivity|].
  assert (Np : ~ points h e x).
  { intros (m & Hm & Hh). unfold h in Hm. rewrite look_put_eq in Hm. injection Hm as <-.
    pose proof (g_one _ _ G e x) as O. rewrite (ct_look _ _ _ _ E), cnt_tgt_eq in O. apply cnt_in in X.
    pose proof (g_shape _ _ G _ _ E) as Sh. destruct (sh_vert _ _ _ Sh) as [V1 V2].
    { destruct T as [T|[T|[]]]; rewrite <- T; discriminate. }
    unfold holds in Hh. cbn [n_des n_extras n_slots n_items n_edges n_loops w_items] in Hh.
    rewrite V1, (sh_loops _ _ _ Sh) in Hh. rewrite <- !ptrs_in, !cnt_in, cnt_rem1, Nat.eqb_refl in Hh.
    destruct Hh as [Hh|[Hh|[Hh|[Hh|[(d & [] & _)|(p & [] & _)]]]]]; lia. }
  assert (Lx : lists h x e).
  { destruct (link_listed g e x n G E (in_tgt_items _ _ X)) as (m & Hm & Hr). unfold lists, h.
    destruct (Nat.eq_dec x e) as [->|Q].
    - rewrite look_put_eq. rewrite E in Hm. injection Hm as <-. eexists. split; [reflexivity|exact Hr].
    - rewrite look_put_ne by auto. exists m. auto. }
  split; [exact Np|]. split; [exact Lx|]. intros (_ & Q & _). apply Np. now apply (Q x e).
Qed.

(* ---- faces ---- *)
Lemma adopt_look g e x h i n : adopt g e x = Some h -> look g i = Some n ->
  exists m, look h i = Some m /\ alike n m /\ n_refs m = n_refs n.
Proof.
  unfold adopt, AddEntity. destruct (look g e); [|discriminate]. destruct (look g x) as [m|] eqn:E; [|discriminate].
  intros H E1. assert (K : alike n n) by (repeat split).
  destruct (_ && _); [|injection H as <-; exists n; auto].
  destruct (mem _ _); cbn [option_map snd] in H; injection H as <-; [exists n; auto|].
  change (look (with_ents (put g x (w_own true m)) (g_ents g ++ [x])) i) with (look (put g x (w_own true m)) i).
  rewrite look_put. destruct (Nat.eqb i x) eqn:Q; [|exists n; auto].
  apply Nat.eqb_eq in Q. subst i. rewrite E in E1. injection E1 as <-. eexists. split; [reflexivity|]. repeat split.
Qed.

Lemma face_surface g e x n : reached g -> look g e = Some n -> n_null n = false -> n_type n = 510 -> live g x -> x <> e ->
  ~ points g e x ->
  exists h, run (OSetSurface e x) g = Some (true, h) /\ points h e x /\ ~ lists h x e /\ ~ consistent h.
Proof.
  intros R E N T [m F] Hx NP. apply reached_inv in R as I. pose proof I as (G & C & _). cbn [run]. unfold SetSurface. rewrite E, F.
  unfold is_a. rewrite N, T. cbn [negb andb Z.eqb Pos.eqb]. set (g1 := put g e _).
  destruct (adopt g1 e x) as [h|] eqn:A.
  2:{ exfalso. revert A. unfold adopt, AddEntity, g1. rewrite look_put_eq, look_put_ne, F by auto.
      destruct (_ && _); [|discriminate]. destruct (mem _ _); discriminate. }
  cbn [option_map]. exists h. split; [reflexivity|].
  destruct (adopt_look g1 e x h e _ A (look_put_eq _ _ _)) as (n1 & E1 & A1 & _).
  assert (F1 : look g1 x = Some m) by (unfold g1; now rewrite look_put_ne).
  destruct (adopt_look g1 e x h x m A F1) as (m1 & Fx & _ & Rx).
  assert (P : points h e x).
  { exists n1. split; [exact E1|]. unfold holds. destruct A1 as (_ & _ & _ & _ & _ & _ & a7 & _). rewrite a7. right. right. left. now left. }
  assert (NL : ~ lists h x e).
  { intros (q & Hq & Hr). rewrite Fx in Hq. injection Hq as <-. rewrite Rx in Hr.
    destruct (link_pointed g x e m G F Hr) as (n' & En & Ht). rewrite E in En. injection En as <-.
    apply NP. exists n. split; [exact E|]. now apply (holds_tgt g e n x G C E). }
  split; [exact P|]. split; [exact NL|]. intros (Q & _). apply NL. now apply (Q e x).
Qed.

Lemma face_bound g e x n m : reached g -> look g e = Some n -> n_null n = false -> n_type n = 510 ->
  look g x = Some m -> n_null m = false -> n_type m = 508 -> ~ points g e x ->
  exists h, run (OAddBound e x) g = Some (true, h) /\ points h e x /\ ~ lists h x e /\ ~ consistent h.
Proof.
  intros R E N T F Nm Tm NP. apply reached_inv in R as I. pose proof I as (G & C & _). cbn [run]. unfold AddBound. rewrite E, F.
  assert (Hx : x <> e) by (intros ->; congruence).
  unfold is_a. rewrite N, T, Nm, Tm. cbn [negb andb Z.eqb Pos.eqb]. set (g1 := put g e _).
  destruct (adopt g1 e x) as [h|] eqn:A.
  2:{ exfalso. revert A. unfold adopt, AddEntity, g1. rewrite look_put_eq, look_put_ne, F by auto.
      destruct (_ && _); [|discriminate]. destruct (mem _ _); discriminate. }
  cbn [option_map]. exists h. split; [reflexivity|].
  destruct (adopt_look g1 e x h e _ A (look_put_eq _ _ _)) as (n1 & E1 & A1 & _).
  assert (F1 : look g1 x = Some m) by (unfold g1; now rewrite look_put_ne).
  destruct (adopt_look g1 e x h x m A F1) as (m1 & Fx & _ & Rx).
  assert (P : points h e x).
  { exists n1. split; [exact E1|]. unfold holds. destruct A1 as (_ & _ & _ & _ & _ & _ & _ & a8 & _). rewrite a8. right. right. right. left.
    cbn [n_items w_items]. apply in_app_iff. right. now left. }
  assert (NL : ~ lists h x e).
  { intros (q & Hq & Hr). rewrite Fx in Hq. injection Hq as <-. rewrite Rx in Hr.
    destruct (link_pointed g x e m G F Hr) as (n' & En & Ht). rewrite E in En. injection En as <-.
    apply NP. exists n. split; [exact E|]. now apply (holds_tgt g e n x G C E). }
  split; [exact P|]. split; [exact NL|]. intros (Q & _). apply NL. now apply (Q e x).
Qed.

(* ---- deleting a vertex list an edge list uses ---- *)

Definition steadfast (v : nat) (n m : node) : Prop :=
  n_type m = n_type n /\ n_null m = n_null n /\ n_des m = n_des n /\ n_verts m = n_verts n /\ incl (n_extras m) (n_extras n).
Definition stays (r : nat) (g h : graph) : Prop :=
  forall n, look g r = Some n -> exists m, look h r = Some m /\ steadfast r n m.
Lemma steadfast_refl v n : steadfast v n n.
Proof. repeat split; auto using incl_refl. Qed.
Lemma stays_refl r g : stays r g g.
Proof. intros n E. exists n. split; [exact E|repeat split; apply incl_refl]. Qed.
Lemma stays_trans r g h k : stays r g h -> stays r h k -> stays r g k.
Proof.
  intros A B n E. destruct (A n E) as (m & Hm & a1 & a2 & a3 & a4 & a5). destruct (B m Hm) as (p & Hp & b1 & b2 & b3 & b4 & b5).
  exists p. split; [exact Hp|]. repeat split; try congruence. eapply incl_tran; eauto.
Qed.
Lemma stays_put r g i n m : look g i = Some n -> steadfast r n m -> stays r g (put g i m).
Proof.
  intros E S p Hp. rewrite look_put. destruct (Nat.eqb r i) eqn:Q.
  - apply Nat.eqb_eq in Q. subst i. rewrite E in Hp. injection Hp as <-. eauto.
  - exists p. split; [exact Hp|apply steadfast_refl].
Qed.
Lemma stays_other r g i m : r <> i -> stays r g (put g i m).
Proof. intros H p Hp. rewrite look_put_ne by exact H. exists p. split; [exact Hp|apply steadfast_refl]. Qed.

Lemma delReference_stays r g c p b h : delReference g c p = Some (b, h) -> stays r g h.
Proof.
  unfold delReference. destruct (look g c) as [n|] eqn:E; [|discriminate].
  destruct (n_null n); [intros [= _ <-]; apply stays_refl|].
  destruct (mem p (n_refs n)).
  { intros [= _ <-]. apply (stays_put r g c n); [exact E|repeat split; apply incl_refl]. }
  destruct (n_extras n) as [|x rest] eqn:X; [intros [= _ <-]; apply stays_refl|].
  destruct (Nat.eqb x p); [|discriminate]. destruct (look g p) as [m|] eqn:F; [|discriminate]. cbv zeta.
  assert (Go : forall g1, stays r g g1 -> match look g1 c with
     | Some n1 => Some (true, put g1 c (w_extras (tl (n_extras n1)) n1)) | None => None end = Some (b, h) -> stays r g h).
  { intros g1 S. destruct (look g1 c) as [n1|] eqn:E1; [|discriminate]. intros [= _ <-].
    eapply stays_trans; [exact S|]. apply (stays_put r g1 c n1); [exact E1|].
    repeat split. cbn [n_extras w_extras]. intros y Hy. destruct (n_extras n1); [exact Hy|now right]. }
  destruct (_ || _); [apply Go, stays_refl|]. destruct (mem c (n_refs m)).
  - apply Go. apply (stays_put r g p m); [exact F|repeat split; apply incl_refl].
  - destruct (n_extras m); [apply Go, stays_refl|discriminate].
Qed.
Lemma drop_refs_stays r e l : forall g h, drop_refs g e l = Some h -> stays r g h.
Proof.
  induction l as [|x l IH]; intros g h; cbn [drop_refs]; [intros [= <-]; apply stays_refl|].
  destruct (delReference g x e) as [[b g1]|] eqn:D; [|discriminate]. intros H.
  eapply stays_trans; [eapply delReference_stays; eauto|eapply IH; eauto].
Qed.
Lemma delVertexList_stays r g a v b h : r <> a -> delVertexList g a v = Some (b, h) -> stays r g h.
Proof.
  intros N. unfold delVertexList. destruct (look g a) as [n|]; [|discriminate].
  destruct (find _ _) as [[w c]|]; [|intros [= _ <-]; apply stays_refl].
  destruct (Nat.eqb c 1).
  - destruct (delReference g v a) as [[b1 g1]|] eqn:D; cbn [option_map snd]; [|discriminate].
    destruct (look g1 a); [|discriminate]. intros [= _ <-]. eapply stays_trans; [eapply delReference_stays; eauto|now apply stays_other].
  - destruct (look g a); [|discriminate]. intros [= _ <-]. now apply stays_other.
Qed.
Lemma unlink_stays r g a e te b h : r <> a -> unlink g a e te = Some (b, h) -> stays r g h.
Proof.
  intros N. unfold unlink. destruct (look g a) as [n|] eqn:E; [|discriminate].
  assert (Put : forall m b1, Some (b1, put g a m) = Some (b, h) -> stays r g h) by (intros m b1 [= _ <-]; now apply stays_other).
  assert (No : forall b1, Some (b1, g) = Some (b, h) -> stays r g h) by (intros b1 [= _ <-]; apply stays_refl).
  destruct (n_null n); [apply No|].
  destruct (n_type n =? 124).
  { destruct (nth 4 (n_des n) None); [|apply No]. destruct (_ && _); [apply Put|apply No]. }
  destruct (mem e (ptrs (n_des n))); [apply Put|]. destruct (mem e (n_extras n)); [apply Put|].
  destruct (n_type n =? 102).
  { unfold unlink102. destruct (mem e (n_items n)); [|apply No]. destruct (ends e (n_items n)); [apply Put|].
    destruct (drop_refs _ _ _) as [g1|] eqn:D; cbn [option_map]; [|discriminate]. intros [= _ <-].
    eapply stays_trans; [|eapply drop_refs_stays; exact D]. now apply stays_other. }
  destruct (n_type n =? 180); [destruct (mem e (n_items n)); [apply Put|apply No]|].
  destruct (n_type n =? 504).
  { unfold unlink504. destruct (te =? 502); [destruct (mem e _); [discriminate|apply No]|].
    destruct (find _ _) as [d|]; [|apply No]. unfold and_then.
    destruct (delVertexList g a (ed_start d)) as [[b1 g1]|] eqn:D1; [|discriminate].
    destruct (delVertexList g1 a (ed_stop d)) as [[b2 g2]|] eqn:D2; [|discriminate].
    destruct (look g2 a); [|discriminate]. intros [= _ <-].
    eapply stays_trans; [eapply delVertexList_stays; eauto|]. eapply stays_trans; [eapply delVertexList_stays; eauto|now apply stays_other]. }
  destruct (n_type n =? 508).
  { unfold unlink508. destruct (zmem _ _); [destruct (mem e _); [discriminate|apply No]|].
    destruct (mem e _); [discriminate|apply No]. }
  destruct (mem e (ptrs (n_slots n))); [apply Put|]. destruct (mem e (n_items n)); [apply Put|apply No].
Qed.

(* the edge list r has e among its vertex lists *)
Lemma unlink_all_stuck r e l : forall g n, NoDup l -> In r l -> look g r = Some n -> n_null n = false -> n_type n = 504 ->
  In e (map fst (n_verts n)) -> ~ In e (ptrs (n_des n)) -> ~ In e (n_extras n) -> unlink_all g l e 502 = None.
Proof.
  induction l as [|a l IH]; intros g n Nd Hr E N T V N1 N2; [destruct Hr|]. cbn [unlink_all].
  apply NoDup_cons_iff in Nd. destruct Nd as [Na Nd].
  destruct (Nat.eq_dec a r) as [->|Q].
  - unfold unlink. rewrite E, N, T. cbn [Z.eqb Pos.eqb]. apply mem_notin in N1, N2. rewrite N1, N2.
    unfold unlink504. cbn [Z.eqb Pos.eqb]. apply mem_in in V. now rewrite V.
  - destruct Hr as [->|Hr]; [congruence|].
    destruct (unlink g a e 502) as [[b g1]|] eqn:U; [|reflexivity].
    destruct (unlink_stays r g a e 502 b g1 (not_eq_sym Q) U n E) as (m & Hm & a1 & a2 & a3 & a4 & a5).
    apply (IH g1 m); try assumption; try congruence.
    intros X. apply N2. now apply a5.
Qed.

Lemma vertex_list_stuck g r v : reached g -> edge_uses g r v -> destroy g v = None.
Proof.
  intros R (n & d & E & D & U). apply reached_inv in R as I. pose proof I as (G & C & _).
  pose proof (g_shape _ _ G _ _ E) as Sh.
  assert (T : n_type n = 504).
  { destruct (Z.eq_dec (n_type n) 504) as [Q|Q]; [exact Q|]. destruct (sh_vert _ _ _ Sh Q) as [X _]. rewrite X in D. destruct D. }
  assert (V : In v (map fst (n_verts n))).
  { apply (vcount_in _ _ (sh_pos _ _ _ Sh)). rewrite (C r n E). clear - D U. induction (n_edges n) as [|a l IH]; [destruct D|].
    assert (Z0 : 0 <= uses l v) by (clear; induction l as [|q l IH]; cbn [uses]; [lia|destruct (Nat.eqb _ _), (Nat.eqb _ _); lia]).
    cbn [uses]. destruct D as [->|D].
    - destruct U as [->| ->]; rewrite Nat.eqb_refl; destruct (Nat.eqb _ _); lia.
    - specialize (IH D). destruct (Nat.eqb _ _), (Nat.eqb _ _); lia. }
  destruct (link_listed g r v n G E (in_tgt_verts _ _ V)) as (m & F & Hr).
  assert (Ty : n_type m = 502 /\ n_null m = false).
  { pose proof (sh_504v _ _ _ Sh v (n_type m, n_null m) V) as X. unfold ty in X. rewrite F in X. specialize (X eq_refl).
    now injection X as -> ->. }
  destruct Ty as [Tm Nm]. pose proof (g_shape _ _ G _ _ F) as Shm.
  unfold destroy. rewrite F, Tm. cbn [Z.eqb Pos.eqb andb].
  assert (O : own_parts m = []).
  { unfold own_parts. rewrite (no_slots _ _ _ Shm Nm) by (rewrite Tm; reflexivity).
    rewrite (no_items _ _ _ _ Shm Tm) by not_in. destruct (sh_vert _ _ _ Shm) as [X5 X6]; [lia|]. rewrite X5, X6, Tm. reflexivity. }
  rewrite O. cbn [drop_refs]. rewrite F.
  assert (Hn : n_null n = false) by (eapply (tgt_not_null (ty g) r n v Sh); now apply in_tgt_verts).
  pose proof (g_one _ _ G r v) as One. rewrite (ct_look _ _ _ _ E), cnt_tgt_eq in One. apply cnt_in in V as V'.
  assert (Nr : r <> v) by (intros ->; congruence).
  rewrite Tm.
  rewrite (unlink_all_stuck r v (n_refs m) (free g v) n).
  - reflexivity.
  - apply nodup_cnt. intros x. pose proof (g_one _ _ G x v) as O2. rewrite (cr_look _ _ _ _ F) in O2. apply O2.
  - exact Hr.
  - rewrite look_free. apply Nat.eqb_neq in Nr. now rewrite Nr.
  - exact Hn.
  - exact T.
  - exact V.
  - apply cnt_notin. lia.
  - apply cnt_notin. lia.
Qed.

Lemma vertex_list_claim g r v : reached g -> edge_uses g r v -> In v (g_ents g) -> run (ODel v) g = None.
Proof.
  intros R U H. cbn [run]. unfold DelEntity. apply mem_in in H. rewrite H, (vertex_list_stuck g r v R U). reflexivity.
Qed.

(* ---- reading off concrete histories ---- *)

Definition holdsb (n : node) (t : nat) : bool :=
  mem t (ptrs (n_des n)) || mem t (n_extras n) || mem t (ptrs (n_slots n)) || mem t (n_items n).
Definition pointsb (g : graph) (e t : nat) : bool := match look g e with Some n => holdsb n t | None => false end.
Definition listsb (g : graph) (e r : nat) : bool := match look g e with Some n => mem r (n_refs n) | None => false end.
Lemma pointsb_ok g e t : pointsb g e t = true -> points g e t.
Proof.
  unfold pointsb, points, holdsb, holds. destruct (look g e) as [n|]; [|discriminate]. intros H. exists n. split; [reflexivity|].
  rewrite !orb_true_iff, !mem_in, !ptrs_in in H. tauto.
Qed.
Lemma listsb_ok g e t : listsb g e t = true -> lists g e t.
Proof.
  unfold listsb, lists. destruct (look g e) as [n|]; [|discriminate]. intros H. exists n. split; [reflexivity|]. now apply mem_in.
Qed.
Lemma dead_ok g e : liveb g e = false -> ~ live g e.
Proof. unfold liveb, live. destruct (look g e); [discriminate|]. intros _ [n H]. discriminate. Qed.
Definition ends_in (l : list op) (P : graph -> bool) : bool := match runs l empty_graph with Some g => P g | None => false end.
Lemma ends_in_ok l P (Q : graph -> Prop) : (forall g, P g = true -> Q g) -> ends_in l P = true ->
  exists g, runs l empty_graph = Some g /\ Q g.
Proof. unfold ends_in. intros H K. destruct (runs l empty_graph) as [g|]; [|discriminate]. eauto. Qed.
Lemma dangling l e t : ends_in l (fun g => pointsb g e t && negb (liveb g t)) = true ->
  exists g, runs l empty_graph = Some g /\ points g e t /\ ~ live g t.
Proof.
  apply ends_in_ok. intros g H. apply andb_prop in H. destruct H as [H1 H2]. apply negb_true_iff in H2.
  auto using pointsb_ok, dead_ok.
Qed.
Lemma stale l e r : ends_in l (fun g => listsb g e r && negb (liveb g r)) = true ->
  exists g, runs l empty_graph = Some g /\ lists g e r /\ ~ live g r.
Proof.
  apply ends_in_ok. intros g H. apply andb_prop in H. destruct H as [H1 H2]. apply negb_true_iff in H2.
  auto using listsb_ok, dead_ok.
Qed.
