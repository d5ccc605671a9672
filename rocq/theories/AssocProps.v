(* The end of reading: what association and Cull leave. *)
From Coq Require Import List Bool ZArith Lia ZifyBool ZifyNat.
From Verif Require Import GraphModel GraphSpec GraphFacts GraphProps GraphRead GraphProps2 GraphCull AssocModel AssocSpec AssocAll.
Import ListNotations.
Open Scope Z_scope.

Lemma cull_none g v : forall l kept, (forall e, In e l -> live g e /\ ~ orphan g v e) -> cull_loop g v l kept = Some (g, kept ++ l).
Proof.
  induction l as [|e l IH]; intros kept H; cbn [cull_loop]; [now rewrite app_nil_r|].
  destruct (H e (or_introl eq_refl)) as [[n E] O]. rewrite E.
  destruct (doomed v n) eqn:D; [exfalso; apply O; exists n; split; [exact E|]; now apply orphaned_doomed|].
  rewrite IH by (intros x Hx; apply H; now right). now rewrite <- app_assoc.
Qed.
Lemma Cull_none g v : (forall e, In e (g_ents g) -> live g e /\ ~ orphan g v e) -> Cull g v = Some g.
Proof. intros H. unfold Cull. rewrite cull_none by exact H. now destruct g. Qed.

Lemma lacks_alike n m : alike n m -> lacks m <-> lacks n.
Proof. intros (A & B & C & D & _ & _ & S & I & Ed & L). unfold lacks. cbv zeta. now rewrite A, B, C, D, S, I, Ed, L. Qed.

(* what the graph says of an entity, from what the plan says *)
Lemma rebuilt_look l g : rebuilt l g -> forall i n, nth_error l i = Some n -> exists m, look g i = Some m /\ alike n m /\ n_dep m = n_dep n /\
  (n_refs m = [] <-> ~ named l i).
Proof.
  intros (_ & _ & H) i n E. specialize (H i). rewrite E in H. destruct (look g i) as [m|]; [|contradiction].
  destruct H as (A & _ & D & _ & R & _). exists m. split; [reflexivity|]. split; [exact A|]. split; [exact D|]. unfold named. split.
  - intros X (r & k & K). assert (Hr : In r (n_refs m)) by (apply R; now exists k). rewrite X in Hr. exact Hr.
  - intros X. destruct (n_refs m) as [|r rs] eqn:Q; [reflexivity|]. exfalso. apply X. exists r. apply R. now left.
Qed.
Lemma rebuilt_orphan l g : rebuilt l g -> forall i n, nth_error l i = Some n -> orphan g false i <->
  lacks n \/ (~ named l i /\ (In (n_type n) [124; 314; 502; 504; 508; 510] \/ (n_dep n <> 0 /\ n_type n <> 186))).
Proof.
  intros H i n E. destruct (rebuilt_look l g H i n E) as (m & Em & A & D & R). pose proof A as (T & _).
  unfold orphan, orphaned, unwanted. split.
  - intros (m' & E' & X). rewrite Em in E'. injection E' as <-. rewrite (lacks_alike n m A), T, D, R in X.
    destruct X as [X|[X|[X _]]]; [now left|now right|discriminate].
  - intros X. exists m. split; [exact Em|]. rewrite (lacks_alike n m A), T, D, R. tauto.
Qed.
Lemma rebuilt_ents l g : rebuilt l g -> forall i, In i (g_ents g) <-> exists n, nth_error l i = Some n.
Proof.
  intros (E & _) i. rewrite E, in_seq. cbn [Nat.add]. split.
  - intros [_ H]. destruct (nth_error l i) as [n|] eqn:Q; [now exists n|]. apply nth_error_None in Q. lia.
  - intros [n H]. split; [lia|]. apply nth_error_Some. congruence.
Qed.

Lemma whole_claim closed joins l qs : sound_plan l -> Forall2 (says l) l qs -> drawn closed joins l -> whole l ->
  exists g, connect closed joins qs = Some (true, g) /\ rebuilt l g.
Proof.
  intros Sd Sy Dr W. destruct (all_associate l qs Sd Sy closed joins Dr) as (g & H & R). exists g. split; [|exact R].
  unfold connect. cbv zeta. rewrite H. rewrite Cull_none; [reflexivity|].
  intros e He. apply (rebuilt_ents l g R) in He. destruct He as [n E]. split.
  - destruct (rebuilt_look l g R e n E) as (m & Em & _). now exists m.
  - rewrite (rebuilt_orphan l g R e n E). destruct (W e n E) as [W1 W2]. intros [X|[X1 X2]]; [exact (W1 X)|exact (X1 (W2 X2))].
Qed.

Lemma parts_holds n t : In t (parts n) <-> holds n t.
Proof.
  unfold parts, holds. rewrite !in_app_iff, !nodup_In, !in_map_iff. rewrite !List.in_flat_map.
  rewrite !ptrs_in. split.
  - intros [H|[H|[H|[H|[(d & E & H)|[(d & H & E)|[(p & E & H)|(p & H & E)]]]]]]]; auto 6.
    + do 4 right. left. exists d. split; [exact H|]. auto.
    + do 4 right. left. exists d. split; [exact H|]. cbn in E. destruct E as [<-|[<-|[]]]; auto.
    + do 5 right. exists p. auto.
    + do 5 right. exists p. auto.
  - intros [H|[H|[H|[H|[(d & H & [E|[E|E]])|(p & H & [E|E])]]]]]; auto 6.
    + do 4 right. left. now exists d.
    + do 5 right. left. exists d. cbn. auto.
    + do 5 right. left. exists d. cbn. auto.
    + do 6 right. left. now exists p.
    + do 7 right. now exists p.
Qed.
Lemma alike_holds n m t : alike n m -> holds m t <-> holds n t.
Proof. intros (_ & _ & _ & _ & A & B & C & D & E & F). unfold holds. now rewrite A, B, C, D, E, F. Qed.

(* edges in a file that says what the plan says are between existing vertices *)
Lemma says_edge l n q : says l n q -> forall d v m, In d (n_edges n) -> v = ed_start d \/ v = ed_stop d ->
  nth_error l v = Some m -> n_points m <> 0%nat.
Proof.
  intros S d v m Hd Hv Em. pose proof (s_edges _ _ _ S) as F. induction F as [|d' p ds ps (s & t & _ & A & B) F IH]; [contradiction|].
  destruct Hd as [-> |Hd]; [|auto]. destruct Hv as [-> | ->]; [specialize (A m Em)|specialize (B m Em)]; lia.
Qed.
Lemma says_at l l0 qs : Forall2 (says l) l0 qs -> forall i n, nth_error l0 i = Some n -> exists q, says l n q.
Proof.
  intros F. induction F as [|n q ns qs S F IH]; intros [|i] m E; cbn in E; try discriminate; [|eauto].
  injection E as <-. now exists q.
Qed.

Lemma connect_claim closed joins l qs : sound_plan l -> Forall2 (says l) l qs -> drawn closed joins l -> bookable l -> few_trees l ->
  exists h, connect closed joins qs = Some (true, h) /\ reached h /\ consistent h /\
    g_ents h = filter (alive h) (seq 0 (length l)) /\
    (forall e, live h e -> (e < length l)%nat) /\
    (forall i n, nth_error l i = Some n -> ~ whole_at l i n -> ~ live h i) /\
    (forall i n m, nth_error l i = Some n -> look h i = Some m ->
       n_type m = n_type n /\ n_null m = n_null n /\ n_form m = n_form n /\ n_dep m = n_dep n /\ n_points m = n_points n /\
       (forall t, holds m t -> In t (parts n)) /\ (forall r, In r (n_refs m) -> exists k, nth_error l r = Some k /\ In i (parts k))) /\
    (forall i n, nth_error l i = Some n -> (forall b m, linked l i b -> nth_error l b = Some m -> whole_at l b m) ->
       exists m, look h i = Some m /\ alike n m) /\
    (whole l -> rebuilt l h).
Proof.
  intros Sd Sy Dr Bk Fw. destruct (all_associate l qs Sd Sy closed joins Dr) as (g & H & R).
  assert (Rd : read_in g) by (exists l; auto).
  assert (Rg : reached g) by (exists g, []; split; [now right|split; [exact I|reflexivity]]).
  assert (Fg : few g).
  { intros r m E T. destruct R as (_ & _ & R). specialize (R r). rewrite E in R. destruct (nth_error l r) as [n|] eqn:En; [|contradiction].
    destruct R as ((A & _ & _ & _ & _ & _ & _ & It & _) & _). rewrite It. apply (Fw r n En). congruence. }
  assert (Pg : pinned g).
  { intros r v k (m & d & E & Hd & Hv) Ek. destruct R as (_ & _ & R). pose proof (R r) as Rr. rewrite E in Rr.
    destruct (nth_error l r) as [n|] eqn:En; [|contradiction]. specialize (R v). rewrite Ek in R.
    destruct (nth_error l v) as [w|] eqn:Ew; [|contradiction]. destruct Rr as ((_ & _ & _ & _ & _ & _ & _ & _ & Ed & _) & _).
    rewrite Ed in Hd. destruct R as ((_ & _ & _ & P & _) & _). rewrite P.
    destruct (says_at l l qs Sy r n En) as [q Sq]. exact (says_edge l n q Sq d v w Hd Hv Ew). }
  destruct (Cull_claim g false Rg Fg Pg) as (h & Hh & Co & En & Lv & _ & Or & _ & Fe & Id).
  exists h. assert (Cu : Cull g false = Some h).
  { cbn [run] in Hh. destruct (Cull g false) as [h'|]; cbn in Hh; congruence. }
  split; [unfold connect; cbv zeta; now rewrite H, Cu|].
  split. { exists g, [OCull false]. split; [now right|]. split; [cbn; split; [split; assumption|]; intros; exact I|]. cbn [runs]. now rewrite Hh. }
  split; [exact Co|]. assert (Ge : g_ents g = seq 0 (length l)) by apply R. rewrite <- Ge. split; [exact En|]. split.
  { intros e He. apply Lv in He. destruct He as [m Em]. destruct R as (_ & _ & R). specialize (R e). rewrite Em in R.
    apply nth_error_Some. destruct (nth_error l e); [discriminate|contradiction]. }
  split.
  { intros i n E W. apply Or; [apply (rebuilt_ents l g R); now exists n|]. apply (rebuilt_orphan l g R i n E).
    assert (Dn : lacks n \/ ~ lacks n) by (rewrite lacksb_ok; destruct (lacksb n); [now left|right; discriminate]).
    destruct Dn as [L|L]; [now left|]. right. destruct (rebuilt_look l g R i n E) as (m & Em & _ & _ & Rf).
    assert (Dt : (In (n_type n) [124; 314; 502; 504; 508; 510] \/ (n_dep n <> 0 /\ n_type n <> 186)) \/
                 ~ (In (n_type n) [124; 314; 502; 504; 508; 510] \/ (n_dep n <> 0 /\ n_type n <> 186))).
    { destruct (in_dec Z.eq_dec (n_type n) [124; 314; 502; 504; 508; 510]); [auto|]. destruct (Z.eq_dec (n_dep n) 0), (Z.eq_dec (n_type n) 186); tauto. }
    destruct Dt as [Dt|Dt]; [|exfalso; apply W; split; [exact L|tauto]]. split; [|exact Dt]. intros Nm. apply W. split; [exact L|]. auto. }
  split.
  { intros i n m E Em. destruct (rebuilt_look l g R i n E) as (k & Ek & A & D & _). destruct (Fe i k m Ek Em) as (F1 & F2 & F3 & F4 & F5 & F6 & F7).
    pose proof A as (A1 & A2 & A3 & A4 & _). split; [congruence|]. split; [congruence|]. split; [congruence|]. split; [congruence|]. split; [congruence|]. split.
    - intros t Ht. apply parts_holds. apply (alike_holds n k t A). auto.
    - intros r Hr. apply F6 in Hr. destruct R as (_ & _ & R). specialize (R i). rewrite E, Ek in R. destruct R as (_ & _ & _ & _ & R & _). now apply R. }
  split.
  { intros i n E W. destruct (rebuilt_look l g R i n E) as (k & Ek & A & _).
    assert (J : forall b, joined g i b -> linked l i b /\ exists m, nth_error l b = Some m).
    { intros b Jb. induction Jb as [|b c Jb [Lb [m Em]] [P|P]].
      - split; [constructor|now exists n].
      - destruct P as (x & Ex & Hx). destruct (rebuilt_look l g R b m Em) as (x' & Ex' & A' & _). rewrite Ex in Ex'. injection Ex' as <-.
        assert (Hc : In c (parts m)) by (apply parts_holds; now apply (alike_holds m x c A')).
        split; [now apply (linked_to l i b m c)|]. destruct (d_range l Sd b m c Em Hc) as (y & Ey & _). now exists y.
      - destruct P as (x & Ex & Hx). destruct R as (R1 & R2 & R). pose proof (R c) as Rc. rewrite Ex in Rc.
        destruct (nth_error l c) as [y|] eqn:Ey; [|contradiction]. destruct Rc as (A' & _). split; [|now exists y].
        apply (linked_by l i b y c); [exact Lb|exact Ey|]. apply parts_holds. now apply (alike_holds y x b A'). }
    exists k. split; [|exact A]. rewrite <- Ek. apply (Cull_group_claim g false i h Rg Fg Pg); [|exact Hh|constructor].
    intros b Jb. destruct (J b Jb) as [Lb [m Em]]. rewrite (rebuilt_orphan l g R b m Em). destruct (W b m Lb Em) as [W1 W2].
    intros [X|[X1 X2]]; [exact (W1 X)|exact (X1 (W2 X2))]. }
  intros W. rewrite Id; [exact R|]. intros e He. apply (rebuilt_ents l g R) in He. destruct He as [n E]. rewrite (rebuilt_orphan l g R e n E).
  destruct (W e n E) as [W1 W2]. intros [X|[X1 X2]]; [exact (W1 X)|exact (X1 (W2 X2))].
Qed.
