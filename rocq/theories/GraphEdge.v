(* Edge lists (504): the use counts of vertex lists, and AddEdge. *)
From Coq Require Import List Bool ZArith Lia ZifyBool ZifyNat.
From Verif Require Import GraphModel GraphSpec GraphFacts GraphOps.
Import ListNotations.
Open Scope Z_scope.

(* the number of times v is a start or a stop *)
Fixpoint uses (l : list edge) (v : nat) : Z :=
  match l with
  | [] => 0
  | d :: r => (if Nat.eqb (ed_start d) v then 1 else 0) + (if Nat.eqb (ed_stop d) v then 1 else 0)
              + uses r v
  end.
Fixpoint vcount (l : list (nat * nat)) (v : nat) : Z :=
  match l with
  | [] => 0
  | (w, c) :: r => (if Nat.eqb w v then Z.of_nat c else 0) + vcount r v
  end.

Definition counted (g : graph) : Prop :=
  forall e n, look g e = Some n -> forall v, vcount (n_verts n) v = uses (n_edges n) v.

Lemma frame_counted g h : frame g h -> counted g -> counted h.
Proof.
  intros F C e m H v. destruct (look g e) as [n|] eqn:E.
  - destruct (f_some _ _ F e n E) as (m' & H' & _ & V1 & V2). rewrite H in H'. injection H' as <-.
    rewrite V1, V2. now apply (C e).
  - rewrite (f_none _ _ F e E) in H. discriminate.
Qed.

Lemma uses_app l d v : uses (l ++ [d]) v =
  uses l v + (if Nat.eqb (ed_start d) v then 1 else 0) + (if Nat.eqb (ed_stop d) v then 1 else 0).
Proof. induction l as [|a l IH]; cbn [app uses]; [lia|]. rewrite IH. lia. Qed.
Lemma uses_nonneg l v : 0 <= uses l v.
Proof. induction l; cbn [uses]; [lia|]. destruct (Nat.eqb _ v), (Nat.eqb _ v); lia. Qed.
Lemma uses_in l d : In d l -> 1 <= uses l (ed_start d) /\ 1 <= uses l (ed_stop d).
Proof.
  induction l as [|a l IH]; intros []; cbn [uses].
  - subst. rewrite !Nat.eqb_refl. pose proof (uses_nonneg l (ed_start d)).
    pose proof (uses_nonneg l (ed_stop d)). destruct (Nat.eqb _ _), (Nat.eqb _ _); lia.
  - destruct (IH H). destruct (Nat.eqb _ (ed_start d)), (Nat.eqb _ (ed_start d)),
      (Nat.eqb _ (ed_stop d)), (Nat.eqb _ (ed_stop d)); lia.
Qed.
Lemma uses_two l d : In d l -> ed_start d = ed_stop d -> 2 <= uses l (ed_start d).
Proof.
  intros H E. induction l as [|a l IH]; destruct H; cbn [uses].
  - subst. rewrite <- E, !Nat.eqb_refl. pose proof (uses_nonneg l (ed_start d)). lia.
  - specialize (IH H). destruct (Nat.eqb _ (ed_start d)), (Nat.eqb _ (ed_start d)); lia.
Qed.
Lemma uses_cut l e d v : find (fun d => Nat.eqb (ed_curve d) e) l = Some d ->
  uses (cut e l) v = uses l v - (if Nat.eqb (ed_start d) v then 1 else 0)
                     - (if Nat.eqb (ed_stop d) v then 1 else 0).
Proof.
  induction l as [|a l IH]; cbn [find cut]; [discriminate|].
  destruct (Nat.eqb (ed_curve a) e); cbn [uses].
  - intros [= ->]. lia.
  - intros H. rewrite (IH H). lia.
Qed.
Lemma curves_cut l e x : cnt (edge_curves (cut e l)) x =
  (cnt (edge_curves l) x - if Nat.eqb e x then 1 else 0)%nat.
Proof.
  unfold edge_curves. induction l as [|a l IH]; cbn [cut map]; [rewrite cnt_nil; lia|].
  destruct (Nat.eqb (ed_curve a) e) eqn:E; rewrite ?cnt_cons.
  - apply Nat.eqb_eq in E. subst. lia.
  - cbn [map]. rewrite !cnt_cons, IH. destruct (Nat.eqb (ed_curve a) x) eqn:F, (Nat.eqb e x) eqn:G; lia.
Qed.

Lemma vcount_up l v x : In v (map fst l) ->
  vcount (count_up v l) x = vcount l x + if Nat.eqb v x then 1 else 0.
Proof.
  induction l as [|(w,c) l IH]; cbn [map fst In count_up]; [tauto|]. intros H.
  destruct (Nat.eqb v w) eqn:E; cbn [vcount].
  - apply Nat.eqb_eq in E. subst. destruct (Nat.eqb w x); lia.
  - rewrite IH; [destruct (Nat.eqb w x); lia|]. destruct H; [|auto]. subst. rewrite Nat.eqb_refl in E. discriminate.
Qed.
Lemma fst_up l v : map fst (count_up v l) = map fst l.
Proof. induction l as [|(w,c) l IH]; cbn [count_up]; [reflexivity|]. destruct (Nat.eqb v w); cbn; [|rewrite IH]; reflexivity. Qed.
Lemma pos_up l v w c : In (w, c) (count_up v l) -> (forall w c, In (w, c) l -> (1 <= c)%nat) -> (1 <= c)%nat.
Proof.
  induction l as [|(w',c') l IH]; cbn [count_up]; [intros []|]. intros H P.
  destruct (Nat.eqb v w').
  - destruct H as [H|H]; [injection H; intros; lia|]. apply (P w). now right.
  - destruct H as [H|H].
    + injection H as <- <-. apply (P w'). now left.
    + apply IH; [exact H|]. intros w0 c0 H0. apply (P w0). now right.
Qed.
Lemma vcount_in l v : (forall w c, In (w, c) l -> (1 <= c)%nat) -> 1 <= vcount l v <-> In v (map fst l).
Proof.
  induction l as [|(w,c) l IH]; cbn [map fst In vcount]; intros P; [lia|].
  assert (P' : forall w c, In (w, c) l -> (1 <= c)%nat) by (intros a b H; apply (P a); now right).
  specialize (IH P'). specialize (P w c (or_introl eq_refl)).
  assert (0 <= vcount l v).
  { clear - l. induction l as [|(a,b) l IH]; cbn [vcount]; [lia|]. destruct (Nat.eqb a v); lia. }
  destruct (Nat.eqb w v) eqn:E.
  - apply Nat.eqb_eq in E. split; [auto|]. lia.
  - apply Nat.eqb_neq in E. rewrite <- IH. split; [intros; right; lia|intros [Q|Q]; [contradiction|lia]].
Qed.
Lemma vcount_snoc l v x : vcount (l ++ [(v, 1%nat)]) x = vcount l x + if Nat.eqb v x then 1 else 0.
Proof.
  induction l as [|(w,c) l IH]; cbn [app vcount]; [destruct (Nat.eqb v x); lia|].
  rewrite IH. destruct (Nat.eqb w x); lia.
Qed.
Lemma down_facts l v c : find (fun p => Nat.eqb (fst p) v) l = Some (v, c) -> (1 <= c)%nat ->
  (forall x, vcount (count_down v l) x = vcount l x - if Nat.eqb v x then 1 else 0) /\
  (forall x, cnt (map fst (count_down v l)) x =
     (cnt (map fst l) x - if Nat.eqb c 1 && Nat.eqb v x then 1 else 0)%nat) /\
  (forall w k, In (w, k) (count_down v l) -> (forall w c, In (w, c) l -> (1 <= c)%nat) -> (1 <= k)%nat).
Proof.
  induction l as [|(w,k) l IH]; cbn [find fst]; [discriminate|]. intros H Hc.
  rewrite Nat.eqb_sym in H. cbn [count_down].
  destruct (Nat.eqb v w) eqn:E.
  - apply Nat.eqb_eq in E. subst w. injection H as ->.
    destruct c as [|[|c]]; [lia| |]; cbn [vcount map fst Nat.eqb andb].
    + repeat split.
      * intros x. destruct (Nat.eqb v x); lia.
      * intros x. rewrite cnt_cons. lia.
      * intros w k H P. apply (P w). now right.
    + repeat split.
      * intros x. destruct (Nat.eqb v x); lia.
      * intros x. lia.
      * intros w k [H|H] P; [injection H; intros; lia|]. apply (P w). now right.
  - destruct (IH H Hc) as (A & B & C). cbn [vcount map fst]. repeat split.
    + intros x. rewrite A. lia.
    + intros x. rewrite !cnt_cons, B.
      destruct (Nat.eqb w x) eqn:F; [|lia]. apply Nat.eqb_eq in F. subst. rewrite E, andb_false_r. lia.
    + intros w' k' [H'|H'] P.
      * injection H' as <- <-. apply (P w). now left.
      * apply (C w' k' H'). intros a b Q. apply (P a). now right.
Qed.
Lemma find_verts (l : list (nat * nat)) v : In v (map fst l) -> exists c, find (fun p => Nat.eqb (fst p) v) l = Some (v, c) /\ In (v, c) l.
Proof.
  induction l as [|(w,k) l IH]; cbn [map fst In find]; [tauto|]. intros H.
  destruct (Nat.eqb w v) eqn:E.
  - apply Nat.eqb_eq in E. subst. eauto.
  - destruct H as [->|H]; [rewrite Nat.eqb_refl in E; discriminate|]. destruct (IH H) as (c & A & B). eauto.
Qed.

(* Between g and h only the counts of edge list e changed, by dv, beside what a
   frame leaves open. *)
Record near (e : nat) (dv : nat -> Z) (g h : graph) : Prop := {
  r_next : g_next h = g_next g;
  r_some : forall i n, look g i = Some n -> exists m, look h i = Some m /\ like n m /\
     n_edges m = n_edges n /\
     (forall v, vcount (n_verts m) v = vcount (n_verts n) v + if Nat.eqb i e then dv v else 0);
  r_none : forall i, look g i = None -> look h i = None;
  r_store : store g -> store h }.

Lemma near_frame e g h : frame g h -> near e (fun _ => 0) g h.
Proof.
  intros [A B C D]. split; auto. intros i n H. destruct (B i n H) as (m & H1 & H2 & H3 & H4).
  exists m. repeat (split; [assumption|]). intros v. rewrite H4. destruct (Nat.eqb i e); lia.
Qed.
Lemma near_trans e d1 d2 d g h k : near e d1 g h -> near e d2 h k -> (forall v, d v = d1 v + d2 v) -> near e d g k.
Proof.
  intros A B Q. split.
  - rewrite (r_next _ _ _ _ B). apply (r_next _ _ _ _ A).
  - intros i n H. destruct (r_some _ _ _ _ A i n H) as (m & H1 & [K1 K2] & V1 & V2).
    destruct (r_some _ _ _ _ B i m H1) as (p & H2 & [K3 K4] & V3 & V4).
    exists p. split; [exact H2|]. split; [split; congruence|]. split; [congruence|].
    intros v. rewrite V4, V2. destruct (Nat.eqb i e); rewrite ?Q; lia.
  - intros i H. apply (r_none _ _ _ _ B), (r_none _ _ _ _ A), H.
  - intros H. apply (r_store _ _ _ _ B), (r_store _ _ _ _ A), H.
Qed.
Lemma near_put e d g n m : look g e = Some n -> like n m -> n_edges m = n_edges n ->
  (forall v, vcount (n_verts m) v = vcount (n_verts n) v + d v) -> near e d g (put g e m).
Proof.
  intros E K V1 V2. split.
  - reflexivity.
  - intros i p H. rewrite look_put. destruct (Nat.eqb i e) eqn:Ei.
    + apply Nat.eqb_eq in Ei; subst. rewrite E in H. injection H as <-. exists m. auto.
    + exists p. repeat split; auto. intros; lia.
  - intros i H. rewrite look_put. destruct (Nat.eqb i e) eqn:Ei; [|exact H].
    apply Nat.eqb_eq in Ei; subst. congruence.
  - intros [A B]. split; [exact A|]. intros x H. apply put_live, B, H.
Qed.
Lemma near_live e d g h x : near e d g h -> live g x -> live h x.
Proof. intros F [n H]. destruct (r_some _ _ _ _ F x n H) as (m & H1 & _). now exists m. Qed.
Lemma near_counted e d g h : near e d g h -> (forall v, d v = 0) -> counted g -> counted h.
Proof.
  intros F Z0 C i m H v. destruct (look g i) as [n|] eqn:E.
  - destruct (r_some _ _ _ _ F i n E) as (m' & H' & _ & V1 & V2). rewrite H in H'. injection H' as <-.
    rewrite V1, V2, Z0. destruct (Nat.eqb i e); rewrite Z.add_0_r; now apply (C i).
  - rewrite (r_none _ _ _ _ F i E) in H. discriminate.
Qed.
Lemma near_kind e d g h i n : near e d g h -> look g i = Some n -> exists m, look h i = Some m /\ like n m.
Proof. intros F H. destruct (r_some _ _ _ _ F i n H) as (m & H1 & H2 & _). eauto. Qed.

Lemma shape_verts f e n l : shape f e n -> n_null n = false -> n_type n = 504 ->
  (forall v c, In (v, c) l -> (1 <= c)%nat) ->
  (forall v k, In v (map fst l) -> f v = Some k -> k = (502, false)) ->
  shape f e (w_verts l n).
Proof.
  intros [a1 a2 a3 a4 a5 a6 a7 a8 a9 a10 a11 a12 a13 a14 a15 a16] Hn Ht H1 H2. split; auto.
  - cbn [n_null w_verts]. congruence.
  - intros Q. cbn [n_type w_verts] in Q. contradiction.
Qed.
Lemma shape_edges f e n l : shape f e n -> n_null n = false -> n_type n = 504 ->
  (forall v k, In v (edge_curves l) -> f v = Some k -> fst k <> 502) ->
  shape f e (w_edges l n).
Proof.
  intros [a1 a2 a3 a4 a5 a6 a7 a8 a9 a10 a11 a12 a13 a14 a15 a16] Hn Ht H2. split; auto.
  - cbn [n_null w_edges]. congruence.
  - intros Q. cbn [n_type w_edges] in Q. contradiction.
Qed.

Definition at1 (v : nat) (z : Z) (x : nat) : Z := if Nat.eqb v x then z else 0.

Lemma ginv_same_tgt D g e n m : ginv D g -> look g e = Some n -> like n m -> shape (ty g) e m ->
  (forall b, cnt (tgt m) b = cnt (tgt n) b) -> n_refs m = n_refs n -> ginv D (put g e m).
Proof.
  intros G E K Sh Ht Hr. apply (ginv_put D D g e n m G E K Sh).
  - intros b. rewrite Ht. pose proof (g_one _ _ G e b) as O. rewrite (ct_look _ _ _ _ E) in O. lia.
  - intros a. rewrite Hr. pose proof (g_one _ _ G a e) as O. rewrite (cr_look _ _ _ _ E) in O. lia.
  - intros a b. rewrite Ht, Hr. destruct (Nat.eqb a e), (Nat.eqb b e); lia.
Qed.

Lemma cnt_tgt_eq n b : cnt (tgt n) b = (cnt (ptrs (n_des n)) b + cnt (n_extras n) b
  + cnt (ptrs (n_slots n)) b + cnt (n_items n) b + cnt (edge_curves (n_edges n)) b
  + cnt (map fst (n_verts n)) b)%nat.
Proof. unfold tgt. rewrite !cnt_app. lia. Qed.
Lemma in_tgt_vert x n : In x (map fst (n_verts n)) -> In x (tgt n).
Proof. intros H. apply cnt_in. rewrite cnt_tgt_eq. apply cnt_in in H. lia. Qed.

Lemma addVertexList_ok D g e v n m :
  ginv D g -> look g e = Some n -> n_null n = false -> n_type n = 504 ->
  look g v = Some m -> n_null m = false -> n_type m = 502 -> 0 <= D e v ->
  exists b h, addVertexList g e v = Some (b, h) /\ ginv D h /\ near e (at1 v (if b then 1 else 0)) g h.
Proof.
  intros G E Hn Ht F Hm Hv HD. unfold addVertexList. rewrite E.
  pose proof (g_shape _ _ G _ _ E) as Sh.
  destruct (mem v (map fst (n_verts n))) eqn:M.
  - apply mem_in in M. exists true. eexists. split; [reflexivity|]. split.
    + apply (ginv_same_tgt D g e n); auto; [now split| |].
      * apply shape_verts; auto.
        -- intros w c H. eapply pos_up; eauto. intros. now apply (sh_pos _ _ _ Sh w0).
        -- rewrite fst_up. apply (sh_504v _ _ _ Sh).
      * intros b. rewrite !cnt_tgt_eq. cbn [n_des n_extras n_slots n_items n_edges n_verts w_verts].
        now rewrite fst_up.
    + apply (near_put e _ g n); auto; [now split|]. intros x. cbn [n_verts w_verts].
      rewrite vcount_up by exact M. reflexivity.
  - apply mem_notin in M.
    destruct (addReference_cases g v e m n F E) as [H|[H|(H & Hf & Hr & He)]]; rewrite H.
    + exists false, g. split; [reflexivity|]. split; [exact G|].
      assert (N := near_frame e g g (frame_refl g)). destruct N as [A1 A2 A3 A4]. split; auto.
      intros i p Hp. destruct (A2 i p Hp) as (q & B1 & B2 & B3 & B4). exists q. repeat (split; [assumption|]).
      intros x. rewrite B4. unfold at1. destruct (Nat.eqb i e), (Nat.eqb v x); lia.
    + exists false, g. split; [reflexivity|]. split; [exact G|].
      assert (N := near_frame e g g (frame_refl g)). destruct N as [A1 A2 A3 A4]. split; auto.
      intros i p Hp. destruct (A2 i p Hp) as (q & B1 & B2 & B3 & B4). exists q. repeat (split; [assumption|]).
      intros x. rewrite B4. unfold at1. destruct (Nat.eqb i e), (Nat.eqb v x); lia.
    + assert (Hve : v <> e) by (intros ->; congruence).
      pose proof (added_ok D g v e m G F Hm Hr) as G1.
      set (g1 := put g v (w_refs (n_refs m ++ [e]) m)) in *.
      assert (E1 : look g1 e = Some n) by (unfold g1; rewrite look_put_ne by auto; exact E).
      assert (Tys : forall i, ty g1 i = ty g i) by (apply ty_put with (n := m); [exact F|now split]).
      rewrite E1. set (n' := w_verts (n_verts n ++ [(v, 1%nat)]) n).
      assert (G2 : ginv D (put g1 e n')).
      { eapply (ginv_grow _ D g1 e n _ v G1); [reflexivity|exact HD|exact E1|now split| |reflexivity|].
        - apply (shape_ext (ty g)); [intros; now rewrite Tys|]. apply shape_verts; auto.
          + intros w c Hw. apply in_app_or in Hw. destruct Hw as [Hw|[Hw|[]]]; [now apply (sh_pos _ _ _ Sh w)|].
            injection Hw; intros; lia.
          + intros w k Hw Hk. rewrite map_app in Hw. apply in_app_or in Hw.
            destruct Hw as [Hw|[Hw|[]]]; [now apply (sh_504v _ _ _ Sh w)|]. cbn [fst] in Hw. subst w.
            unfold ty in Hk. rewrite F in Hk. injection Hk as <-. now rewrite Hm, Hv.
        - intros b. rewrite !cnt_tgt_eq. unfold n'. cbn [n_des n_extras n_slots n_items n_edges n_verts w_verts].
          rewrite map_app, cnt_app. cbn [map fst]. rewrite cnt_cons, cnt_nil. lia. }
      assert (Fr1 : frame g g1).
      { exact (frame_put g v m (w_refs (n_refs m ++ [e]) m) F (conj eq_refl eq_refl) eq_refl eq_refl). }
      assert (N2 : near e (at1 v 1) g1 (put g1 e n')).
      { apply (near_put e _ g1 n); auto; [now split|]. intros x. unfold n'. cbn [n_verts w_verts].
        rewrite vcount_snoc. reflexivity. }
      destruct (adopt_ok D (put g1 e n') e v G2) as (h & Ha & Gh & Fh).
      { exists n'. apply look_put_eq. }
      { apply put_live. apply (frame_live _ _ _ Fr1). now exists m. }
      rewrite Ha. exists true, h. split; [reflexivity|]. split; [exact Gh|].
      eapply near_trans; [apply near_frame; exact Fr1| |].
      * eapply near_trans; [exact N2|apply near_frame; exact Fh|]. intros x. reflexivity.
      * intros x. cbv beta. lia.
Qed.

Lemma delVertexList_ok D g e v n :
  ginv D g -> look g e = Some n -> n_null n = false -> n_type n = 504 ->
  In v (map fst (n_verts n)) -> D e v = 0 ->
  exists h n1, delVertexList g e v = Some (true, h) /\ ginv D h /\ near e (at1 v (-1)) g h /\
    look h e = Some n1 /\ n1 = w_verts (count_down v (n_verts n)) n /\
    (forall i p, i <> e -> look g i = Some p -> exists r, look h i = Some (w_refs r p) /\ incl r (n_refs p)).
Proof.
  intros G E Hn Ht Hin HD. unfold delVertexList. rewrite E.
  pose proof (g_shape _ _ G _ _ E) as Sh.
  destruct (find_verts _ _ Hin) as (c & Hf & Hc). rewrite Hf.
  pose proof (sh_pos _ _ _ Sh _ _ Hc) as Pc.
  destruct (down_facts _ _ _ Hf Pc) as (A & B & C).
  pose proof (g_link _ _ G e v) as L. rewrite HD, (ct_look _ _ _ _ E) in L.
  assert (Hv : In v (tgt n)) by now apply in_tgt_vert.
  apply cnt_in in Hv.
  destruct (look g v) as [m|] eqn:F; [|rewrite (cr_dead _ _ _ F) in L; lia].
  rewrite (cr_look _ _ _ _ F) in L.
  assert (Hve : v <> e).
  { intros ->. pose proof (sh_504v _ _ _ Sh e (n_type n, n_null n) Hin) as Q. unfold ty in Q. rewrite E in Q.
    specialize (Q eq_refl). rewrite Ht in Q. discriminate. }
  assert (Sh' : shape (ty g) e (w_verts (count_down v (n_verts n)) n)).
  { apply shape_verts; auto.
    - intros w k Hw. eapply C; eauto. intros. now apply (sh_pos _ _ _ Sh w0).
    - intros w k Hw. apply (sh_504v _ _ _ Sh). apply cnt_in. apply cnt_in in Hw. rewrite B in Hw. lia. }
  destruct (Nat.eqb c 1) eqn:C1.
  - assert (Hr : In e (n_refs m)) by (apply cnt_in; lia).
    destruct (delReference_ok D g v e m G F Hr) as [H1 G1]. rewrite H1. cbn [option_map snd].
    set (g1 := put g v (w_refs (rem1 e (n_refs m)) m)) in *.
    assert (E1 : look g1 e = Some n) by (unfold g1; rewrite look_put_ne by auto; exact E).
    assert (Tys : forall i, ty g1 i = ty g i) by (apply ty_put with (n := m); [exact F|now split]).
    rewrite E1. eexists _, _. split; [reflexivity|]. split; [|split; [|split; [apply look_put_eq|split; [reflexivity|]]]].
    + eapply (ginv_shrink _ D g1 e n _ v G1); [reflexivity|now apply in_tgt_vert|exact E1|now split| |reflexivity|].
      * apply (shape_ext (ty g)); [intros; now rewrite Tys|exact Sh'].
      * intros b. rewrite !cnt_tgt_eq. cbn [n_des n_extras n_slots n_items n_edges n_verts w_verts].
        rewrite B. cbn [andb]. destruct (Nat.eqb v b) eqn:Q; [|lia].
        apply Nat.eqb_eq in Q. subst b. apply cnt_in in Hin. lia.
    + eapply near_trans; [apply near_frame| |].
      * exact (frame_put g v m (w_refs (rem1 e (n_refs m)) m) F (conj eq_refl eq_refl) eq_refl eq_refl).
      * apply (near_put e (at1 v (-1)) g1 n); auto; [now split|]. intros x. cbn [n_verts w_verts].
        rewrite A. unfold at1. destruct (Nat.eqb v x); lia.
      * intros x. reflexivity.
    + intros i p Hi Hp. rewrite look_put_ne by auto. unfold g1. rewrite look_put.
      destruct (Nat.eqb i v) eqn:Q.
      * apply Nat.eqb_eq in Q. subst. rewrite F in Hp. injection Hp as <-. eexists. split; [reflexivity|]. intros y Hy.
        apply cnt_in in Hy. rewrite cnt_rem1 in Hy. apply cnt_in. lia.
      * exists (n_refs p). rewrite Hp. split; [now destruct p|apply incl_refl].
  - rewrite E. eexists _, _. split; [reflexivity|]. split; [|split; [|split; [apply look_put_eq|split; [reflexivity|]]]].
    + apply (ginv_same_tgt D g e n); auto; [now split|].
      intros b. rewrite !cnt_tgt_eq. cbn [n_des n_extras n_slots n_items n_edges n_verts w_verts].
      rewrite B. cbn [andb]. lia.
    + apply (near_put e _ g n); auto; [now split|]. intros x. cbn [n_verts w_verts].
      rewrite A. unfold at1. destruct (Nat.eqb v x); lia.
    + intros i p Hi Hp. rewrite look_put_ne by auto. exists (n_refs p). rewrite Hp. split; [now destruct p|apply incl_refl].
Qed.

(* a result that keeps the books *)
Definition sound (g : graph) (r : option (bool * graph)) : Prop :=
  exists b h, r = Some (b, h) /\ ginv zero h /\ counted h /\ (store g -> store h).

Lemma fine_sound g r : counted g -> fine g r -> sound g r.
Proof.
  intros C (b & h & H & G & F). exists b, h. split; [exact H|]. split; [exact G|].
  split; [now apply (frame_counted g)|]. apply (f_store _ _ F).
Qed.

Lemma near_sound e d g h b : near e d g h -> (forall v, d v = 0) -> ginv zero h -> counted g ->
  sound g (Some (b, h)).
Proof.
  intros N Z0 G C. exists b, h. split; [reflexivity|]. split; [exact G|].
  split; [eapply near_counted; eauto|]. apply (r_store _ _ _ _ N).
Qed.

Lemma verts_here e d g h n m v : near e d g h -> look g e = Some n -> look h e = Some m ->
  vcount (n_verts m) v = vcount (n_verts n) v + d v.
Proof.
  intros N E F. destruct (r_some _ _ _ _ N e n E) as (m' & F' & _ & _ & V).
  rewrite F in F'. injection F' as <-. rewrite V, Nat.eqb_refl. reflexivity.
Qed.

Lemma vcount_nonneg l v : 0 <= vcount l v.
Proof. induction l as [|(a,b) l IH]; cbn [vcount]; [lia|]. destruct (Nat.eqb a v); lia. Qed.

Lemma addCurve_ok g e x n : ginv zero g -> look g e = Some n -> live g x ->
  (exists h, addCurve g e x = Some (false, h) /\ ginv zero h /\ frame g h) \/
  (exists h m, addCurve g e x = Some (true, h) /\ ginv (pair e x 1) h /\ frame g h /\ look g x = Some m /\ n_null m = false /\ n_type m <> 502 /\ n_type m <> 504).
Proof.
  intros G E [m F]. unfold addCurve. rewrite F.
  destruct (_ || _) eqn:C; [|left; exists g; auto using frame_refl].
  destruct (addReference_cases g x e m n F E) as [H|[H|(H & Hf & Hr & He)]]; rewrite H;
    [left; exists g; auto using frame_refl|left; exists g; auto using frame_refl|].
  right. assert (Hm := forbids_null _ _ _ _ Hf).
  pose proof (added_ok zero g x e m G F Hm Hr) as G1.
  set (g1 := put g x (w_refs (n_refs m ++ [e]) m)) in *.
  assert (Fr1 : frame g g1).
  { exact (frame_put g x m (w_refs (n_refs m ++ [e]) m) F (conj eq_refl eq_refl) eq_refl eq_refl). }
  destruct (adopt_ok _ g1 e x G1) as (h & Ha & Gh & Fh).
  { apply (frame_live _ _ _ Fr1). now exists n. }
  { apply (frame_live _ _ _ Fr1). now exists m. }
  rewrite Ha. exists h, m. split; [reflexivity|]. split; [|split; [eapply frame_trans; eauto|]].
  - eapply ginv_ext; [|exact Gh]. intros a b. reflexivity.
  - split; [reflexivity|]. split; [exact Hm|].
    assert (Hne : n_type m <> 502 /\ n_type m <> 504); [|exact Hne].
    apply orb_prop in C. destruct C as [C|C].
    + apply zmem_in in C. clear - C. cbn [In] in C. lia.
    + lia.
Qed.

(* undoing addCurve *)
Lemma drop_curve D g e x : ginv D g -> 1 <= D e x -> 
  (forall a b, D a b = pair e x 1 a b) ->
  exists h, delReference g x e = Some (true, h) /\ ginv zero h /\ frame g h.
Proof.
  intros G H1 HD. pose proof (g_link _ _ G e x) as L.
  destruct (look g x) as [m|] eqn:F; [|rewrite (cr_dead _ _ _ F) in L; lia].
  rewrite (cr_look _ _ _ _ F) in L.
  assert (Hr : In e (n_refs m)) by (apply cnt_in; lia).
  destruct (delReference_ok D g x e m G F Hr) as [H2 G2].
  eexists. split; [exact H2|]. split.
  - eapply ginv_ext; [|exact G2]. intros a b. cbv beta. rewrite HD. unfold zero. lia.
  - exact (frame_put g x m (w_refs (rem1 e (n_refs m)) m) F (conj eq_refl eq_refl) eq_refl eq_refl).
Qed.

Lemma AddEdge_ok g e x sv s tv t : ginv zero g -> counted g ->
  live g e -> live g x -> live g sv -> live g tv -> sound g (AddEdge g e x sv s tv t).
Proof.
  intros G C [n E] Lx [ms Es] [mt Et]. unfold AddEdge. rewrite E, Es, Et.
  destruct (_ || _) eqn:A; [apply fine_sound; [exact C|]; now apply fine_id|].
  apply orb_false_elim in A. destruct A as [A A3]. apply orb_false_elim in A. destruct A as [A1 A2].
  unfold is_a in A1, A2, A3.
  assert (Kn : n_null n = false /\ n_type n = 504) by (destruct (n_null n); cbn in A1; split; try discriminate; lia).
  assert (Ks : n_null ms = false /\ n_type ms = 502) by (destruct (n_null ms); cbn in A2; split; try discriminate; lia).
  assert (Kt : n_null mt = false /\ n_type mt = 502) by (destruct (n_null mt); cbn in A3; split; try discriminate; lia).
  clear A1 A2 A3. destruct Kn as [Kn1 Kn2], Ks as [Ks1 Ks2], Kt as [Kt1 Kt2].
  destruct (addCurve_ok g e x n G E Lx) as [(g1 & H1 & G1 & F1)|(g1 & mx & H1 & G1 & F1 & Ex & Kx1 & Kx2 & Kx3)];
    rewrite H1.
  { apply fine_sound; [exact C|]. exists false, g1. auto. }
  assert (Hsx : sv <> x) by (intros ->; congruence).
  assert (Htx : tv <> x) by (intros ->; congruence).
  destruct (f_some _ _ F1 e n E) as (n1 & E1 & [L1 L1'] & V1 & V1').
  destruct (f_some _ _ F1 sv ms Es) as (ms1 & Es1 & [L2 L2'] & _ & _).
  destruct (addVertexList_ok _ g1 e sv n1 ms1 G1 E1 ltac:(congruence) ltac:(congruence) Es1
    ltac:(congruence) ltac:(congruence)) as (b2 & g2 & H2 & G2 & N2).
  { unfold pair. destruct (_ && _); lia. }
  rewrite H2. assert (N02 : near e (at1 sv (if b2 then 1 else 0)) g g2).
  { eapply near_trans; [apply near_frame; exact F1|exact N2|]. intros v. reflexivity. }
  assert (P1 : pair e x 1 e x = 1) by (unfold pair; now rewrite !Nat.eqb_refl).
  assert (Zv : forall y, y <> x -> pair e x 1 e y = 0).
  { intros y Hy. unfold pair. apply Nat.eqb_neq in Hy. rewrite Hy, andb_false_r. reflexivity. }
  destruct b2.
  2:{ destruct (drop_curve _ g2 e x G2 ltac:(lia) ltac:(reflexivity)) as (h & Hd & Gh & Fh).
      rewrite Hd. cbn [then_false option_map snd].
      eapply (near_sound e (fun _ => 0)); [|reflexivity|exact Gh|exact C].
      eapply near_trans; [exact N02|apply near_frame; exact Fh|]. intros v. unfold at1. destruct (Nat.eqb sv v); reflexivity. }
  destruct (near_kind _ _ _ _ _ _ N02 E) as (n2 & E2 & [L3 L3']).
  destruct (near_kind _ _ _ _ _ _ N02 Et) as (mt2 & Et2 & [L4 L4']).
  destruct (addVertexList_ok _ g2 e tv n2 mt2 G2 E2 ltac:(congruence) ltac:(congruence) Et2
    ltac:(congruence) ltac:(congruence)) as (b3 & g3 & H3 & G3 & N3).
  { unfold pair. destruct (_ && _); lia. }
  rewrite H3.
  set (d3 := fun v => at1 sv 1 v + at1 tv (if b3 then 1 else 0) v).
  assert (N03 : near e d3 g g3).
  { eapply near_trans; [exact N02|exact N3|]. intros v. reflexivity. }
  (* taking the start vertex list back *)
  assert (Back : forall h, ginv zero h -> near e d3 g h ->
     exists k, delVertexList h e sv = Some (true, k) /\ ginv zero k /\
       near e (fun v => at1 tv (if b3 then 1 else 0) v) g k).
  { intros h Gh Nh. destruct (near_kind _ _ _ _ _ _ Nh E) as (nh & Eh & [L5 L5']).
    destruct (delVertexList_ok zero h e sv nh Gh Eh ltac:(congruence) ltac:(congruence)) as (k & q & Hk & Gk & Nk & _).
    - apply vcount_in; [apply (sh_pos _ _ _ (g_shape _ _ Gh _ _ Eh))|].
      rewrite (verts_here _ _ _ _ _ _ sv Nh E Eh). unfold d3, at1. rewrite Nat.eqb_refl.
      pose proof (vcount_nonneg (n_verts n) sv). destruct (Nat.eqb tv sv), b3; lia.
    - reflexivity.
    - exists k. split; [exact Hk|]. split; [exact Gk|].
      eapply near_trans; [exact Nh|exact Nk|]. intros v. unfold d3, at1. destruct (Nat.eqb sv v); lia. }
  destruct b3.
  2:{ destruct (drop_curve _ g3 e x G3 ltac:(lia) ltac:(reflexivity)) as (h & Hd & Gh & Fh).
      rewrite Hd. cbn [and_then].
      destruct (Back h Gh) as (k & Hk & Gk & Nk).
      { eapply near_trans; [exact N03|apply near_frame; exact Fh|]. intros v. now rewrite Z.add_0_r. }
      rewrite Hk. cbn [then_false option_map snd].
      eapply near_sound; [exact Nk| |exact Gk|exact C]. intros v. unfold at1. destruct (Nat.eqb tv v); reflexivity. }
  destruct (_ || _) eqn:Idx.
  - destruct (drop_curve _ g3 e x G3 ltac:(lia) ltac:(reflexivity)) as (h & Hd & Gh & Fh).
    rewrite Hd. cbn [and_then].
    destruct (Back h Gh) as (k & Hk & Gk & Nk).
    { eapply near_trans; [exact N03|apply near_frame; exact Fh|]. intros v. now rewrite Z.add_0_r. }
    rewrite Hk. cbn [and_then].
    destruct (near_kind _ _ _ _ _ _ Nk E) as (nk & Ek & [L5 L5']).
    destruct (delVertexList_ok zero k e tv nk Gk Ek ltac:(congruence) ltac:(congruence)) as (q & r & Hq & Gq & Nq & _).
    + apply vcount_in; [apply (sh_pos _ _ _ (g_shape _ _ Gk _ _ Ek))|].
      rewrite (verts_here _ _ _ _ _ _ tv Nk E Ek). unfold at1. rewrite Nat.eqb_refl.
      pose proof (vcount_nonneg (n_verts n) tv). lia.
    + reflexivity.
    + rewrite Hq. cbn [then_false option_map snd].
      eapply (near_sound e (fun _ => 0)); [|reflexivity|exact Gq|exact C].
      eapply near_trans; [exact Nk|exact Nq|]. intros v. unfold at1. destruct (Nat.eqb tv v); reflexivity.
  - destruct (r_some _ _ _ _ N03 e n E) as (n3 & E3 & [L5 L5'] & Ve & Vv). rewrite E3.
    rewrite Nat.eqb_refl in Vv.
    destruct (near_kind _ _ _ _ _ _ N03 Ex) as (mx3 & Ex3 & [L6 L6']).
    exists true. eexists. split; [reflexivity|].
    assert (K : like n3 (w_edges (n_edges n3 ++ [mkEdge x sv tv]) n3)) by now split.
    split; [|split].
    + eapply (ginv_grow _ zero g3 e n3 _ x G3); [reflexivity|reflexivity|exact E3|exact K| |reflexivity|].
      * pose proof (g_shape _ _ G3 _ _ E3) as Sh. apply shape_edges; try congruence.
        intros v k Hv Hk. unfold edge_curves in Hv. rewrite map_app in Hv. apply in_app_or in Hv.
        destruct Hv as [Hv|[<-|[]]]; [now apply (sh_504c _ _ _ Sh v)|].
        cbn [ed_curve] in Hk. unfold ty in Hk. rewrite Ex3 in Hk. injection Hk as <-. cbn [fst]. congruence.
      * intros b. rewrite !cnt_tgt_eq. cbn [n_des n_extras n_slots n_items n_edges n_verts w_edges].
        unfold edge_curves. rewrite map_app, cnt_app. cbn [map ed_curve]. rewrite cnt_cons, cnt_nil. lia.
    + intros i p Hp v. rewrite look_put in Hp. destruct (Nat.eqb i e) eqn:Q.
      * injection Hp as <-. cbn [n_verts n_edges w_edges]. rewrite uses_app, Vv, Ve, (C e n E v). unfold d3, at1.
        cbn [ed_start ed_stop]. destruct (Nat.eqb sv v), (Nat.eqb tv v); lia.
      * destruct (look g i) as [pi|] eqn:Ei; [|rewrite (r_none _ _ _ _ N03 i Ei) in Hp; discriminate].
        destruct (r_some _ _ _ _ N03 i pi Ei) as (p' & Hp' & _ & W1 & W2).
        rewrite Hp in Hp'. injection Hp' as <-. rewrite W1, W2, Q, Z.add_0_r. now apply (C i).
    + intros St. pose proof (r_store _ _ _ _ N03 St) as [S1 S2]. split; [exact S1|].
      intros y Hy. apply put_live, S2, Hy.
Qed.
