(** Proofs: the records of an outline section and the loops they mean. *)

From Coq Require Import Lia Lqa.
From Verif Require Import Base Num IoModel IdfText Spec IdfSpec IdfOutl IdfOutlSpec.
Open Scope Z_scope.

(** ** Tests *)

Lemma Forall2_len {A B} (P : A -> B -> Prop) l m : Forall2 P l m -> length l = length m.
Proof. intros H. induction H; cbn; congruence. Qed.

Lemma qltb_iff a b : qltb a b = true <-> (a < b)%Q.
Proof.
  unfold qltb. rewrite negb_true_iff. split; intros H.
  - apply Qnot_le_lt. intros L. apply Qle_bool_iff in L. congruence.
  - apply not_true_iff_false. intros L. apply Qle_bool_iff in L. exact (Qlt_not_le _ _ H L).
Qed.
Lemma qltb_no a b : qltb a b = false <-> (b <= a)%Q.
Proof. unfold qltb. rewrite negb_false_iff. apply Qle_bool_iff. Qed.

Lemma full_iff a : full_deg a = true <-> round a.
Proof.
  unfold full_deg, round, min_deg. rewrite andb_true_iff, !qltb_iff. split; intros [A B]; split; lra.
Qed.
Lemma full_no a : full_deg a = false <-> ~ round a.
Proof. rewrite <- full_iff. destruct (full_deg a); split; congruence. Qed.

Lemma bent_no a : qltb a (- min_deg) || qltb min_deg a = false <-> straight a.
Proof. unfold straight, min_deg. rewrite orb_false_iff, !qltb_no. split; intros [A B]; split; lra. Qed.

Lemma straight_not_round a : straight a -> ~ round a.
Proof. unfold straight, round. intros [A B] [C D]. assert (Qabs a <= 1 # 100)%Q by (apply Qabs_Qle_condition; split; lra). lra. Qed.

Lemma taken_new p q a : exists a', taken a a' /\ new_seg p q a = mkQs p q a'.
Proof.
  unfold new_seg. destruct (qltb (- min_deg) a && qltb a min_deg) eqn:S.
  - apply andb_true_iff in S. rewrite !qltb_iff in S. unfold min_deg in S. exists 0%Q. split; [left|reflexivity]. split; [|reflexivity]. unfold straight. lra.
  - unfold seg_deg. destruct (full_deg a) eqn:F.
    + apply full_iff in F. exists 360%Q. split; [right; left; auto|reflexivity].
    + apply full_no in F. destruct (qltb min_deg a || qltb a (- min_deg)) eqn:B.
      * exists a. split; [right; right|reflexivity]. split; [|auto]. intros T. apply bent_no in T. rewrite orb_comm in T. congruence.
      * rewrite orb_comm in B. apply bent_no in B. exists 0%Q. split; [left; auto|reflexivity].
Qed.
Lemma taken_det a x y : taken a x -> taken a y -> x = y.
Proof.
  intros [[A ->]|[[A ->]|(A & B & ->)]] [[C ->]|[[C ->]|(C & D & ->)]]; try reflexivity; try tauto.
  - destruct (straight_not_round _ A C).
  - destruct (straight_not_round _ C A).
Qed.
Lemma new_taken p q a a' : taken a a' -> new_seg p q a = mkQs p q a'.
Proof. intros T. destruct (taken_new p q a) as (x & X & ->). rewrite (taken_det _ _ _ X T). reflexivity. Qed.

Lemma zero_not_full : full_deg 0 = false. Proof. reflexivity. Qed.
Lemma taken_full a a' : taken a a' -> full_deg a' = full_deg a.
Proof.
  intros [[A ->]|[[A ->]|(A & B & ->)]]; [| |reflexivity].
  - symmetry. rewrite zero_not_full. apply full_no, straight_not_round, A.
  - symmetry. change (full_deg 360) with true. apply full_iff, A.
Qed.
Lemma new_circle p q a : is_circle (new_seg p q a) = full_deg a.
Proof. destruct (taken_new p q a) as (a' & T & ->). exact (taken_full _ _ T). Qed.
Lemma new_start p q a : q_start (new_seg p q a) = p.
Proof. destruct (taken_new p q a) as (a' & T & ->). reflexivity. Qed.

Lemma matches_iff p q : q_matches p q = true <-> meets p q.
Proof. unfold q_matches, meets. apply Qle_bool_iff. Qed.
Lemma matches_no p q : q_matches p q = false <-> ~ meets p q.
Proof. rewrite <- matches_iff. destruct (q_matches p q); split; congruence. Qed.

(** ** Chains *)

Definition last_pt (p : qpt) (l : list mark) : qpt := fst (last l (p, 0%Q)).

Lemma last_pt_snoc p l q a : last_pt p (l ++ [(q, a)]) = q.
Proof. unfold last_pt. rewrite last_last. reflexivity. Qed.
Lemma last_pt_cons p q a l : last_pt p ((q, a) :: l) = last_pt q l.
Proof. unfold last_pt. destruct l as [|x l]; [reflexivity|]. cbn [last]. f_equal. revert x. induction l as [|y l IH]; intros x; [reflexivity|]. exact (IH y). Qed.

Lemma leads_snoc p l g q a : leads p l g -> leads p (l ++ [(q, a)]) (g ++ [new_seg (last_pt p l) q a]).
Proof.
  intros H. induction H as [p|p r b b' l g T L IH].
  - cbn. destruct (taken_new p q a) as (a' & T & E). unfold last_pt. cbn [last fst]. rewrite E. constructor; [exact T|constructor].
  - cbn [app]. rewrite last_pt_cons. constructor; [exact T|exact IH].
Qed.
Lemma leads_det p l g : leads p l g -> forall h, leads p l h -> g = h.
Proof.
  intros H. induction H as [p|p r b b' l g T L IH]; intros h K; inversion K; subst; [reflexivity|]. rewrite (taken_det _ _ _ T H4). f_equal. apply IH. assumption.
Qed.
Lemma leads_length p l g : leads p l g -> length g = length l.
Proof. intros H. induction H; cbn; congruence. Qed.
Lemma leads_head p l g s t : leads p l g -> g = s :: t -> q_start s = p.
Proof. intros H E. destruct H; [discriminate|]. injection E as <- _. reflexivity. Qed.
Lemma leads_split p l m g : leads p (l ++ [m]) g -> exists g', leads p l g' /\ g = g' ++ [new_seg (last_pt p l) (fst m) (snd m)].
Proof.
  destruct m as [q a]. revert p g. induction l as [|[r b] l IH]; intros p g H.
  - cbn [app] in H. inversion H as [|? ? ? a' ? g0 T L]; subst. inversion L; subst. exists []. split; [constructor|]. unfold last_pt. cbn [last fst snd app]. rewrite (new_taken p q a a' T). reflexivity.
  - cbn [app] in H. inversion H as [|? ? ? b' ? g0 T L]; subst. destruct (IH _ _ L) as (g' & L' & ->). exists (mkQs p r b' :: g'). split; [constructor; assumption|]. rewrite last_pt_cons. reflexivity.
Qed.

(** A loop is a circle if it has one segment. *)
Lemma loop_circle_one l g : loop_means l g -> loop_circle g = true <-> length g = 1%nat.
Proof.
  intros H. destruct H as [p a q b g S R L|p a [m c] mid q b g S N M E L].
  - inversion L as [|? ? ? b' ? g0 T L0]; subst. inversion L0; subst. cbn [length loop_circle is_circle q_ang]. unfold is_circle. cbn [q_ang]. rewrite (taken_full _ _ T). rewrite full_iff. tauto.
  - inversion L as [|? ? ? c' ? g0 T L0]; subst. pose proof (leads_length _ _ _ L0) as LE. rewrite app_length in LE. cbn [length] in *.
    unfold loop_circle, is_circle. cbn [q_ang]. rewrite (taken_full _ _ T). inversion N as [|? ? N1 N2]; subst. cbn in N1. apply full_no in N1. rewrite N1. split; [discriminate|lia].
Qed.
Lemma loop_nonempty l g : loop_means l g -> l <> [] /\ g <> [].
Proof.
  intros H. destruct H as [p a q b g S R L|p a [m c] mid q b g S N M E L]; (split; [discriminate|]); inversion L; discriminate.
Qed.

(** ** Within a loop *)

(** What has been read of a loop: whether it is closed, the last point, the segments. *)
Inductive progress : list mark -> bool -> qpt -> qloop -> Prop :=
| pr_first p a : straight a -> progress [(p, a)] false p []
| pr_open p a m mid g : straight a -> Forall (fun n => ~ round (snd n)) (m :: mid) -> Forall (fun n => ~ meets (fst n) p) mid ->
    leads p (m :: mid) g -> progress ((p, a) :: m :: mid) false (last_pt p (m :: mid)) g
| pr_closed l g p : loop_means l g -> progress l true p g.

Lemma point_on cur c pre g i done p a s : progress cur c pre g ->
  add_point (mkR i true c pre done (Some g)) p a = Some s ->
  exists c' g', s = mkR i true c' p done (Some g') /\ progress (cur ++ [(p, a)]) c' p g'.
Proof.
  intros H. unfold add_point. cbn [r_cur r_any negb r_closed r_pre r_idx r_done].
  destruct H as [p0 a0 S|p0 a0 m mid g S N M L|l g p0 LM]; [| |discriminate].
  - intros E. injection E as <-. rewrite new_circle. exists (full_deg a), [new_seg p0 p a]. split; [reflexivity|]. cbn [app].
    destruct (taken_new p0 p a) as (a' & T & EN). destruct (full_deg a) eqn:F.
    + apply full_iff in F. apply pr_closed. rewrite EN. apply means_circle; [exact S|exact F|]. constructor; [exact T|constructor].
    + apply full_no in F. replace p with (last_pt p0 [(p, a)]) at 2 by reflexivity. apply pr_open; [exact S|constructor; [exact F|constructor]|constructor|].
      rewrite EN. constructor; [exact T|constructor].
  - destruct g as [|f g]; [inversion L|]. rewrite new_circle. destruct (full_deg a) eqn:F; [discriminate|]. apply full_no in F. intros E. injection E as <-.
    pose proof (leads_head _ _ _ f g L eq_refl) as HD. rewrite HD.
    pose proof (leads_snoc p0 (m :: mid) (f :: g) p a L) as LS. cbn [app] in LS |- *.
    assert (NR : Forall (fun n : mark => ~ round (snd n)) (m :: mid ++ [(p, a)])).
    { change (m :: mid ++ [(p, a)]) with ((m :: mid) ++ [(p, a)]). apply Forall_app. split; [exact N|]. constructor; [exact F|constructor]. }
    exists (q_matches p p0), (f :: g ++ [new_seg (last_pt p0 (m :: mid)) p a]). split; [reflexivity|].
    destruct (q_matches p p0) eqn:Q.
    + apply matches_iff in Q. apply pr_closed. apply means_loop; assumption.
    + apply matches_no in Q. replace p with (last_pt p0 (m :: mid ++ [(p, a)])) at 2 by (change (m :: mid ++ [(p, a)]) with ((m :: mid) ++ [(p, a)]); apply last_pt_snoc).
      apply pr_open; [exact S|exact NR| |exact LS]. apply Forall_app. split; [exact M|]. constructor; [exact Q|constructor].
Qed.

Lemma point_first i done pre p a s : add_point (mkR i false false pre done (Some [])) p a = Some s ->
  s = mkR i true false p done (Some []) /\ progress [(p, a)] false p [].
Proof.
  unfold add_point. cbn [r_cur r_any negb r_closed r_pre r_idx r_done]. destruct (qltb a (- min_deg) || qltb min_deg a) eqn:B; [discriminate|].
  intros E. injection E as <-. split; [reflexivity|]. constructor. apply bent_no, B.
Qed.

(** ** Between loops *)

Definition settled (ccw : qloop -> bool) (ls : list qloop) : Prop :=
  forall a l b, ls = a ++ l :: b -> (a = [] -> ccw l = true) /\ (a <> [] -> ccw l = true -> length l = 1%nat).

Lemma snoc_split {A} (ls : list A) x a l b : ls ++ [x] = a ++ l :: b -> (b = [] /\ a = ls /\ l = x) \/ exists b', b = b' ++ [x] /\ ls = a ++ l :: b'.
Proof.
  destruct (list_rect (fun b => b = [] \/ exists b' y, b = b' ++ [y]) (or_introl eq_refl)
    (fun y t _ => or_intror (match exists_last (l := y :: t) ltac:(discriminate) with existT _ b' (exist _ z e) => ex_intro _ b' (ex_intro _ z e) end)) b) as [->|(b' & y & ->)].
  - intros E. change (a ++ [l]) with (a ++ [l]) in E. apply app_inj_tail in E as (-> & ->). left. auto.
  - intros E. change (a ++ l :: b' ++ [y]) with (a ++ (l :: b') ++ [y]) in E. rewrite app_assoc in E. apply app_inj_tail in E as (-> & ->). right. exists b'. auto.
Qed.

Lemma wound_settled ccw ls x : wound ccw (ls ++ [x]) <-> settled ccw ls.
Proof.
  split.
  - intros W a l b E. apply (W a l (b ++ [x])); [rewrite E, <- app_assoc; reflexivity|]. destruct b; discriminate.
  - intros S a l b E N. destruct (snoc_split _ _ _ _ _ E) as [(-> & _)|(b' & -> & E')]; [congruence|]. exact (S a l b' E').
Qed.

Lemma settled_snoc ccw ls g : settled ccw (ls ++ [g]) <-> settled ccw ls /\ (ls = [] -> ccw g = true) /\ (ls <> [] -> ccw g = true -> length g = 1%nat).
Proof.
  split.
  - intros S. split.
    + intros a l b E. apply (S a l (b ++ [g])). rewrite E, <- app_assoc. reflexivity.
    + exact (S ls g [] eq_refl).
  - intros (S & G1 & G2) a l b E. destruct (snoc_split _ _ _ _ _ E) as [(-> & -> & ->)|(b' & -> & E')]; [auto|]. exact (S a l b' E').
Qed.

Lemma numbered_snoc i gs g : numbered i (gs ++ [g]) = numbered i gs ++ with_index (i + Z.of_nat (length gs)) g.
Proof.
  revert i. induction gs as [|h gs IH]; intros i; cbn [numbered app length].
  - rewrite Z.add_0_r. cbn [numbered]. now rewrite app_nil_r.
  - rewrite IH, <- app_assoc. do 3 f_equal. lia.
Qed.
Lemma index_snoc i l p a : with_index i (l ++ [(p, a)]) = with_index i l ++ [mkOr i p a].
Proof. unfold with_index. rewrite map_app. reflexivity. Qed.

Definition first_ok (single : bool) (i : Z) : Prop := i = 0 \/ (single = true /\ i = 1).

Definition inv (ccw : qloop -> bool) (single : bool) (rs : list orec) (s : rstate) : Prop :=
  (rs = [] /\ s = r_init) \/
  exists i gs cur g c pre done, let n := i + Z.of_nat (length gs) in
    s = mkR n true c pre done (Some g) /\ rs = numbered i gs ++ with_index n cur /\ first_ok single i /\ (single = true -> gs = []) /\
    Forall2 loop_means gs done /\ settled ccw done /\ progress cur c pre g.

Lemma inv_step ccw single rs s r s' : inv ccw single rs s -> step ccw single s r = Some s' -> inv ccw single (rs ++ [r]) s'.
Proof.
  destruct r as [k p a]. unfold step, change. cbn [or_idx or_pt or_ang]. intros [[-> ->]|(i & gs & cur & g & c & pre & done & -> & -> & FI & SG & FL & ST & PR)].
  - cbn [r_init r_idx r_any r_cur andb r_pre]. destruct (k =? -1) eqn:K; [discriminate|]. destruct (k <? 0) eqn:K0; [discriminate|].
    destruct ((k =? 0) || (single && (k =? 1))) eqn:F; [|discriminate]. intros E. destruct (point_first _ _ _ _ _ _ E) as (-> & P).
    right. exists k, [], [(p, a)], [], false, p, []. cbv zeta. cbn [length Z.of_nat]. rewrite Z.add_0_r. split; [reflexivity|]. split; [reflexivity|].
    split. { apply orb_true_iff in F as [F|F]; [left; lia|right]. apply andb_true_iff in F as [-> F]. split; [reflexivity|lia]. }
    split; [reflexivity|]. split; [constructor|]. split; [|exact P]. intros x l b E0. destruct x; discriminate.
  - set (n := i + Z.of_nat (length gs)) in *. cbn [r_idx r_any r_cur r_closed r_pre r_done].
    destruct (k =? n) eqn:K.
    + apply Z.eqb_eq in K. subst k. intros E. destruct (point_on _ _ _ _ _ _ _ _ _ PR E) as (c' & g' & -> & PR').
      right. exists i, gs, (cur ++ [(p, a)]), g', c', p, done. cbv zeta. fold n. split; [reflexivity|].
      split; [rewrite index_snoc, app_assoc; reflexivity|]. auto.
    + destruct c; cbn [negb andb]; [|discriminate]. destruct (k <? 0) eqn:K0; [discriminate|]. destruct single; [discriminate|].
      destruct (negb (k - n =? 1)) eqn:K1; [discriminate|]. apply negb_false_iff, Z.eqb_eq in K1.
      destruct ((n =? 0) && negb (ccw g) || (0 <? n) && ccw g && negb (loop_circle g)) eqn:W; [discriminate|].
      intros E. destruct (point_first _ _ _ _ _ _ E) as (-> & P).
      assert (LM : loop_means cur g) by (inversion PR; assumption).
      right. exists i, (gs ++ [cur]), [(p, a)], [], false, p, (done ++ [g]). cbv zeta. rewrite app_length. cbn [length]. replace (i + Z.of_nat (length gs + 1)) with k by (unfold n in K1; lia).
      split; [reflexivity|]. split. { rewrite numbered_snoc. fold n. reflexivity. }
      split; [exact FI|]. split; [discriminate|]. split; [apply Forall2_app; [exact FL|constructor; [exact LM|constructor]]|]. split; [|exact P].
      destruct FI as [->|(X & _)]; [|discriminate]. apply settled_snoc. split; [exact ST|].
      apply orb_false_iff in W as [W1 W2]. pose proof (Forall2_len _ _ _ FL) as LE. split.
      * intros ->. cbn in LE. assert (n = 0) by (unfold n; rewrite LE; reflexivity). rewrite (proj2 (Z.eqb_eq n 0) H) in W1. now apply negb_false_iff in W1.
      * intros N C. rewrite C in W2. assert (P0 : 0 < n). { destruct done; [congruence|]. unfold n. rewrite LE. cbn [length]. lia. }
        rewrite (proj2 (Z.ltb_lt 0 n) P0) in W2. cbn [andb] in W2. apply negb_false_iff in W2. now apply (loop_circle_one _ _ LM).
Qed.

Lemma inv_steps ccw single rs2 : forall rs s s', inv ccw single rs s -> steps ccw single s rs2 = Some s' -> inv ccw single (rs ++ rs2) s'.
Proof.
  induction rs2 as [|r rs2 IH]; intros rs s s' H E; cbn [steps] in E.
  - injection E as <-. rewrite app_nil_r. exact H.
  - destruct (step ccw single s r) as [s1|] eqn:S; [|discriminate]. replace (rs ++ r :: rs2) with ((rs ++ [r]) ++ rs2) by (rewrite <- app_assoc; reflexivity).
    apply (IH (rs ++ [r]) s1 s'); [|exact E]. exact (inv_step _ _ _ _ _ _ H S).
Qed.

Lemma sound ccw single rs s ls : steps ccw single r_init rs = Some s -> finish s = Some ls -> section_means ccw single rs ls.
Proof.
  intros E F. destruct (inv_steps ccw single rs [] r_init s (or_introl (conj eq_refl eq_refl)) E) as [[R ->]|(i & gs & cur & g & c & pre & done & -> & R & FI & SG & FL & ST & PR)].
  - cbn in R. subst rs. cbn in F. injection F as <-. exists 0, []. split; [reflexivity|]. split; [constructor|]. split; [left; reflexivity|]. split; [cbn; lia|].
    intros a l b X. destruct a; discriminate.
  - cbn [app] in R. cbn [finish r_cur r_any r_closed loops r_done] in F. unfold finish in F. cbn [r_cur r_any r_closed andb] in F. destruct c; [|discriminate]. cbn [negb] in F. injection F as <-.
    assert (LM : loop_means cur g) by (inversion PR; assumption). exists i, (gs ++ [cur]). split; [rewrite numbered_snoc; exact R|].
    split; [apply Forall2_app; [exact FL|constructor; [exact LM|constructor]]|]. split; [exact FI|]. split; [intros X; rewrite (SG X); cbn; lia|].
    unfold loops. cbn [r_cur r_done]. apply wound_settled, ST.
Qed.

(** ** The other way *)

Lemma steps_app ccw single a b : forall s, steps ccw single s (a ++ b) = match steps ccw single s a with None => None | Some s' => steps ccw single s' b end.
Proof. induction a as [|r a IH]; intros s; cbn [app steps]; [reflexivity|]. destruct (step ccw single s r); [apply IH|reflexivity]. Qed.

(** A point of the same loop. *)
Lemma same_step ccw single i any c pre done cur p a : step ccw single (mkR i any c pre done cur) (mkOr i p a) = add_point (mkR i any c pre done cur) p a.
Proof. unfold step, change. cbn [or_idx or_pt or_ang r_idx]. rewrite Z.eqb_refl. reflexivity. Qed.

Lemma mid_steps ccw single i done p0 mid : forall m g, Forall (fun n => ~ round (snd n)) (m ++ mid) -> m <> [] -> Forall (fun n => ~ meets (fst n) p0) mid ->
  leads p0 m g ->
  exists g', leads p0 (m ++ mid) g' /\
    steps ccw single (mkR i true false (last_pt p0 m) done (Some g)) (with_index i mid) = Some (mkR i true false (last_pt p0 (m ++ mid)) done (Some g')).
Proof.
  induction mid as [|[q b] mid IH]; intros m g N NE M L; cbn [with_index map steps].
  - exists g. rewrite app_nil_r. auto.
  - cbn [fst snd]. rewrite same_step. inversion M as [|? ? M1 M2]; subst. cbn in M1. apply Forall_app in N as N'. destruct N' as [N1 N2]. inversion N2 as [|? ? N3 N4]; subst. cbn in N3.
    unfold add_point. cbn [r_cur r_any negb r_closed r_pre r_idx r_done]. destruct g as [|f g]; [apply leads_length in L; destruct m; [congruence|discriminate]|].
    rewrite new_circle, (proj2 (full_no b) N3), (leads_head _ _ _ f g L eq_refl), (proj2 (matches_no q p0) M1).
    replace (m ++ (q, b) :: mid) with ((m ++ [(q, b)]) ++ mid) in * by (rewrite <- app_assoc; reflexivity).
    destruct (IH (m ++ [(q, b)]) _ N ltac:(destruct m; discriminate) M2 (leads_snoc p0 m (f :: g) q b L)) as (g' & L' & E).
    exists g'. split; [exact L'|]. rewrite last_pt_snoc in E. exact E.
Qed.

(** A whole loop, from the state in which its first point is expected. *)
Lemma loop_steps ccw single i done l g : loop_means l g -> exists p a l', l = (p, a) :: l' /\ straight a /\ exists pre',
  steps ccw single (mkR i true false p done (Some [])) (with_index i l') = Some (mkR i true true pre' done (Some g)).
Proof.
  intros H. destruct H as [p a q b g S R L|p a m mid q b g S N M E L].
  - exists p, a, [(q, b)]. split; [reflexivity|]. split; [exact S|]. exists q. cbn [with_index map steps fst snd]. rewrite same_step. unfold add_point. cbn [r_cur r_any negb r_closed r_pre r_idx r_done].
    rewrite new_circle, (proj2 (full_iff b) R). inversion L as [|? ? ? b' ? g0 T L0]; subst. inversion L0; subst. rewrite (new_taken p q b b' T). reflexivity.
  - exists p, a, (m :: mid ++ [(q, b)]). split; [reflexivity|]. split; [exact S|]. exists q.
    change (m :: mid ++ [(q, b)]) with ((m :: mid) ++ [(q, b)]) in *. destruct (leads_split _ _ _ _ L) as (g0 & L0 & ->). cbn [fst snd].
    apply Forall_app in N as [N1 N2]. inversion N2 as [|? ? NB _]; subst. cbn in NB.
    destruct m as [q1 b1]. inversion N1 as [|? ? NM NMID]; subst. cbn in NM.
    assert (L1 : leads p [(q1, b1)] [new_seg p q1 b1]). { exact (leads_snoc p [] [] q1 b1 (leads_nil p)). }
    destruct (mid_steps ccw single i done p mid [(q1, b1)] _ N1 ltac:(discriminate) M L1) as (g1 & L2 & ES).
    cbn [app] in L2, ES. rewrite (leads_det _ _ _ L0 _ L2).
    assert (EI : with_index i (((q1, b1) :: mid) ++ [(q, b)]) = mkOr i q1 b1 :: with_index i mid ++ [mkOr i q b]) by (cbn [app]; change ((q1, b1) :: mid ++ [(q, b)]) with ([(q1, b1)] ++ mid ++ [(q, b)]); unfold with_index; rewrite !map_app; reflexivity).
    rewrite EI. cbn [steps]. rewrite same_step.
    assert (A1 : add_point (mkR i true false p done (Some [])) q1 b1 = Some (mkR i true false q1 done (Some [new_seg p q1 b1]))).
    { unfold add_point. cbn [r_cur r_any negb r_closed r_pre r_idx r_done]. rewrite new_circle, (proj2 (full_no b1) NM). reflexivity. }
    rewrite A1. cbv beta iota. unfold last_pt in ES at 1. cbn [last fst] in ES. rewrite steps_app. unfold qloop in *. rewrite ES. cbn [steps]. rewrite same_step.
    unfold add_point. cbn [r_cur r_any negb r_closed r_pre r_idx r_done]. destruct g1 as [|f g1]; [inversion L2|].
    rewrite new_circle, (proj2 (full_no b) NB), (leads_head _ _ _ f g1 L2 eq_refl), (proj2 (matches_iff q p) E). reflexivity.
Qed.

Lemma point_start i done pre p a : straight a -> add_point (mkR i false false pre done (Some [])) p a = Some (mkR i true false p done (Some [])).
Proof. intros S. unfold add_point. cbn [r_cur r_any negb r_closed r_pre r_idx r_done]. rewrite (proj2 (bent_no a) S). reflexivity. Qed.

Lemma more_loops ccw : forall gs ls i pre done l0 g0, loop_means l0 g0 -> i = Z.of_nat (length done) ->
  Forall2 loop_means gs ls -> settled ccw done -> wound ccw (done ++ g0 :: ls) -> exists s,
  steps ccw false (mkR i true true pre done (Some g0)) (numbered (i + 1) gs) = Some s /\ finish s = Some (done ++ g0 :: ls).
Proof.
  induction gs as [|l gs IH]; intros ls i pre done l0 g0 L0 EI FL ST W; inversion FL as [|? g ? ls' LM FL']; subst; cbn [numbered].
  - eexists. split; [reflexivity|]. reflexivity.
  - destruct (loop_steps ccw false (Z.of_nat (length done) + 1) (done ++ [g0]) l g LM) as (p & a & l' & -> & S & pre' & E).
    rewrite steps_app. cbn [with_index map steps fst snd]. fold (with_index (Z.of_nat (length done) + 1) l').
    assert (W0 := W done g0 (g :: ls') eq_refl ltac:(discriminate)). destruct W0 as [W1 W2].
    assert (ES : step ccw false (mkR (Z.of_nat (length done)) true true pre done (Some g0)) (mkOr (Z.of_nat (length done) + 1) p a) =
      Some (mkR (Z.of_nat (length done) + 1) true false p (done ++ [g0]) (Some []))).
    { unfold step, change. cbn [or_idx or_pt or_ang r_idx r_any r_closed r_cur negb andb r_pre r_done].
      destruct (Z.of_nat (length done) + 1 =? Z.of_nat (length done)) eqn:K; [lia|]. pose proof (Zle_0_nat (length done)) as LZ. destruct (Z.of_nat (length done) + 1 <? 0) eqn:K0; [apply Z.ltb_lt in K0; lia|].
      destruct (negb (Z.of_nat (length done) + 1 - Z.of_nat (length done) =? 1)) eqn:K1; [apply negb_true_iff, Z.eqb_neq in K1; exfalso; apply K1; ring|].
      assert (WW : (Z.of_nat (length done) =? 0) && negb (ccw g0) || (0 <? Z.of_nat (length done)) && ccw g0 && negb (loop_circle g0) = false).
      { apply orb_false_iff. split.
        - destruct done; [|reflexivity]. rewrite (W1 eq_refl). reflexivity.
        - destruct (ccw g0) eqn:C; [|now rewrite andb_false_r]. destruct done as [|d done]; [reflexivity|].
          rewrite (proj2 (loop_circle_one _ _ L0) (W2 ltac:(discriminate) eq_refl)). now rewrite andb_false_r. }
      rewrite WW. apply point_start, S. }
    rewrite ES, E.
    destruct (IH ls' (Z.of_nat (length done) + 1) pre' (done ++ [g0]) ((p, a) :: l') g LM) as (s & E1 & E2).
    + rewrite app_length. cbn [length]. lia.
    + exact FL'.
    + apply settled_snoc. split; [exact ST|]. auto.
    + rewrite <- app_assoc. exact W.
    + exists s. split; [exact E1|]. rewrite E2, <- app_assoc. reflexivity.
Qed.

Lemma complete ccw single rs ls : section_means ccw single rs ls -> exists s, steps ccw single r_init rs = Some s /\ finish s = Some ls.
Proof.
  intros (i & gs & -> & FL & FI & SG & W). destruct FL as [|l g gs ls LM FL]; cbn [numbered].
  - exists r_init. auto.
  - destruct (loop_steps ccw single i [] l g LM) as (p & a & l' & -> & S & pre' & E).
    rewrite steps_app. cbn [with_index map steps fst snd]. fold (with_index i l').
    assert (ES : step ccw single r_init (mkOr i p a) = Some (mkR i true false p [] (Some []))).
    { unfold step, change. cbn [or_idx or_pt or_ang r_init r_idx r_any r_closed r_cur negb andb r_pre r_done].
      destruct (i =? -1) eqn:K; [destruct FI as [->|[_ ->]]; discriminate|]. destruct (i <? 0) eqn:K0; [destruct FI as [->|[_ ->]]; discriminate|].
      assert (F : (i =? 0) || single && (i =? 1) = true) by (destruct FI as [->|[-> ->]]; reflexivity). rewrite F. apply point_start, S. }
    rewrite ES, E. destruct single.
    + specialize (SG eq_refl). cbn [length] in SG. destruct FL as [|x y gs ls]; [|cbn [length] in SG; lia]. cbn [numbered steps]. eexists. split; reflexivity.
    + destruct FI as [->|(X & _)]; [|discriminate].
      destruct (more_loops ccw gs ls 0 pre' [] ((p, a) :: l') g LM eq_refl FL) as (s & E1 & E2).
      * intros x y z X. destruct x; discriminate.
      * exact W.
      * exists s. split; [exact E1|exact E2].
Qed.

Lemma records_iff ccw single rs ls : (exists s, steps ccw single r_init rs = Some s /\ finish s = Some ls) <-> section_means ccw single rs ls.
Proof. split; [intros (s & E & F); exact (sound _ _ _ _ _ E F)|apply complete]. Qed.
