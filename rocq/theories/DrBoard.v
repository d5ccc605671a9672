From Coq Require Import List Bool Arith Lia Sorting.Permutation Sorting.Sorted.
From Verif Require Import DrModel DrSpec DrFacts.
Import ListNotations.

Section Sort.
Context {D : Type}.
Variable closer : D -> D -> D -> bool.

Lemma exchange_perm f : forall l x m r, exchange closer f x l = (m, r) -> Permutation (x :: l) (m :: r).
Proof.
  induction l as [|y l IH]; cbn [exchange]; intros x m r E.
  - injection E as <- <-. reflexivity.
  - destruct (closer f y x); [destruct (exchange closer f y l) as (m0 & r0) eqn:Q|destruct (exchange closer f x l) as (m0 & r0) eqn:Q]; injection E as <- <-.
    + apply IH in Q. rewrite Q. apply perm_swap.
    + apply IH in Q. rewrite perm_swap, Q. apply perm_swap.
Qed.

Lemma sorted_perm f : forall n l, Permutation l (sorted closer n f l).
Proof.
  induction n as [|n IH]; intros [|x l]; cbn [sorted]; try reflexivity.
  destruct (exchange closer f x l) as (m & r) eqn:E. rewrite (exchange_perm _ _ _ _ _ E). constructor. apply IH.
Qed.

Lemma in_order_perm f l : Permutation l (in_order closer f l).
Proof. apply sorted_perm. Qed.

Definition not_closer f a b := closer f b a = false.
Hypothesis weak : forall f a b c, closer f b a = false -> closer f c b = false -> closer f c a = false.
Hypothesis asym : forall f a b, closer f a b = true -> closer f b a = false.

Lemma irrefl f a : closer f a a = false.
Proof. destruct (closer f a a) eqn:E; [|reflexivity]. rewrite (asym _ _ _ E) in E. discriminate. Qed.

Lemma exchange_least f : forall l x m r, exchange closer f x l = (m, r) -> closer f x m = false /\ forall y, In y r -> closer f y m = false.
Proof.
  induction l as [|y l IH]; cbn [exchange]; intros x m r E.
  - injection E as <- <-. split; [apply irrefl|intros y []].
  - destruct (closer f y x) eqn:C.
    + destruct (exchange closer f y l) as (m0 & r0) eqn:Q. injection E as <- <-. apply IH in Q as (A & B).
      assert (X : closer f x m0 = false) by (eapply weak; [exact A|apply asym; exact C]). split; [exact X|]. intros z [<-|I]; auto.
    + destruct (exchange closer f x l) as (m0 & r0) eqn:Q. injection E as <- <-. apply IH in Q as (A & B).
      split; [exact A|]. intros z [<-|I]; [eapply weak; eauto|auto].
Qed.

Lemma sorted_sorted f : forall n l, length l <= n -> StronglySorted (not_closer f) (sorted closer n f l).
Proof.
  induction n as [|n IH]; intros [|x l] L; cbn [sorted]; [apply SSorted_nil|cbn in L; lia|apply SSorted_nil|].
  destruct (exchange closer f x l) as (m & r) eqn:E. apply SSorted_cons.
  - apply IH. apply exchange_perm, Permutation_length in E. cbn in *. lia.
  - apply Forall_forall. intros y I. eapply (proj2 (exchange_least _ _ _ _ _ E)). eapply Permutation_in; [symmetry; apply sorted_perm|exact I].
Qed.

Lemma in_order_sorted f l : StronglySorted (not_closer f) (in_order closer f l).
Proof. apply sorted_sorted. lia. Qed.
End Sort.

Section Board.
Context {D O B : Type}.
Variables (closer : D -> D -> D -> bool) (begin : D -> O) (add : O -> D -> reply O).
Variables (sub : B -> D -> reply B) (put_cutout : B -> O -> reply B) (put_hole : B -> D -> reply B) (meet : D -> D -> answer).

Definition makes b := fst (bundle_outline closer begin add b) = true.

Lemma bundle_made b ok e : bundle_outline closer begin add b = (ok, e) ->
  (ok = true /\ exists o l, e = Alive o l /\ Permutation b l) \/ (ok = false /\ e = Freed).
Proof.
  unfold bundle_outline. destruct b as [|f l]; [intros H; injection H as <- <-; right; auto|].
  destruct (add_all add (begin f) (in_order closer f l)) as ([|] & o) eqn:E; intros H; injection H as <- <-; [left|right; auto].
  split; [reflexivity|]. exists o, (f :: in_order closer f l). split; [reflexivity|]. constructor. apply in_order_perm.
Qed.

Fixpoint members (cs : list (@entry D O)) : list D :=
  match cs with [] => [] | Alive _ m :: r => m ++ members r | Freed :: r => members r end.

Lemma members_app a b : members (a ++ b) = members a ++ members b.
Proof. induction a as [|[o m|] a IH]; cbn; [reflexivity|rewrite IH; apply app_assoc|exact IH]. Qed.

Lemma bundle_all_ok : forall bs cs,
  (Forall makes bs /\ exists c, bundle_all closer begin add bs cs = (cs ++ c, []) /\ Permutation (members c) (concat bs) /\ ~ In Freed c) \/
  (~ Forall makes bs /\ exists c r, bundle_all closer begin add bs cs = (cs ++ c, r) /\ In Freed c).
Proof.
  induction bs as [|b bs IH]; intros cs; cbn [bundle_all].
  - left. split; [constructor|]. exists []. rewrite app_nil_r. cbn. auto.
  - destruct (bundle_outline closer begin add b) as (ok & e) eqn:E. destruct (bundle_made _ _ _ E) as [(-> & o & l & -> & P)|(-> & ->)].
    + destruct (IH (cs ++ [Alive o l])) as [(F & c & -> & Pc & N)|(F & c & r & -> & I)].
      * left. split; [constructor; [unfold makes; now rewrite E|exact F]|]. exists (Alive o l :: c). split; [rewrite <- app_assoc; reflexivity|].
        split; [cbn; rewrite P, Pc; reflexivity|]. intros [X|X]; [discriminate|auto].
      * right. split; [intros H; inversion H; auto|]. exists (Alive o l :: c), r. split; [rewrite <- app_assoc; reflexivity|right; exact I].
    + right. split; [intros H; inversion H as [|? ? H1]; unfold makes in H1; rewrite E in H1; discriminate|]. exists [Freed], (b :: bs). split; [reflexivity|left; reflexivity].
Qed.

Lemma alive_some (cs : list (@entry D O)) : ~ In Freed cs -> exists x, all_alive cs = Some x /\ concat (map snd x) = members cs.
Proof.
  induction cs as [|[o m|] cs IH]; cbn; intros N; [exists []; auto| |exfalso; auto].
  destruct IH as (x & -> & E); [tauto|]. exists ((o, m) :: x). cbn. now rewrite E.
Qed.

Lemma alive_none (cs : list (@entry D O)) : In Freed cs -> all_alive cs = None.
Proof. induction cs as [|[o m|] cs IH]; cbn; intros I; [destruct I|destruct I as [X|I]; [discriminate|rewrite IH by exact I; reflexivity]|reflexivity]. Qed.

Lemma cut_edge_perm : forall l o o' t k, cut_edge sub o l = Some (o', t, k) -> Permutation l (t ++ k).
Proof.
  induction l as [|d l IH]; cbn [cut_edge]; intros o o' t k H; [injection H as <- <- <-; reflexivity|].
  destruct (sub o d) as [o1|o1|o1]; [| |discriminate].
  - destruct (cut_edge sub o1 l) as [((o2 & t2) & k2)|] eqn:E; [|discriminate]. injection H as <- <- <-. cbn. constructor. eauto.
  - destruct (cut_edge sub o1 l) as [((o2 & t2) & k2)|] eqn:E; [|discriminate]. injection H as <- <- <-. apply Permutation_cons_app. eauto.
Qed.

Lemma give_perm : forall l o o' t k, give add o l = Some (o', t, k) -> Permutation l (t ++ k).
Proof.
  induction l as [|d l IH]; cbn [give]; intros o o' t k H; [injection H as <- <- <-; reflexivity|].
  destruct (add o d) as [o1|o1|o1]; [| |discriminate].
  - destruct (give add o1 l) as [((o2 & t2) & k2)|] eqn:E; [|discriminate]. injection H as <- <- <-. cbn. constructor. eauto.
  - destruct (give add o1 l) as [((o2 & t2) & k2)|] eqn:E; [|discriminate]. injection H as <- <- <-. apply Permutation_cons_app. eauto.
Qed.

Lemma give_all_perm : forall cs l cs' k, give_all add cs l = Some (cs', k) ->
  Permutation (concat (map snd cs) ++ l) (concat (map snd cs') ++ k).
Proof.
  induction cs as [|(o & m) cs IH]; cbn [give_all]; intros l cs' k H; [injection H as <- <-; reflexivity|].
  destruct (give add o l) as [((o2 & t2) & k2)|] eqn:E; [|discriminate]. destruct (give_all add cs k2) as [(cs2 & k3)|] eqn:E2; [|discriminate].
  injection H as <- <-. cbn. rewrite (give_perm _ _ _ _ _ E). rewrite <- !app_assoc. apply Permutation_app_head.
  rewrite <- (IH _ _ _ E2). rewrite !app_assoc. apply Permutation_app_tail. apply Permutation_app_comm.
Qed.

Lemma put_cutouts_perm : forall cs o o' (i x : list D), put_cutouts put_cutout o cs = (o', i, x) -> Permutation (concat (map snd cs)) (i ++ x).
Proof.
  induction cs as [|(c & m) cs IH]; cbn [put_cutouts]; intros o o' i x H; [injection H as <- <- <-; reflexivity|]. cbn.
  destruct (put_cutout o c) as [o1|o1|o1]; destruct (put_cutouts put_cutout o1 cs) as ((o2 & i2) & x2) eqn:E;
    injection H as <- <- <-; apply IH in E; rewrite E.
  - rewrite app_assoc; reflexivity.
  - rewrite !app_assoc. apply Permutation_app_tail. apply Permutation_app_comm.
  - rewrite !app_assoc. apply Permutation_app_tail. apply Permutation_app_comm.
Qed.

Lemma put_holes_perm : forall l o o' i x, put_holes put_hole o l = (o', i, x) -> Permutation l (i ++ x).
Proof.
  induction l as [|d l IH]; cbn [put_holes]; intros o o' i x H; [injection H as <- <- <-; reflexivity|].
  destruct (put_hole o d) as [o1|o1|o1]; destruct (put_holes put_hole o1 l) as ((o2 & i2) & x2) eqn:E;
    injection H as <- <- <-; apply IH in E; rewrite E; [reflexivity|apply Permutation_middle|apply Permutation_middle].
Qed.

Notation run := (make_board closer begin add sub put_cutout put_hole meet).

Lemma fresh_members cutouts : members (map (fun o => @Alive D O o []) cutouts) = [].
Proof. induction cutouts; cbn; auto. Qed.

Lemma fresh_alive cutouts : ~ In Freed (map (fun o => @Alive D O o []) cutouts).
Proof. intros I. apply in_map_iff in I as (x & E & _). discriminate. Qed.

Definition drills_of (b : @board D B) : list D := on_edge b ++ in_cutouts b ++ as_holes b ++ dropped b.

Lemma after_merge l cs lost edge drills r : Permutation drills (members cs ++ l ++ lost) -> ~ In Freed cs ->
  (match all_alive cs with None => Dies | Some cs' => match cut_edge sub edge l with None => Fails | Some (o, on, l') =>
     match give_all add cs' l' with None => Fails | Some (cs'', l'') =>
       let '(o2, inc, x1) := put_cutouts put_cutout o cs'' in let '(o3, holes, x2) := put_holes put_hole o2 l'' in
       Makes (Board o3 on inc holes (x1 ++ x2) lost) end end end) = r ->
  r = Fails \/ exists b, r = Makes b /\ Permutation drills (drills_of b ++ vanished b) /\ vanished b = lost.
Proof.
  intros P N H. destruct (alive_some _ N) as (cs' & E & M). rewrite E in H.
  destruct (cut_edge sub edge l) as [((o & on) & l')|] eqn:E1; [|left; congruence].
  destruct (give_all add cs' l') as [(cs'' & l'')|] eqn:E2; [|left; congruence].
  destruct (put_cutouts put_cutout o cs'') as ((o2 & inc) & x1) eqn:E3. destruct (put_holes put_hole o2 l'') as ((o3 & holes) & x2) eqn:E4.
  right. eexists. split; [symmetry; exact H|]. unfold drills_of. cbn [on_edge in_cutouts as_holes dropped vanished]. split; [|reflexivity].
  apply cut_edge_perm in E1. apply give_all_perm in E2. apply put_cutouts_perm in E3. apply put_holes_perm in E4.
  rewrite M in E2. rewrite P, E1. rewrite E3, E4 in E2.
  rewrite !app_assoc. apply Permutation_app_tail.
  rewrite (Permutation_app_comm (members cs)). rewrite <- !app_assoc. apply Permutation_app_head. rewrite E2.
  rewrite <- !app_assoc. apply Permutation_app_head.
  rewrite !app_assoc. apply Permutation_app_tail. apply Permutation_app_comm.
Qed.

Theorem board_cases edge cutouts drills :
  exists l bs f, merge meet drills = Merged l bs f /\
  (f = false -> ~ Forall makes bs -> run edge cutouts drills = Dies) /\
  ((f = true \/ Forall makes bs) ->
     run edge cutouts drills = Fails \/
     exists b, run edge cutouts drills = Makes b /\ Permutation drills (drills_of b ++ vanished b) /\ vanished b = if f then concat bs else []).
Proof.
  destruct (merge_outcome meet drills) as (l & bs & f & E & P & _). exists l, bs, f. split; [exact E|].
  unfold make_board, merge_drills. rewrite E.
  assert (F0 := fresh_members cutouts). assert (A0 := fresh_alive cutouts). set (cs := map (fun o => Alive o []) cutouts) in *.
  destruct f.
  - split; [discriminate|]. intros _. apply (after_merge l cs (concat bs) edge drills _); [rewrite F0; exact P|exact A0|reflexivity].
  - destruct (bundle_all_ok bs cs) as [(F & c & -> & Pc & N)|(F & c & r & -> & I)].
    + split; [intros _ X; contradiction|]. intros _. cbn [concat].
      apply (after_merge l (cs ++ c) [] edge drills _); [|intros I; apply in_app_or in I as [I|I]; auto|reflexivity].
      rewrite members_app, F0, app_nil_r, Pc. cbn. rewrite P. apply Permutation_app_comm.
    + split; [intros _ _; rewrite alive_none by (apply in_or_app; right; exact I); reflexivity|]. intros [X|X]; [discriminate|contradiction].
Qed.

(** ** What follows *)

Theorem board_accounts edge cutouts drills b : run edge cutouts drills = Makes b -> Permutation drills (drills_of b ++ vanished b).
Proof.
  intros H. destruct (board_cases edge cutouts drills) as (l & bs & f & _ & A & C).
  destruct (Forall_Exists_dec makes (fun b => bool_dec (fst (bundle_outline closer begin add b)) true) bs) as [F|F].
  - destruct (C (or_intror F)) as [X|(b' & X & P & _)]; rewrite H in X; [discriminate|]. injection X as <-. exact P.
  - destruct f.
    + destruct (C (or_introl eq_refl)) as [X|(b' & X & P & _)]; rewrite H in X; [discriminate|]. injection X as <-. exact P.
    + rewrite A in H; [discriminate|reflexivity|]. intros G. apply Exists_exists in F as (x & I & N). rewrite Forall_forall in G. apply N, G, I.
Qed.

Theorem board_complete edge cutouts drills b : flag_free meet drills -> run edge cutouts drills = Makes b -> vanished b = [].
Proof.
  intros FF H. destruct (merge_outcome meet drills) as (l & bs & f & E & P & _ & _ & _ & Fl).
  destruct (board_cases edge cutouts drills) as (l' & bs' & f' & E' & A & C). rewrite E in E'. injection E' as <- <- <-.
  destruct f; [destruct (Fl eq_refl) as (x & y & Ix & Q); exfalso; exact (FF x y Ix Q)|].
  destruct (Forall_Exists_dec makes (fun b => bool_dec (fst (bundle_outline closer begin add b)) true) bs) as [F|F].
  - destruct (C (or_intror F)) as [X|(b' & X & _ & V)]; rewrite H in X; [discriminate|]. injection X as <-. exact V.
  - rewrite A in H; [discriminate|reflexivity|]. intros G. apply Exists_exists in F as (x & I & N). rewrite Forall_forall in G. apply N, G, I.
Qed.

Theorem board_dies edge cutouts drills : run edge cutouts drills = Dies <->
  exists l bs b, merge meet drills = Merged l bs false /\ In b bs /\ ~ makes b.
Proof.
  destruct (board_cases edge cutouts drills) as (l & bs & f & E & A & C). split.
  - intros H. destruct (Forall_Exists_dec makes (fun b => bool_dec (fst (bundle_outline closer begin add b)) true) bs) as [F|F].
    + destruct (C (or_intror F)) as [X|(b' & X & _)]; rewrite H in X; discriminate.
    + destruct f; [destruct (C (or_introl eq_refl)) as [X|(b' & X & _)]; rewrite H in X; discriminate|].
      apply Exists_exists in F as (x & I & N). exists l, bs, x. auto.
  - intros (l' & bs' & b & E' & I & N). rewrite E in E'. injection E' as <- <- ->. apply A; [reflexivity|].
    intros G. rewrite Forall_forall in G. apply N, G, I.
Qed.

(** When all went well, and every answer is yes, each drill is in the board. *)
Theorem merge_sorts drills : NoDup drills -> told_apart drills -> symmetric meet drills -> flag_free meet drills ->
  exists l bs, merge meet drills = Merged l bs false /\ sorted_out meet drills l bs.
Proof.
  intros N T S FF. destruct (merge_outcome meet drills) as (l & bs & f & E & P & K & L & G & Fl).
  destruct f; [destruct (Fl eq_refl) as (x & y & Ix & Q); exfalso; exact (FF x y Ix Q)|].
  exists l, bs. split; [exact E|]. apply good_sorted; auto.
Qed.

Theorem merge_gives_up drills : exists l bs f, merge meet drills = Merged l bs f /\ Permutation drills (l ++ concat bs) /\
  (f = true -> exists a b, pair_of drills a b /\ meet a b = Flagged) /\
  (f = true -> forall edge cutouts b, run edge cutouts drills = Makes b -> vanished b = concat bs).
Proof.
  destruct (merge_outcome meet drills) as (l & bs & f & E & P & _ & _ & _ & Fl). exists l, bs, f. split; [exact E|]. split; [exact P|]. split; [exact Fl|].
  intros -> edge cutouts b H. destruct (board_cases edge cutouts drills) as (l' & bs' & f' & E' & A & C). rewrite E in E'. injection E' as <- <- <-.
  destruct (C (or_introl eq_refl)) as [X|(b' & X & _ & V)]; rewrite H in X; [discriminate|]. injection X as <-. exact V.
Qed.

End Board.

Lemma merge_total (D : Type) (meet : D -> D -> answer) drills : exists l bs f,
  merge meet drills = Merged l bs f /\ Permutation drills (l ++ concat bs) /\ (f = true -> ~ flag_free meet drills).
Proof.
  destruct (merge_outcome meet drills) as (l & bs & f & E & P & _ & _ & _ & F). exists l, bs, f. split; [exact E|]. split; [exact P|].
  intros T N. destruct (F T) as (a & b & Q & X). exact (N a b Q X).
Qed.

Lemma board_places (D O B : Type) closer begin add sub put_cutout put_hole meet edge cutouts drills b :
  @make_board D O B closer begin add sub put_cutout put_hole meet edge cutouts drills = Makes b ->
  Permutation drills (on_edge b ++ in_cutouts b ++ as_holes b ++ dropped b ++ vanished b).
Proof. intros H. apply board_accounts in H. rewrite H. unfold drills_of. now rewrite <- !app_assoc. Qed.
