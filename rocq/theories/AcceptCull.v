(* Destroying entities only takes pointers away. *)
From Coq Require Import List Bool ZArith Lia ZifyBool.
From Verif Require Import GraphModel GraphFacts GraphSpec GraphDel GraphEdge PlanSpec AssocModel AssocSpec AssocFacts AcceptSpec AcceptFacts AcceptProps.
Import ListNotations.
Open Scope Z_scope.

Definition shrinks (g h : graph) : Prop := forall i m, look h i = Some m -> exists n, look g i = Some n /\ under n m.
Lemma under_refl n : under n n.
Proof. unfold under. repeat split; auto using incl_refl. Qed.
Lemma under_trans a b c : under a b -> under b c -> under a c.
Proof.
  intros (T & U & F & P & Sv & D1 & D2 & D3 & D4 & D5 & D6 & D7) (T' & U' & F' & P' & Sv' & D1' & D2' & D3' & D4' & D5' & D6' & D7').
  unfold under. repeat split; try congruence; eauto using incl_tran.
Qed.
Lemma shrinks_refl g : shrinks g g.
Proof. intros i m E. exists m. split; [exact E|apply under_refl]. Qed.
Lemma shrinks_trans a b c : shrinks a b -> shrinks b c -> shrinks a c.
Proof. intros H1 H2 i m E. destruct (H2 i m E) as (n & En & U). destruct (H1 i n En) as (k & Ek & V). exists k. split; [exact Ek|now apply (under_trans k n)]. Qed.
Lemma shrinks_put g i n m : look g i = Some n -> under n m -> shrinks g (put g i m).
Proof.
  intros E U j k. rewrite look_put. destruct (Nat.eqb_spec j i) as [->|Hj].
  - intros X. injection X as <-. now exists n.
  - intros X. exists k. split; [exact X|apply under_refl].
Qed.
Lemma shrinks_free g i : shrinks g (free g i).
Proof.
  intros j m. unfold look, free. cbn. destruct (Nat.eqb j i); [discriminate|]. intros E. exists m. split; [exact E|apply under_refl].
Qed.
Ltac under := unfold under; cbn; rewrite ?set_nth_length, ?clear1_length; repeat split; auto using incl_refl, rem1_incl.
Lemma nth_clear x l k y : nth k (clear1 x l) None = Some y -> nth k l None = Some y.
Proof. destruct (nth_clear1 x l k) as [->| ->]; [auto|discriminate]. Qed.

Lemma shrinks_delRef g c p r h : delReference g c p = Some (r, h) -> shrinks g h.
Proof.
  unfold delReference. destruct (look g c) as [n|] eqn:E; [|discriminate].
  destruct (n_null n); [intros X; injection X as _ <-; apply shrinks_refl|].
  destruct (mem p (n_refs n)); [intros X; injection X as _ <-; apply (shrinks_put g c n); [exact E|apply under_refs]|].
  destruct (n_extras n) as [|x rest]; [intros X; injection X as _ <-; apply shrinks_refl|].
  destruct (Nat.eqb x p); [|discriminate]. destruct (look g p) as [m|] eqn:Em; [|discriminate]. cbv zeta.
  match goal with |- match ?t with Some _ => _ | None => None end = _ -> _ => assert (Q : forall g1, t = Some g1 -> shrinks g g1); [|destruct t as [g1|]; [|discriminate]] end.
  { intros g1. destruct ((n_type m =? 402) || n_null m); [intros X; injection X as <-; apply shrinks_refl|]. destruct (mem c (n_refs m)).
    - intros X. injection X as <-. apply (shrinks_put g p m); [exact Em|apply under_refs].
    - destruct (n_extras m); [|discriminate]. intros X. injection X as <-. apply shrinks_refl. }
  specialize (Q g1 eq_refl). destruct (look g1 c) as [n1|] eqn:E1; [|discriminate]. intros X. injection X as _ <-.
  apply (shrinks_trans g g1); [exact Q|]. apply (shrinks_put g1 c n1); [exact E1|apply under_tl].
Qed.
Lemma shrinks_drop_refs r l : forall g h, drop_refs g r l = Some h -> shrinks g h.
Proof.
  induction l as [|x l IH]; intros g h; cbn [drop_refs]; [intros X; injection X as <-; apply shrinks_refl|].
  destruct (delReference g x r) as [[b g1]|] eqn:D; [|discriminate]. intros X. apply (shrinks_trans g g1); [exact (shrinks_delRef _ _ _ _ _ D)|auto].
Qed.
Lemma shrinks_delVertexList g e v b h : delVertexList g e v = Some (b, h) -> shrinks g h.
Proof.
  unfold delVertexList. destruct (look g e) as [n|] eqn:E; [|discriminate]. destruct (find _ (n_verts n)) as [[w c]|]; [|intros X; injection X as _ <-; apply shrinks_refl].
  assert (H1 : forall g1, (if Nat.eqb c 1 then option_map snd (delReference g v e) else Some g) = Some g1 -> shrinks g g1).
  { intros g1. destruct (Nat.eqb c 1); [|intros X; injection X as <-; apply shrinks_refl]. destruct (delReference g v e) as [[b1 g2]|] eqn:D; [|discriminate].
    cbn. intros X. injection X as <-. exact (shrinks_delRef _ _ _ _ _ D). }
  destruct (if Nat.eqb c 1 then option_map snd (delReference g v e) else Some g) as [g1|]; [|discriminate]. specialize (H1 g1 eq_refl).
  destruct (look g1 e) as [n1|] eqn:E1; [|discriminate]. intros X. injection X as _ <-. apply (shrinks_trans g g1); [exact H1|].
  apply (shrinks_put g1 e n1); [exact E1|]. apply under_verts, count_down_fst.
Qed.
Lemma cut_incl e l : incl (cut e l) l.
Proof. induction l as [|d l IH]; cbn; [apply incl_refl|]. destruct (Nat.eqb (ed_curve d) e); [apply incl_tl, incl_refl|]. intros x [<-|H]; [now left|right; auto]. Qed.
Lemma shrinks_unlink g r e te b h : unlink g r e te = Some (b, h) -> shrinks g h.
Proof.
  unfold unlink. destruct (look g r) as [n|] eqn:E; [|discriminate].
  assert (R : forall b0, Some (b0, g) = Some (b, h) -> shrinks g h) by (intros b0 X; injection X as _ <-; apply shrinks_refl).
  assert (P : forall b0 m, under n m -> Some (b0, put g r m) = Some (b, h) -> shrinks g h) by (intros b0 m U X; injection X as _ <-; now apply (shrinks_put g r n)).
  destruct (n_null n); [apply R|]. destruct (n_type n =? 124).
  { destruct (nth 4 (n_des n) None) as [x|]; [|apply R]. destruct ((te =? 124) && Nat.eqb e x); [|apply R]. apply P, under_des. }
  destruct (mem e (ptrs (n_des n))). { apply P. under. intros k x. apply nth_clear. }
  destruct (mem e (n_extras n)). { apply P. under. }
  destruct (n_type n =? 102).
  { unfold unlink102. destruct (mem e (n_items n)); [|apply R]. destruct (GraphModel.ends e (n_items n)). { apply P. under. }
    destruct (drop_refs _ r _) as [g1|] eqn:D; [|discriminate]. cbn. intros X. injection X as _ <-.
    apply shrinks_drop_refs in D. eapply shrinks_trans; [|exact D]. apply (shrinks_put g r n); [exact E|]. under. intros x []. }
  destruct (n_type n =? 180). { destruct (mem e (n_items n)); [|apply R]. apply P. under. intros x []. }
  destruct (n_type n =? 504).
  { unfold unlink504. destruct (te =? 502); [destruct (mem e (map fst (n_verts n))); [discriminate|apply R]|].
    destruct (find _ (n_edges n)) as [d|]; [|apply R].
    destruct (delVertexList g r (ed_start d)) as [[b1 g1]|] eqn:D1; [|discriminate]. cbn [and_then].
    destruct (delVertexList g1 r (ed_stop d)) as [[b2 g2]|] eqn:D2; [|discriminate]. cbn [and_then].
    destruct (look g2 r) as [n2|] eqn:E2; [|discriminate]. intros X. injection X as _ <-.
    apply (shrinks_trans g g1); [exact (shrinks_delVertexList _ _ _ _ _ D1)|]. apply (shrinks_trans g1 g2); [exact (shrinks_delVertexList _ _ _ _ _ D2)|].
    apply (shrinks_put g2 r n2); [exact E2|]. under. apply cut_incl. }
  destruct (n_type n =? 508).
  { unfold unlink508. destruct (zmem te [502; 504]); [destruct (mem e (map fst (n_verts n)))|destruct (mem e (flat_map snd (n_loops n)))]; try discriminate; apply R. }
  destruct (mem e (ptrs (n_slots n))). { apply P. under. intros k x. apply nth_clear. }
  destruct (mem e (n_items n)); [|apply R]. apply P. under.
Qed.
Lemma shrinks_unlink_all e te l : forall g h, unlink_all g l e te = Some h -> shrinks g h.
Proof.
  induction l as [|x l IH]; intros g h; cbn [unlink_all]; [intros X; injection X as <-; apply shrinks_refl|].
  destruct (unlink g x e te) as [[b g1]|] eqn:D; [|discriminate]. intros X. apply (shrinks_trans g g1); [exact (shrinks_unlink _ _ _ _ _ _ D)|auto].
Qed.
Lemma shrinks_drop_extras e te l : forall g h, drop_extras g l e te = Some h -> shrinks g h.
Proof.
  induction l as [|x l IH]; intros g h; cbn [drop_extras]; [intros X; injection X as <-; apply shrinks_refl|].
  destruct (look g x) as [m|]; [|discriminate].
  destruct (if n_type m =? 402 then unlink g x e te else delReference g x e) as [[b g1]|] eqn:D; [|discriminate].
  intros X. apply (shrinks_trans g g1); [|auto]. destruct (n_type m =? 402); [exact (shrinks_unlink _ _ _ _ _ _ D)|exact (shrinks_delRef _ _ _ _ _ D)].
Qed.
Lemma shrinks_destroy g e h : destroy g e = Some h -> shrinks g h.
Proof.
  unfold destroy. destruct (look g e) as [n|]; [|discriminate].
  destruct (if (n_type n =? 508) && negb (n_null n) then _ else _) as [g1|] eqn:D; [|discriminate].
  assert (H1 : shrinks g g1) by (destruct ((n_type n =? 508) && negb (n_null n)); [exact (shrinks_unlink_all _ _ _ _ _ D)|exact (shrinks_drop_refs _ _ _ _ D)]).
  destruct (look g1 e) as [n1|]; [|discriminate]. destruct (unlink_all (free g1 e) (n_refs n1) e (n_type n1)) as [g2|] eqn:U; [|discriminate].
  destruct (drop_extras g2 (n_extras n1) e (n_type n1)) as [g3|] eqn:X; [|discriminate]. intros Y.
  apply (shrinks_trans g g1); [exact H1|]. apply (shrinks_trans g1 (free g1 e)); [apply shrinks_free|].
  apply (shrinks_trans _ g2); [exact (shrinks_unlink_all _ _ _ _ _ U)|]. apply (shrinks_trans _ g3); [exact (shrinks_drop_extras _ _ _ _ _ X)|exact (shrinks_drop_refs _ _ _ _ Y)].
Qed.
Lemma shrinks_cull_loop vi l : forall g kept h k, cull_loop g vi l kept = Some (h, k) -> shrinks g h.
Proof.
  induction l as [|e l IH]; intros g kept h k; cbn [cull_loop]; [intros X; injection X as <- _; apply shrinks_refl|].
  destruct (look g e) as [n|]; [|discriminate]. destruct (doomed vi n); [|apply IH].
  destruct (destroy g e) as [g1|] eqn:D; [|discriminate]. intros X. apply (shrinks_trans g g1); [exact (shrinks_destroy _ _ _ D)|exact (IH _ _ _ _ X)].
Qed.
Lemma shrinks_Cull g vi h : Cull g vi = Some h -> shrinks g h.
Proof.
  unfold Cull. destruct (cull_loop g vi (g_ents g) []) as [[g1 k]|] eqn:C; [|discriminate]. intros X. injection X as <-.
  exact (shrinks_cull_loop _ _ _ _ _ _ C).
Qed.

(* ---- Read ---- *)

Lemma connect_kinds closed joins qs b g : connect closed joins qs = Some (b, g) ->
  (forall i m, look g i = Some m -> exists q, nth_error qs i = Some q /\ n_type m = kind q /\ n_null m = (kind q =? 0) /\ n_form m = q_form q /\
     n_points m = q_points q /\ length (n_des m) = 7%nat /\ well_kinded qs m) /\
  (b = false -> forall i, (i < length qs)%nat -> exists m, look g i = Some m).
Proof.
  intros C. unfold connect in C.
  destruct (associate_all closed joins (length qs) qs (loaded_graph qs) [] (g_ents (loaded_graph qs))) as [[b0 g0]|] eqn:A; [|discriminate].
  destruct (accept_claim _ _ _ _ _ A) as [O _].
  assert (Sh : shrinks g0 g).
  { destruct b0; [|injection C as _ <-; apply shrinks_refl]. destruct (Cull g0 false) as [g1|] eqn:K; [|discriminate]. injection C as _ <-. exact (shrinks_Cull _ _ _ K). }
  split.
  - intros i m E. destruct (Sh i m E) as (n & En & U). destruct (ok_look _ _ _ _ _ O En) as (q & Eq & G). exists q. split; [exact Eq|].
    pose proof (good_under _ _ _ _ G U) as [K1 K2 K3 K4 K5 K6]. auto 10.
  - intros -> i Hi. assert (g = g0) as ->. { destruct b0; [destruct (Cull g0 false); discriminate|]. now injection C as <-. }
    destruct (nth_error qs i) as [q|] eqn:E; [|apply nth_error_None in E; lia]. destruct (ok_at _ _ _ _ _ O E) as (m & Em & _). now exists m.
Qed.
Lemma connect_proper closed joins qs g : connect closed joins qs = Some (true, g) ->
  forall e q, nth_error qs e = Some q -> (length (q_des q) = 7%nat -> proper qs e q) /\ in_turn qs (S e) closed q.
Proof.
  intros C. unfold connect in C.
  destruct (associate_all closed joins (length qs) qs (loaded_graph qs) [] (g_ents (loaded_graph qs))) as [[b0 g0]|] eqn:A; [|discriminate].
  destruct (accept_claim _ _ _ _ _ A) as [_ P]. destruct b0; [auto|discriminate].
Qed.
