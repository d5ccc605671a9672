(* Associating all entities: what remains true, and what success says. *)
From Coq Require Import List Bool ZArith Lia ZifyBool.
From Verif Require Import GraphModel GraphFacts GraphSpec GraphEdge PlanSpec AssocModel AssocSpec AssocFacts AcceptSpec AcceptFacts.
Import ListNotations.
Open Scope Z_scope.

Section All.
Variable qs : list wants.
Local Notation N := (length qs).
Local Notation done_ok := (done_ok qs).
Section From.
Variable lo : nat.
Local Notation ok := (ok qs lo).

Lemma ok_curve_associate g done c b h d : ok g -> done_ok done -> curve_associate N qs g done c = Some (b, h, d) -> ok h /\ done_ok d.
Proof.
  intros H D. unfold curve_associate. destruct (nth_error qs c) as [q|] eqn:E; [|discriminate]. destruct (look g c) as [m|]; [|discriminate].
  destruct (base_associate N q g done c) as [[[[|] g1] d1]|] eqn:B; [| |discriminate]; destruct (ok_base qs lo _ _ _ _ _ _ _ H D E B) as (H1 & D1 & _).
  - destruct (drop_des g1 c _) as [g2|] eqn:Dd; [|discriminate]. cbn. intros X. injection X as _ <- <-. split; [exact (ok_drop_des qs lo _ _ _ _ H1 Dd)|exact D1].
  - intros X. injection X as _ <- <-. auto.
Qed.
Lemma ok_segments e q l : nth_error qs e = Some q -> (e < lo)%nat -> kind q = 102 -> forall g done o b h d, ok g -> done_ok done ->
  segments N qs g done e l o = Some (b, h, d) -> ok h /\ done_ok d /\ (b = true -> o = true /\ forall v, In v l -> refers qs v simple).
Proof.
  intros E Elo T. induction l as [|v l IH]; intros g done o b h d H D; cbn [segments].
  - intros X. injection X as <- <- <-. split; [exact H|]. split; [exact D|]. intros ->. split; [reflexivity|]. intros v [].
  - assert (Bad : forall g1, ok g1 -> segments N qs g1 done e l false = Some (b, h, d) ->
      ok h /\ done_ok d /\ (b = true -> o = true /\ forall w, In w (v :: l) -> refers qs w simple)).
    { intros g1 H1 X. destruct (IH _ _ _ _ _ _ H1 D X) as (A1 & A2 & A3). split; [exact A1|]. split; [exact A2|]. intros Hb. destruct (A3 Hb). discriminate. }
    destruct (index_of N v) as [c|] eqn:Ix; [|now apply Bad]. apply index_leads in Ix. destruct Ix as [Ld _].
    destruct (look g c) as [m|] eqn:Em; [|discriminate]. destruct (negb (is_curve m) || (n_type m =? 102)) eqn:Q; [now apply Bad|].
    apply orb_false_iff in Q. destruct Q as [Q1 Q2]. apply negb_false_iff in Q1.
    assert (S : sort qs c simple).
    { destruct (is_curve_sort qs lo g c m H Em Q1) as (p & Ep & K). exists p. split; [exact Ep|].
      destruct (ok_look qs lo g c m H Em) as (p' & Ep' & G). rewrite Ep in Ep'. injection Ep' as <-. rewrite (g_type _ _ _ G) in Q2. apply Z.eqb_neq in Q2.
      unfold curves in K. unfold simple. cbn in *. intuition. }
    destruct (addReference g c e) as [[r g1]|] eqn:A; [|discriminate]. pose proof (ok_addRef qs lo _ _ _ _ _ H A) as H1.
    assert (Go : forall g1 done o1, ok g1 -> done_ok done -> segments N qs g1 done e l o1 = Some (b, h, d) -> o1 = o ->
      ok h /\ done_ok d /\ (b = true -> o = true /\ forall w, In w (v :: l) -> refers qs w simple)).
    { intros g2 dn o1 H2 D2 X ->. destruct (IH _ _ _ _ _ _ H2 D2 X) as (A1 & A2 & A3). split; [exact A1|]. split; [exact A2|]. intros Hb. destruct (A3 Hb) as [A4 A5].
      split; [exact A4|]. intros w [<-|Hw]; [now exists c|auto]. }
    destruct r; [now apply Bad|intros X; now apply (Go g1 done o)|].
    destruct (push_item g1 e c) as [g2|] eqn:P; [|discriminate].
    assert (H2 : ok g2) by (apply (ok_push_item qs lo e q E Elo g1 c g2 H1); [unfold item_kind; rewrite T; exact S|exact P]).
    destruct (curve_associate N qs g2 done c) as [[[b3 g3] d3]|] eqn:C; [|discriminate]. destruct (ok_curve_associate _ _ _ _ _ _ H2 D C) as [H3 D3].
    intros X. now apply (Go g3 d3 o).
Qed.

Definition in_turn closed (q : wants) : Prop :=
  kind q = 164 -> hollow_open closed -> forall v c p, In v (q_slots q) -> leads v c -> nth_error qs c = Some p -> kind p = 102 -> (c < lo)%nat.
Lemma ok_associate closed joins g done e q b h d : nth_error qs e = Some q -> (e < lo)%nat -> ok g -> done_ok done ->
  associate closed joins N qs g done e = Some (b, h, d) ->
  ok h /\ done_ok d /\ (b = true -> (length (q_des q) = 7%nat -> proper qs e q) /\ in_turn closed q).
Proof.
  intros E Elo H D. unfold associate. rewrite E.
  destruct (base_associate N q g done e) as [[[[|] g1] d1]|] eqn:B; [| |discriminate]; destruct (ok_base qs lo _ _ _ _ _ _ _ H D E B) as (H1 & D1 & Pb).
  2: { intros X. injection X as <- <- <-. split; [exact H1|]. split; [exact D1|]. discriminate. }
  specialize (Pb eq_refl). destruct (look g1 e) as [m|] eqn:Em; [|discriminate].
  destruct (ok_look qs lo g1 e m H1 Em) as (q' & Eq' & G). rewrite E in Eq'. injection Eq' as <-.
  rewrite (g_type _ _ _ G), (g_null _ _ _ G).
  destruct (kind q =? 0) eqn:K0.
  { apply Z.eqb_eq in K0. intros X. injection X as <- <- <-. split; [exact H1|]. split; [exact D1|]. intros _. split; [|intros T; rewrite K0 in T; discriminate].
    intros L. destruct (Pb L) as [P1 P2]. constructor; [exact P1|exact P2|..]; intros T; rewrite K0 in T; discriminate. }
  destruct (drop_des g1 e (unused_des (kind q))) as [g2|] eqn:Dd; [|discriminate]. pose proof (ok_drop_des qs lo _ _ _ _ H1 Dd) as H2. cbv zeta.
  destruct (kind q =? 102) eqn:T.
  { apply Z.eqb_eq in T. destruct (segments N qs g2 d1 e (q_items q) true) as [[[o g3] d3]|] eqn:Sg; [|discriminate].
    destruct (ok_segments e q _ E Elo T _ _ _ _ _ _ H2 D1 Sg) as (H3 & D3 & P3). destruct (look g3 e) as [m3|]; [|discriminate].
    intros X. injection X as <- <- <-. split; [exact H3|]. split; [exact D3|]. intros Hb. split; [|intros T'; rewrite T in T'; discriminate]. intros L. apply andb_prop in Hb. destruct Hb as [Ho _].
    destruct (P3 Ho) as [_ P3']. destruct (Pb L) as [P1 P2]. constructor; [exact P1|exact P2|..]; intros T'; rewrite T in T'; try discriminate. exact P3'. }
  apply Z.eqb_neq in T.
  match goal with |- option_map _ ?t = _ -> _ => set (body := t) end.
  assert (Main : forall b1 h1, body = Some (b1, h1) -> ok h1 /\ (b1 = true -> (base_proper qs e q -> proper qs e q) /\ in_turn closed q)).
  2: { destruct body as [[b1 h1]|]; [|discriminate]. cbn. intros X. injection X as <- <- <-. destruct (Main _ _ eq_refl) as [M1 M2]. split; [exact M1|]. split; [exact D1|]. intros Hb. destruct (M2 Hb) as [M3 M4]. auto. }
  subst body. intros b1 h1.
  Ltac fill P1 P2 T := constructor; [exact P1|exact P2|..]; (let T' := fresh in intros T'; rewrite T in T'; try discriminate).
  Ltac turn T := (let T' := fresh in intros T'; rewrite T in T'; discriminate).
  Ltac case_t K t T := destruct (K =? t) eqn:T; [apply Z.eqb_eq in T|let M := fresh "Ne" in rename T into M; apply Z.eqb_neq in M].
  case_t (kind q) 120 Tt.
  { intros X. destruct (step_parts qs lo _ _ (step_120 qs lo e q E Elo Tt) _ _ _ _ _ H2 X) as [H3 R]. split; [exact H3|]. intros Hb. split; [|turn Tt]. intros [P1 P2]. fill P1 P2 Tt. intros k v Hk. exact (R Hb k v Hk). }
  case_t (kind q) 122 Tt.
  { intros X. destruct (step_all qs lo _ _ (step_122 qs lo e q E Elo Tt) _ _ _ _ H2 X) as [H3 R]. split; [exact H3|]. intros Hb. split; [|turn Tt]. intros [P1 P2]. fill P1 P2 Tt. exact (R Hb). }
  case_t (kind q) 142 Tt.
  { intros X. destruct (step_parts qs lo _ _ (step_142 qs lo e q E Elo Tt) _ _ _ _ _ H2 X) as [H3 R]. split; [exact H3|]. intros Hb. split; [|turn Tt]. intros [P1 P2]. fill P1 P2 Tt. exact (R Hb). }
  case_t (kind q) 144 Tt.
  { intros X. apply (step_next qs lo _ _ _ _ (forall k v, nth_error (q_slots q) k = Some v -> v <> 0 /\ refers qs v (match k with O => sheets | _ => [142] end))
      (forall v, In v (q_items q) -> refers qs v [142])) in X.
    - destruct X as [H3 R]. split; [exact H3|]. intros Hb. split; [|turn Tt]. intros [P1 P2]. fill P1 P2 Tt. exact (R Hb).
    - intros b2 g3 X2. exact (step_parts qs lo _ _ (step_144 qs lo e q E Elo Tt) _ _ _ _ _ H2 X2).
    - intros g3 b3 h3 H3 X3. exact (step_all qs lo _ _ (step_144i qs lo e q E Elo Tt) _ _ _ _ H3 X3). }
  case_t (kind q) 164 Tt.
  { intros X. destruct (step_all qs lo _ _ (step_164 qs lo e q E Elo closed Tt) _ _ _ _ H2 X) as [H3 R]. split; [exact H3|]. intros Hb. split.
    - intros [P1 P2]. fill P1 P2 Tt. intros v Hv. exact (proj1 (R Hb v Hv)).
    - intros _ Ho v c p Hv Lv. exact (proj2 (R Hb v Hv) Ho c p Lv). }
  case_t (kind q) 180 Tt.
  { intros X. destruct (step_all qs lo _ _ (step_180 qs lo e q E Elo Tt) _ _ _ _ H2 X) as [H3 R]. split; [exact H3|]. intros Hb. split; [|turn Tt]. intros [P1 P2]. fill P1 P2 Tt. exact (R Hb). }
  case_t (kind q) 186 Tt.
  { intros X. apply (step_next qs lo _ _ _ _ (forall v, In v (q_slots q) -> refers qs v [514]) (forall v, In v (q_items q) -> refers qs v [514])) in X.
    - destruct X as [H3 R]. split; [exact H3|]. intros Hb. split; [|turn Tt]. intros [P1 P2]. fill P1 P2 Tt. destruct (R Hb) as [R1 R2]. intros v [Hv|Hv]; auto.
    - intros b2 g3 X2. exact (step_all qs lo _ _ (step_186 qs lo e q E Elo Tt) _ _ _ _ H2 X2).
    - intros g3 b3 h3 H3 X3. refine (step_all qs lo _ _ (step_item_of qs lo e q E Elo is_shell 514 _ _) _ _ _ _ H3 X3); [intros x Sx; unfold item_kind; rewrite Tt; exact Sx|exact (shell_sort qs lo)]. }
  case_t (kind q) 308 Tt.
  { intros X. destruct (step_all qs lo _ _ (step_308 qs lo e q E Elo Tt) _ _ _ _ H2 X) as [H3 R]. split; [exact H3|]. intros Hb. split; [|turn Tt]. intros [P1 P2]. fill P1 P2 Tt. exact (R Hb). }
  case_t (kind q) 408 Tt.
  { intros X. destruct (step_all qs lo _ _ (step_408 qs lo e q E Elo Tt) _ _ _ _ H2 X) as [H3 R]. split; [exact H3|]. intros Hb. split; [|turn Tt]. intros [P1 P2]. fill P1 P2 Tt. exact (R Hb). }
  case_t (kind q) 504 Tt.
  { intros X. destruct (step_all qs lo _ _ (step_504 qs lo e Elo) _ _ _ _ H2 X) as [H3 R]. split; [exact H3|]. intros Hb. split; [|turn Tt]. intros [P1 P2]. fill P1 P2 Tt.
    intros c a s b' t Hd. exact (R Hb _ Hd). }
  case_t (kind q) 508 Tt.
  { intros X. destruct (step_all qs lo _ _ (step_508 qs lo e Elo) _ _ _ _ H2 X) as [H3 R]. split; [exact H3|]. intros Hb. split; [|turn Tt]. intros [P1 P2]. fill P1 P2 Tt.
    intros dd l Hd. exact (R Hb _ Hd). }
  case_t (kind q) 510 Tt.
  { intros X. apply (step_next qs lo _ _ _ _ (forall v, In v (q_slots q) -> refers qs v sheets) (forall v, In v (q_items q) -> refers qs v [508])) in X.
    - destruct X as [H3 R]. split; [exact H3|]. intros Hb. split; [|turn Tt]. intros [P1 P2]. fill P1 P2 Tt. exact (R Hb).
    - intros b2 g3 X2. exact (step_all qs lo _ _ (step_510 qs lo e q E Elo Tt) _ _ _ _ H2 X2).
    - intros g3 b3 h3 H3 X3. refine (step_all qs lo _ _ (step_item_of qs lo e q E Elo (fun m => n_type m =? 508) 508 _ _) _ _ _ _ H3 X3);
        [intros x Sx; unfold item_kind; rewrite Tt; exact Sx|]. intros g4 c mm H4 Ec Tm. apply (good_eq qs lo g4 c mm); auto. now apply Z.eqb_eq. }
  case_t (kind q) 514 Tt.
  { destruct (nil (q_items q)) eqn:Nl; [intros X; injection X as <- <-; split; [exact H2|discriminate]|].
    intros X. eapply (step_all qs lo _ _ (step_item_of qs lo e q E Elo (fun m => n_type m =? 510) 510 _ _)) in X; [|exact H2].
    destruct X as [H3 R]. split; [exact H3|]. intros Hb. split; [|turn Tt]. intros [P1 P2]. fill P1 P2 Tt. split; [intros Z; rewrite Z in Nl; discriminate|exact (R Hb)].
    Unshelve. { intros x Sx; unfold item_kind; rewrite Tt; exact Sx. } intros g4 c mm H4 Ec Tm. apply (good_eq qs lo g4 c mm); auto. now apply Z.eqb_eq. }
  intros X. injection X as <- <-. split; [exact H2|]. intros _. split; [|intros T'; contradiction].
  intros [P1 P2]. constructor; [exact P1|exact P2|..]; intros T'; contradiction.
Qed.

End From.

Lemma ok_more a b g : (a <= b)%nat -> ok qs a g -> ok qs b g.
Proof.
  intros L H i. specialize (H i). destruct (nth_error qs i) as [q|]; [|exact H]. destruct (look g i) as [m|]; [|exact H].
  destruct H as [H1 H2]. split; [exact H1|]. intros Hi. apply H2. lia.
Qed.
Lemma ok_associate_all closed joins k : forall lo g done b h, (lo + k <= N)%nat -> ok qs lo g -> done_ok done ->
  associate_all closed joins N qs g done (seq lo k) = Some (b, h) ->
  ok qs (lo + k) h /\ (b = true -> forall e q, (lo <= e < lo + k)%nat -> nth_error qs e = Some q ->
                      (length (q_des q) = 7%nat -> proper qs e q) /\ in_turn (S e) closed q).
Proof.
  induction k as [|k IH]; intros lo g done b h Lk H D; cbn [seq associate_all].
  - intros X. injection X as <- <-. split; [rewrite Nat.add_0_r; exact H|]. intros _ e q He. lia.
  - destruct (nth_error qs lo) as [q|] eqn:E; [|apply nth_error_None in E; lia]. apply (ok_more lo (S lo)) in H; [|lia].
    destruct (associate closed joins N qs g done lo) as [[[[|] g1] d1]|] eqn:A; [| |discriminate];
      destruct (ok_associate (S lo) _ _ _ _ _ _ _ _ _ E ltac:(lia) H D A) as (H1 & D1 & P1).
    + intros X. destruct (IH (S lo) _ _ _ _ ltac:(lia) H1 D1 X) as [H2 P2]. replace (lo + S k)%nat with (S lo + k)%nat by lia. split; [exact H2|].
      intros Hb e' q' He' E'. destruct (Nat.eq_dec e' lo) as [->|Ne]; [|apply P2; [exact Hb|lia|exact E']].
      rewrite E in E'. injection E' as <-. now apply P1.
    + intros X. injection X as <- <-. split; [apply (ok_more (S lo)); [lia|exact H1]|discriminate].
Qed.

Lemma nth_none7 k : nth k (repeat (@None nat) 7) None = None.
Proof. do 7 (destruct k as [|k]; [reflexivity|]). cbn. now destruct k. Qed.
Lemma nth_blank t k : nth k (blank_slots t) None = None.
Proof. unfold blank_slots. destruct (zmem t [122; 164; 186; 408; 510]); [do 2 (destruct k as [|k]; [reflexivity|]); reflexivity|].
  destruct (zmem t [120; 144]); [do 3 (destruct k as [|k]; [reflexivity|]); reflexivity|]. destruct (t =? 142); [do 4 (destruct k as [|k]; [reflexivity|]); reflexivity|]. now destruct k. Qed.
Lemma ok_start : ok qs 0 (loaded_graph qs).
Proof.
  intros i. unfold look, loaded_graph. cbn [g_heap]. destruct (nth_error qs i) as [q|] eqn:E; cbn [option_map]; [|exact I]. split; [|reflexivity].
  assert (T : n_type (new_node (q_type q) true) = kind q /\ n_null (new_node (q_type q) true) = (kind q =? 0)).
  { unfold new_node, kind. cbn [n_type n_null]. destruct (zmem (q_type q) known) eqn:M; destruct (in_dec Z.eq_dec (q_type q) known) as [I|I].
    - split; [reflexivity|]. symmetry. apply Z.eqb_neq. intros Z. rewrite Z in I. cbn in I. intuition discriminate.
    - apply zmem_in in M. contradiction.
    - apply zmem_in in I. congruence.
    - split; reflexivity. }
  destruct T as [T1 T2]. unfold loaded. constructor; cbn [n_type n_null n_form n_points n_des]; auto.
  constructor; cbn [n_des n_extras n_slots n_items n_edges n_verts n_loops n_type]; try contradiction.
  - intros k x. change (nth k (repeat (@None nat) 7) None = Some x -> de_kind qs k x). rewrite nth_none7. discriminate.
  - intros k x. unfold new_node. cbn [n_slots]. destruct (zmem (q_type q) known); [rewrite nth_blank|destruct k]; discriminate.
Qed.
End All.

Lemma accept_claim closed joins qs b g :
  associate_all closed joins (length qs) qs (loaded_graph qs) [] (g_ents (loaded_graph qs)) = Some (b, g) ->
  ok qs (length qs) g /\ (b = true -> forall e q, nth_error qs e = Some q -> (length (q_des q) = 7%nat -> proper qs e q) /\ in_turn qs (S e) closed q).
Proof.
  intros A. apply ok_associate_all in A; [|cbn; lia|apply ok_start|intros e q []].
  destruct A as [A1 A2]. split; [exact A1|]. intros Hb e q E. apply (A2 Hb); [|exact E]. split; [lia|]. cbn. apply nth_error_Some. congruence.
Qed.
