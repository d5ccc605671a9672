(** Round trips of single entities of any type. *)

From Coq Require Import Lia ZifyBool ZifyNat ZifyN QArith Qabs.
From Verif Require Import Base Num Spec NumFacts IoModel LineFacts TokenFacts BuildFacts PdModel PdFacts EntModel EntModel2 EntModel3 EntSpec EntFacts
  EntProps EntProps2 EntProps3 EntProps4 EntProps5 DeModel DeSpec PayloadModel GlobalModel GlobSpec FileModel RoundSpec RoundLines TailFacts.
Open Scope Z_scope.

Lemma round_lift {A} (c : A -> payload direction) fmt (read : Z -> stream -> pres (A * list Z * list str * stream)) seq k ptrs
  (G : A -> Prop) (G' : payload direction -> Prop) : (forall a, G a -> G' (c a)) ->
  round_trip fmt read seq k ptrs G -> round_trip fmt (fun n f => lift c (read n f)) seq k ptrs G'.
Proof.
  intros I (r & ds & F & N & NE & C & X & a & Ga & E). exists r, ds. repeat (split; [assumption|]).
  exists (c a). split; [auto|]. intros rest. rewrite E. reflexivity.
Qed.

Lemma room_le k n t extras m : k + 2 * n + t + 2 * Z.of_nat (length extras) + 6 <= m -> m <= 9999999 -> room k n t extras.
Proof. unfold room. lia. Qed.

Ltac Zify.zify_post_hook ::= idtac.

Lemma payload_round u' u pd rd k seq e : EntSpec.settings_ok pd rd seq k (e_extras e) -> (0 < u)%Q ->
  data_ok u' u (d_form (e_dir e)) (e_extras e) (e_data e) -> e_comments e = [] -> k + ent_lines e <= 9999999 ->
  round_trip (format_ent u pd rd k seq e) (fun n f => read_payload (type_no (e_data e)) seq k n pd rd u' f) seq k
    (extras_ptrs (e_extras e)) (data_close u (e_data e)).
Proof.
  destruct e as [d p ex cs]. cbn [e_dir e_data e_extras e_comments]. intros S U OK -> B. unfold ent_lines in B. cbn [e_data e_extras] in B.
  unfold format_ent. cbn [e_dir e_data e_extras e_comments].
  assert (RM : room k (items p) (text_lines p) ex) by (unfold room; lia). clear B.
  destruct p as [a|l|c|l|r|t|m|c v|s|o|t|c v|x v|l|b|s|c|nm|i|v|l|l|f|l];
    cbn [data_ok type_no items text_lines] in OK, RM; cbn [type_no read_payload].
  - destruct OK as [F OK]. eapply round_lift; [|apply (arc_round_at a ex k seq pd rd u u' S U F RM OK)]. intros a' C. exact C.
  - destruct OK as [NE F]. eapply round_lift; [|apply (round102 l ex k seq pd rd S NE F RM)]. intros a' C. exact C.
  - eapply round_lift; [|apply (round104 c ex k seq pd rd S OK RM)]. intros a' C. exact C.
  - eapply round_lift; [|apply (round110 l ex k seq pd rd u S U OK RM)]. intros a' C. exact C.
  - destruct OK as ((a & EA & PA) & (c & EC & PC) & R1 & R2). destruct r as [xa xc sa ta]. cbn [rv_axis rv_curve rv_start rv_end] in *. subst xa xc.
    eapply round_lift; [|apply (round120 a c sa ta ex k seq pd rd S PA PC R1 R2 RM)]. intros a' C. exact C.
  - destruct OK as ((c & EC & PC) & R1). destruct t as [xc x y z]. cbn [tc_curve tc_x tc_y tc_z] in *. subst xc.
    eapply round_lift; [|apply (round122 c x y z ex k seq pd rd u S U PC R1 RM)]. intros a' C. exact C.
  - eapply round_lift; [|apply (round124 m ex k seq pd rd u S U OK RM)]. intros a' C. exact C.
  - destruct v as [[i j] h]. destruct OK as [OK R1]. eapply round_lift; [|apply (round126 c i j h ex k seq pd rd S OK R1 RM)]. intros a' C. exact C.
  - eapply round_lift; [|apply (round128 s ex k seq pd rd S OK RM)]. intros a' C. exact C.
  - destruct OK as (C1 & C2 & (s & ES & PS) & B & C & NN). destruct o as [cr xs b c pr]. cbn [os_crtn os_surf os_b os_c os_pref] in *. subst xs.
    eapply round_lift; [|apply (round142 cr s b c pr ex k seq pd rd S C1 C2 PS B C NN RM)]. intros a' H. exact H.
  - destruct OK as ((s & ES & PS) & N1 & (o & EO & PO) & F). destruct t as [xs n1 xo l]. cbn [tr_surf tr_n1 tr_outer tr_inner] in *. subst xs xo.
    eapply round_lift; [|apply (round144 s n1 o l ex k seq pd rd S PS N1 PO F RM)]. intros a' H. exact H.
  - destruct v as [[i j] h]. destruct OK as (F & H1 & H2 & H3 & H4).
    eapply round_lift; [|apply (round154_at c i j h ex k seq pd rd u u' S U F H1 H2 H3 H4 RM)]. intros a' H. exact H.
  - destruct v as [[i j] h]. destruct OK as ((c & EC & PC) & F). destruct x as [xc l]. cbn [ex_curve ex_len] in *. subst xc.
    eapply round_lift; [|apply (round164 c l i j h ex k seq pd rd u S U PC F RM)]. intros a' H. exact H.
  - contradiction.
  - destruct OK as ((s & ES & PS) & V). destruct b as [xs so vo]. cbn [br_shell br_voids br_sof] in *. subst xs vo.
    eapply round_lift; [|apply (round186 s so ex k seq pd rd S PS RM)]. intros a' H. exact H.
  - destruct OK as (D1 & NE & F & L & NN). destruct s as [dp nm l]. cbn [sf_depth sf_name sf_ents] in *.
    eapply round_lift; [|apply (round308 dp nm l ex k seq pd rd S D1 NE F L NN)]. { intros a' H. exact H. } unfold room in RM. lia.
  - destruct OK as (H1 & H2 & H3 & L & NN & NE). eapply round_lift; [|apply (round314 c ex k seq pd rd S H1 H2 H3 L NN NE RM)]. intros a' H. exact H.
  - destruct OK as (-> & L & NN). eapply round_lift; [|apply (round406 nm ex k seq pd rd S L NN)]. { intros a' H. exact H. } unfold room in RM. lia.
  - destruct OK as ((c & EC & PC) & F). destruct i as [xc x y z s]. cbn [in_def in_x in_y in_z in_s] in *. subst xc.
    eapply round_lift; [|apply (round408 c x y z s ex k seq pd rd u S U PC F RM)]. intros a' H. exact H.
  - destruct OK as [NE F]. eapply round_lift; [|apply (round502 v ex k seq pd rd u S U NE F RM)]. intros a' H. exact H.
  - destruct OK as [NE F]. eapply round_lift; [|apply (round504 l ex k seq pd rd S NE F RM)]. intros a' H. exact H.
  - contradiction.
  - destruct OK as ((s & ES & PS) & NE & F). destruct f as [xs o l]. cbn [fc_surf fc_loops fc_outer] in *. subst xs.
    eapply round_lift; [|apply (round510 s o l ex k seq pd rd S PS NE F RM)]. intros a' H. exact H.
  - destruct OK as [NE F]. eapply round_lift; [|apply (round514 l ex k seq pd rd S NE F RM)]. intros a' H. exact H.
Qed.

(** *** Lines used *)

Lemma vertex_cost u l pd fd : acts_cost (vertex_acts u l pd fd) = 6 * Z.of_nat (length l) /\ Forall act_len (vertex_acts u l pd fd).
Proof.
  induction l as [|[[x y] z] [|m l] IH]; [split; [reflexivity|constructor]|split; [reflexivity|repeat constructor]|].
  change (vertex_acts u ((x, y, z) :: m :: l) pd fd) with (WReal x pd u :: WReal y pd u :: WReal z pd u :: vertex_acts u (m :: l) pd fd).
  destruct IH as [I1 I2]. split; [cbn [acts_cost]; rewrite I1; cbn [act_cost length]; lia|].
  do 3 (constructor; [exact I|]). exact I2.
Qed.
Lemma edge_cost l pd fd : acts_cost (edge_acts l pd fd) = 2 * Z.of_nat (length l) /\ Forall act_len (edge_acts l pd fd).
Proof.
  induction l as [|e [|m l] IH]; [split; [reflexivity|constructor]|split; [reflexivity|repeat constructor]|].
  change (edge_acts (e :: m :: l) pd fd) with (WItem (ints_text (edge_ints e) pd pd) :: edge_acts (m :: l) pd fd).
  destruct IH as [I1 I2]. split; [cbn [acts_cost]; rewrite I1; cbn [act_cost length]; lia|].
  constructor; [exact I|exact I2].
Qed.

(** The cost of some steps and their texts. *)
Definition upto (l : list act) (n : Z) : Prop := acts_cost l <= n /\ Forall act_len l.
Lemma upto_app a b n m x : upto a n -> upto b m -> n + m <= x -> upto (a ++ b) x.
Proof. intros [A1 A2] [B1 B2] L. split; [rewrite acts_cost_app; lia|apply Forall_app; auto]. Qed.
Lemma upto_cons a l n x : act_len a -> upto l n -> act_cost a + n <= x -> upto (a :: l) x.
Proof. intros A [B1 B2] L. split; [cbn [acts_cost]; lia|constructor; auto]. Qed.
Lemma upto_nil : upto [] 0. Proof. split; [cbn; lia|constructor]. Qed.
Lemma upto_le l n m : upto l n -> n <= m -> upto l m. Proof. intros [A B] L. split; [lia|exact B]. Qed.
Lemma upto_ints l pd fd : upto (ints_acts l pd fd) (2 * Z.of_nat (length l)).
Proof. destruct (ints_cost l pd fd). split; [lia|assumption]. Qed.
Lemma upto_reals u l pd fd : upto (reals_acts u l pd fd) (2 * Z.of_nat (length l)).
Proof. destruct (reals_cost u l pd fd). split; [lia|assumption]. Qed.

Lemma frame_upto init acts extras k seq pd rd r n : upto acts n -> format_frame init acts extras [] k seq pd rd = POk r ->
  p_next r <= k + n + 2 * Z.of_nat (length extras) + 6.
Proof. intros [A B] H. apply frame_up in H; [lia|exact B]. Qed.

Ltac up F n := eapply (frame_upto _ _ _ _ _ _ _ _ n) in F; [lia|].

Lemma flat3 (v : list point) : length (flat_map pt_reals v) = (3 * length v)%nat.
Proof. induction v as [|[[x y] z] v IH]; [reflexivity|]. cbn [flat_map pt_reals app length]. rewrite IH. lia. Qed.

Lemma pairs_len l : length (pairs_ints l) = (2 * length l)%nat.
Proof. unfold pairs_ints. induction l as [|p l IH]; [reflexivity|]. cbn [flat_map app length]. lia. Qed.

Lemma ent_up u' u pd rd k seq e r : data_ok u' u (d_form (e_dir e)) (e_extras e) (e_data e) -> e_comments e = [] ->
  format_ent u pd rd k seq e = POk r -> p_next r <= k + ent_lines e.
Proof.
  destruct e as [d p ex cs]. unfold ent_lines, format_ent. cbn [e_dir e_data e_extras e_comments]. intros OK ->.
  destruct p as [a|l|c|l|rv|t|m|c v|s|o|t|c v|x v|l|b|s|c|nm|i|v|l|l|f|l];
    cbn [data_ok items text_lines] in OK |- *; intros F.
  - unfold format100 in F. up F 14. apply upto_reals.
  - unfold format102 in F. up F (2 * Z.of_nat (length l)). apply upto_ints.
  - unfold format104 in F. up F 22. apply upto_reals.
  - unfold format110 in F. up F 12. apply upto_reals.
  - unfold format120 in F. destruct (rv_axis rv), (rv_curve rv); try discriminate. up F 4. apply upto_reals.
  - unfold format122 in F. destruct (tc_curve t); try discriminate. up F 6. apply upto_reals.
  - unfold format124 in F. up F 24. apply upto_reals.
  - destruct v as [[i j] h]. destruct OK as [OK _]. unfold format126 in F. destruct (_ || _); [discriminate|].
    up F (2 * ncurve_size c). unfold ncurve_size.
    assert (W : length (if rational (n_props c) then n_wts c else repeat 1%Q (length (n_pts c))) = length (n_pts c)).
    { pose proof (ok_wts c OK) as W. unfold rational. destruct (_ =? 0); [apply W|apply repeat_length]. }
    eapply upto_app; [apply upto_reals|eapply upto_app; [apply upto_reals|eapply upto_app; [apply upto_reals|apply upto_reals|apply Z.le_refl]|apply Z.le_refl]|].
    rewrite W, flat3. cbn [length]. lia.
  - unfold format128 in F. destruct (_ || _); [discriminate|].
    up F (2 * nsurf_size s). unfold nsurf_size.
    assert (W : upto (if rational (s_props s) then reals_acts weight_res (s_wts s) pd pd
      else reals_acts color_res (repeat 1%Q (length (s_pts s))) pd pd) (2 * Z.of_nat (length (s_pts s)))).
    { pose proof (os_wts s OK) as W. unfold rational. destruct (_ =? 0).
      - destruct W as [<- _]. apply upto_reals.
      - rewrite <- (repeat_length 1%Q (length (s_pts s))) at 2. apply upto_reals. }
    eapply upto_app; [apply upto_reals|eapply upto_app; [apply upto_reals|eapply upto_app; [exact W|eapply upto_app; [apply upto_reals|apply upto_reals|apply Z.le_refl]|apply Z.le_refl]|apply Z.le_refl]|].
    rewrite flat3. cbn [length]. lia.
  - unfold format142 in F. destruct (os_surf o); [|discriminate]. cbv zeta in F. apply guard_ok in F. destruct F as [_ F].
    apply guard_ok in F. destruct F as [_ F]. apply guard_ok in F. destruct F as [_ F].
    up F 2. eapply upto_cons; [exact I|apply upto_nil|cbn; lia].
  - unfold format144 in F. destruct (tr_surf t); [|discriminate]. unfold guard in F. destruct (flag01 _); [|discriminate].
    up F (2 * Z.of_nat (length (tr_inner t)) + 2). eapply upto_le; [apply upto_ints|cbn [length]; lia].
  - destruct v as [[i j] h]. unfold format154 in F. up F 16. apply upto_reals.
  - destruct v as [[i j] h]. unfold format164 in F. destruct (ex_curve x); [|discriminate]. up F 10.
    eapply upto_cons; [exact I|apply upto_reals|cbn; lia].
  - contradiction.
  - unfold format186 in F. destruct OK as [_ V]. rewrite V in *. destruct (_ <? _); [discriminate|]. destruct (br_shell b); [|discriminate].
    up F 2. eapply upto_cons; [exact I|apply upto_nil|cbn; lia].
  - unfold format308 in F. destruct OK as (_ & _ & _ & L & _). destruct (sf_ents s) as [|e es] eqn:E; [discriminate|].
    up F (str_cost (sf_name s) + 2 + 2 * Z.of_nat (length (e :: es))).
    eapply upto_cons; [exact L|eapply upto_cons; [exact I|apply upto_ints|apply Z.le_refl]|cbn [act_cost WInt]; lia].
  - unfold format314 in F. cbv zeta in F. up F 8. apply (upto_app _ _ 6 2); [| |lia].
    + eapply upto_cons; [exact I|eapply upto_cons; [exact I|eapply upto_cons; [exact I|apply upto_nil|apply Z.le_refl]|apply Z.le_refl]|cbn; lia].
    + destruct (co_name c); [split; [cbn; lia|constructor]|]. eapply upto_cons; [exact I|apply upto_nil|cbn; lia].
  - unfold format406 in F. destruct OK as (_ & L & _). apply guard_ok in F. destruct F as [_ F]. up F (str_cost nm).
    eapply upto_cons; [exact L|apply upto_nil|cbn [act_cost]; lia].
  - unfold format408 in F. destruct (in_def i); [|discriminate]. up F 8. apply upto_reals.
  - unfold format502 in F. destruct (_ || _); [discriminate|]. destruct v as [|p v]; [discriminate|]. up F (6 * Z.of_nat (length (p :: v))).
    destruct (vertex_cost u (p :: v) pd (fdel ex pd rd)). split; [lia|assumption].
  - unfold format504 in F. destruct (_ || _); [discriminate|]. destruct l as [|p v]; [discriminate|]. destruct (existsb _ _); [discriminate|].
    up F (2 * Z.of_nat (length (p :: v))).
    destruct (edge_cost (p :: v) pd (fdel ex pd rd)). split; [lia|assumption].
  - contradiction.
  - unfold format510 in F. destruct (_ <? _); [discriminate|]. destruct (fc_surf f); [|discriminate]. destruct (fc_loops f) as [|x l]; [discriminate|].
    up F (2 * Z.of_nat (length (x :: l))). apply upto_ints.
  - unfold format514 in F. destruct (_ <? _); [discriminate|]. destruct l as [|x l]; [discriminate|].
    up F (4 * Z.of_nat (length (x :: l))). eapply upto_le; [apply upto_ints|rewrite pairs_len; lia].
Qed.
