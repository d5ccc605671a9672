(** From the records read to what they say of a plan. *)

From Coq Require Import QArith Lia ZifyBool ZifyNat.
From Verif Require Import Base Spec DeModel DeSpec PdFacts EntModel EntModel2 EntModel3 EntSpec PayloadModel FileModel RoundSpec.
From Verif Require Import GraphModel GraphFacts PlanSpec AssocModel AssocSpec JoinModel JoinSpec.
Open Scope Z_scope.

(** *** The Directory Entry *)

Definition pointer_field (f : dfield) : bool :=
  match f with FStruct | FFont | FLevel | FView | FTrans | FLassoc | FColor => true | _ => false end.

Lemma table_zero : forall t l o f c, In (t, (l, o)) type_table -> In (f, c) l -> pointer_field f = true -> c = 0.
Proof.
  intros t l o f c H. unfold type_table in H. cbn [In] in H.
  repeat (destruct H as [H|H]; [injection H as <- <- <-; cbn [In]; intros K P;
    repeat (destruct K as [K|K]; [injection K as <- <-; (reflexivity || discriminate P)|]); destruct K|]). destruct H.
Qed.
Lemma table_place : forall t l o, In (t, (l, o)) type_table -> In FTrans (map fst l) -> no_place t.
Proof.
  intros t l o H. unfold type_table in H. cbn [In] in H.
  repeat (destruct H as [H|H]; [injection H as <- <- <-; cbn [map fst In]; unfold no_place; cbn [In]; intros K; first [tauto | exfalso; intuition discriminate]|]). destruct H.
Qed.
Lemma table_colour : forall t l o, In (t, (l, o)) type_table -> In FColor (map fst l) -> no_colour t.
Proof.
  intros t l o H. unfold type_table in H. cbn [In] in H.
  repeat (destruct H as [H|H]; [injection H as <- <- <-; cbn [map fst In]; unfold no_colour; cbn [In]; intros K; first [tauto | exfalso; intuition discriminate]|]). destruct H.
Qed.
Lemma table_dep : forall t l o c, In (t, (l, o)) type_table -> In (FDep, c) l -> (In t [502; 504; 508; 510] /\ c = 1) \/ (t = 314 /\ c = 0).
Proof.
  intros t l o c H. unfold type_table in H. cbn [In] in H.
  repeat (destruct H as [H|H]; [injection H as <- <- <-; cbn [In]; intros K;
    repeat (destruct K as [K|K]; [first [discriminate K | injection K as <-; cbn; auto 10]|]); destruct K|]). destruct H.
Qed.

(** A pointer field of the entry read holds 0 or what the file says; the latter when the
    class has such a field. *)
Lemma field_kept maxgrad d i : kept_by_type maxgrad d i -> exists i0, dir_kept maxgrad d i0 /\ i_form i = d_form d /\
  (forall f, pointer_field f = true -> fval f i = 0 \/ fval f i = fval f i0) /\
  (~ no_place (d_type d) -> i_trans i = i_trans i0) /\ (~ no_colour (d_type d) -> i_color i = i_color i0) /\
  (dep_kept (d_type d) (d_dep d) -> i_dep i = d_dep d).
Proof.
  intros (i0 & l & K & F & A & _ & _ & _ & Fm & _). exists i0. split; [exact K|]. split; [now rewrite Fm, (k_form _ _ _ K)|].
  assert (T : forall f, In f (map fst l) -> exists o, In (d_type d, (l, o)) type_table).
  { intros f H. destruct F as [F|[_ ->]]; [exact F|destruct H]. }
  split; [|split; [|split]].
  - intros f P. destruct (A f) as [(c & H & E)|[_ E]]; [left|right; exact E].
    destruct (T f) as [o Ho]; [apply in_map_iff; now exists (f, c)|]. rewrite E. eapply table_zero; eassumption.
  - intros N. destruct (A FTrans) as [(c & H & E)|[_ E]]; [|exact E]. exfalso.
    assert (H' : In FTrans (map fst l)) by (apply in_map_iff; now exists (FTrans, c)). destruct (T _ H') as [o Ho]. exact (N (table_place _ _ _ Ho H')).
  - intros N. destruct (A FColor) as [(c & H & E)|[_ E]]; [|exact E]. exfalso.
    assert (H' : In FColor (map fst l)) by (apply in_map_iff; now exists (FColor, c)). destruct (T _ H') as [o Ho]. exact (N (table_colour _ _ _ Ho H')).
  - intros [D1 D2]. destruct (A FDep) as [(c & H & E)|[_ E]].
    + assert (H' : In FDep (map fst l)) by (apply in_map_iff; now exists (FDep, c)). destruct (T _ H') as [o Ho]. cbn in E.
      destruct (table_dep _ _ _ _ Ho H) as [[X ->]|[X ->]]; [rewrite (D1 X)|rewrite (D2 X)]; exact E.
    + cbn in E. now rewrite E, (k_dep _ _ _ K).
Qed.

(** *** The data *)

Lemma num_ptr0 o : ptr0 (num o) = match o with Some x => number x | None => 0 end.
Proof. now destruct o. Qed.

Lemma slots_three (l : list (option nat)) : length l = 3%nat -> l = [nth 0 l None; nth 1 l None; nth 2 l None].
Proof. destruct l as [|a [|b [|c [|]]]]; try discriminate. reflexivity. Qed.
Lemma slots_two (l : list (option nat)) : length l = 2%nat -> l = [nth 0 l None; nth 1 l None].
Proof. destruct l as [|a [|b [|]]]; try discriminate. reflexivity. Qed.
Lemma slots_one (l : list (option nat)) : length l = 1%nat -> l = [nth 0 l None].
Proof. destruct l as [|a [|]]; try discriminate. reflexivity. Qed.

Definition slot_nums (n : node) : list Z := map (fun o => match o with Some x => number x | None => 0 end) (n_slots n).

Definition says_edges (l : list node) (n : node) (q : list (Z * (Z * Z) * (Z * Z))) : Prop :=
  Forall2 (fun d p => exists s t, p = (number (ed_curve d), (number (ed_start d), s), (number (ed_stop d), t)) /\
              (forall m, nth_error l (ed_start d) = Some m -> 1 <= s <= Z.of_nat (n_points m)) /\
              (forall m, nth_error l (ed_stop d) = Some m -> 1 <= t <= Z.of_nat (n_points m)))
            (n_edges n) q.
Definition loop_nums (n : node) : list (Z * list Z) := map (fun p => (number (fst p), map number (snd p))) (n_loops n).

Lemma carried_edges l n es : Forall2 (edge_carries l) (n_edges n) es ->
  says_edges l n (map (fun e => (ptr0 (ed_curv e), (ptr0 (ed_svp e), ed_sv e), (ptr0 (ed_tvp e), ed_tv e))) es).
Proof.
  unfold says_edges. intros F. induction F as [|d e ds es (A & B & C & S & T) F IH]; cbn [map]; constructor; [|exact IH].
  exists (ed_sv e), (ed_tv e). rewrite A, B, C. cbn [ptr0]. auto.
Qed.

Lemma data_says l n u p p' : fits l n -> n_null n = false -> GraphModel.n_type n = type_no p -> no_points n ->
  data_close u p p' -> data_carries l n p ->
  type_no p' = type_no p /\ point_count p' = n_points n /\ slot_numbers p' = slot_nums n /\
  item_numbers p' = map number (n_items n) /\ says_edges l n (edge_numbers p') /\ loop_numbers p' = loop_nums n.
Proof.
  intros F N T NP DC C.
  assert (L : n_type n <> 508 -> @Datatypes.nil (Z * list Z) = loop_nums n).
  { intros X. unfold loop_nums. now rewrite (f_loops _ _ F X). }
  assert (Ed : n_type n <> 504 -> says_edges l n []).
  { intros X. unfold says_edges. rewrite (f_edges _ _ F X). constructor. }
  assert (It : ~ In (n_type n) [102; 144; 180; 186; 308; 510; 514] -> @Datatypes.nil Z = map number (n_items n)).
  { intros X. now rewrite (f_items _ _ F X). }
  assert (NP' : n_type n <> 502 -> 0%nat = n_points n) by (intros X; symmetry; now apply NP).
  pose proof (f_len _ _ F) as Sl. rewrite N, T in Sl. unfold slot_nums.
  destruct p; try (match goal with d : (Q * Q * Q)%type |- _ => destruct d as [[? ?] ?] end); destruct p'; cbn [data_close] in DC; try contradiction.
  all: cbn [type_no] in T, Sl; match type of Sl with _ = ?x => let y := eval vm_compute in x in change x with y in Sl end; cbn [data_carries] in C; cbv zeta in C;
    cbn [type_no slot_numbers item_numbers edge_numbers loop_numbers point_count].
  all: (split; [reflexivity|]).
  all: (split; [first [exact (eq_sym C) | apply NP'; rewrite T; discriminate | idtac]|]).
  all: try (split; [apply length_zero_iff_nil in Sl; now rewrite Sl|]).
  all: try (split; [apply It; rewrite T; cbn; intuition discriminate|]).
  all: try (split; [apply Ed; rewrite T; discriminate|]; apply L; rewrite T; discriminate).
  all: try (split; [|split; [apply Ed; rewrite T; discriminate|apply L; rewrite T; discriminate]]).
  - now rewrite DC.
  - destruct C as [A B]. destruct DC as (E1 & E2 & _). rewrite E1, E2, A, B, !num_ptr0, (slots_two _ Sl). split; [reflexivity|].
    split; [apply It; rewrite T; cbn; intuition discriminate|]. split; [apply Ed; rewrite T; discriminate|apply L; rewrite T; discriminate].
  - destruct DC as (E1 & _). rewrite E1, C, !num_ptr0, (slots_one _ Sl). split; [reflexivity|].
    split; [apply It; rewrite T; cbn; intuition discriminate|]. split; [apply Ed; rewrite T; discriminate|apply L; rewrite T; discriminate].
  - destruct C as (A & B & C). rewrite DC. cbn [os_surf os_b os_c]. rewrite A, B, C, !num_ptr0, (slots_three _ Sl). split; [reflexivity|].
    split; [apply It; rewrite T; cbn; intuition discriminate|]. split; [apply Ed; rewrite T; discriminate|apply L; rewrite T; discriminate].
  - destruct C as (A & B & C). rewrite DC, A, B, C, !num_ptr0, (slots_two _ Sl). split; [reflexivity|]. split; [reflexivity|].
    split; [apply Ed; rewrite T; discriminate|apply L; rewrite T; discriminate].
  - destruct DC as (E1 & _). rewrite E1, C, !num_ptr0, (slots_one _ Sl). split; [reflexivity|].
    split; [apply It; rewrite T; cbn; intuition discriminate|]. split; [apply Ed; rewrite T; discriminate|apply L; rewrite T; discriminate].
  - destruct C as [A B]. rewrite DC, A, B, !num_ptr0, (slots_one _ Sl). split; [reflexivity|]. split; [reflexivity|].
    split; [apply Ed; rewrite T; discriminate|apply L; rewrite T; discriminate].
  - now rewrite DC.
  - destruct DC as (E1 & _). rewrite E1, C, !num_ptr0, (slots_one _ Sl). split; [reflexivity|].
    split; [apply It; rewrite T; cbn; intuition discriminate|]. split; [apply Ed; rewrite T; discriminate|apply L; rewrite T; discriminate].
  - rewrite C. clear - DC. induction DC; cbn; congruence.
  - rewrite DC. split; [now apply carried_edges|]. apply L. rewrite T. discriminate.
  - destruct C as [A B]. rewrite DC, A, B, !num_ptr0, (slots_one _ Sl). split; [reflexivity|]. split; [reflexivity|].
    split; [apply Ed; rewrite T; discriminate|apply L; rewrite T; discriminate].
  - rewrite DC. exact C.
Qed.

(** *** One entity *)

Lemma known_type {D} (p : payload D) : zmem (type_no p) known = true.
Proof. now destruct p. Qed.

Lemma ent_says l n e u maxgrad seq pdata count r : fits l n -> carries l n e -> d_plevel (e_dir e) = None ->
  read_as u maxgrad seq pdata count e r -> says l n (wants_of r).
Proof.
  intros F C PL (T & K & (p & Ep & DC) & X & _).
  destruct (c_class _ _ _ C) as [Nn Nt]. destruct (c_rest _ _ _ C) as (R1 & R2 & R3 & R4).
  destruct (data_says l n u _ p F Nn Nt R4 DC (c_data _ _ _ C)) as (D1 & D2 & D3 & D4 & D5 & D6).
  destruct (field_kept _ _ _ K) as (i0 & K0 & Fm & Fz & Ft & Fc & Fd). cbn [filed d_type d_form d_dep] in *.
  unfold wants_of. constructor; cbn [q_type q_form q_dep q_points q_des q_extras q_slots q_items q_edges q_loops]; rewrite ?Ep.
  - rewrite T, known_type. auto.
  - split; [congruence|]. split; [|now symmetry]. rewrite Fd by (rewrite <- Nt, <- R2; exact R3). exact R2.
  - split; [reflexivity|]. split; [exact (f_seven _ _ F)|].
    assert (NoDes : forall k, k <> 4%nat -> k <> 6%nat -> nth k (n_des n) None = None).
    { intros k H4 H6. destruct (nth k (n_des n) None) as [x|] eqn:E; [|reflexivity]. exfalso.
      destruct (f_des _ _ F k x E) as [[X4 _]|[[X6 _]|[_ Xn]]]; [now apply H4|now apply H6|congruence]. }
    intros k v E. destruct k as [|[|[|[|[|[|[|k]]]]]]]; [..|cbn in E; destruct k; discriminate]; cbn [nth_error] in E; injection E as <-.
    + rewrite NoDes by discriminate. cbn [signed]. destruct (k_struct _ _ _ K0) as (_ & Z0 & _). cbn [filed d_struct] in Z0.
      rewrite (c_struct _ _ _ C), NoDes in Z0 by discriminate. specialize (Z0 eq_refl). 
      destruct (Fz FStruct eq_refl) as [Y|Y]; cbn [fval] in Y; rewrite Y; [lia|]. rewrite Z0; lia.
    + rewrite NoDes by discriminate. cbn [signed]. destruct (k_font _ _ _ K0) as (_ & Z0 & Z1). cbn [filed d_pfont d_font] in Z0, Z1.
      rewrite (c_font _ _ _ C), NoDes in Z0, Z1 by discriminate. specialize (Z0 eq_refl). specialize (Z1 eq_refl).
      destruct (Fz FFont eq_refl) as [Y|Y]; cbn [fval] in Y; rewrite Y; lia.
    + rewrite NoDes by discriminate. cbn [signed]. destruct (k_level _ _ _ K0) as (Z0 & Z1). cbn [filed d_level] in Z0, Z1.
      destruct (Fz FLevel eq_refl) as [Y|Y]; cbn [fval] in Y; rewrite Y; lia.
    + rewrite NoDes by discriminate. cbn [signed]. destruct (k_view _ _ _ K0) as (_ & Z0). cbn [filed d_view] in Z0.
      rewrite (c_view _ _ _ C), NoDes in Z0 by discriminate. specialize (Z0 eq_refl).
      destruct (Fz FView eq_refl) as [Y|Y]; cbn [fval] in Y; rewrite Y; lia.
    + cbn [signed]. destruct (k_trans _ _ _ K0) as (Z1 & Z0). cbn [filed d_trans] in Z0, Z1. rewrite (c_trans _ _ _ C) in Z0, Z1.
      destruct (nth 4 (n_des n) None) as [x|] eqn:E4.
      * rewrite Ft; [now apply Z1|]. intros P. rewrite <- Nt in P. rewrite (c_placed _ _ _ C P) in E4. discriminate.
      * specialize (Z0 eq_refl). destruct (Fz FTrans eq_refl) as [Y|Y]; cbn [fval] in Y; rewrite Y; lia.
    + rewrite NoDes by discriminate. cbn [signed]. destruct (k_lassoc _ _ _ K0) as (_ & Z0). cbn [filed d_lassoc] in Z0.
      rewrite (c_label _ _ _ C), NoDes in Z0 by discriminate. specialize (Z0 eq_refl).
      destruct (Fz FLassoc eq_refl) as [Y|Y]; cbn [fval] in Y; rewrite Y; lia.
    + cbn [signed]. destruct (k_color _ _ _ K0) as (Z1 & Z0 & Z2). cbn [filed d_pcolor d_color] in Z0, Z1, Z2. rewrite (c_color _ _ _ C) in Z0, Z1, Z2.
      destruct (nth 6 (n_des n) None) as [x|] eqn:E6.
      * rewrite Fc; [now apply Z1|]. intros P. rewrite <- Nt in P. rewrite (c_coloured _ _ _ C P) in E6. discriminate.
      * specialize (Z0 eq_refl). specialize (Z2 eq_refl). destruct (Fz FColor eq_refl) as [Y|Y]; cbn [fval] in Y; rewrite Y; lia.
  - rewrite X. exact (c_extras _ _ _ C).
  - exact D3.
  - exact D4.
  - exact D5.
  - exact D6.
Qed.

Lemma all_says l u maxgrad : forall ns es rs seq k, (forall n, In n ns -> fits l n) -> Forall2 (carries l) ns es ->
  Forall (fun e => d_plevel (e_dir e) = None) es -> all_read_as u maxgrad seq k es rs -> Forall2 (says l) ns (map wants_of rs).
Proof.
  intros ns es rs seq k F C. revert rs seq k. induction C as [|n e ns es C0 C IH]; intros rs seq k PL A.
  - inversion A; subst. constructor.
  - inversion A as [|? ? ? ? r ? rs' Hc Hr Ha]; subst. inversion PL; subst. cbn [map]. constructor.
    + eapply ent_says; [apply F; now left|exact C0|assumption|exact Hr].
    + eapply IH; [intros m Hm; apply F; now right|assumption|exact Ha].
Qed.
