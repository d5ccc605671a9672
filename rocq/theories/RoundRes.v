(** The resolution with which the entities of a file are read. *)

From Coq Require Import Lia ZifyBool ZifyNat ZifyN QArith Qabs.
From Verif Require Import Base Num Spec IoModel PdModel PdFacts EntModel EntModel2 EntModel3 EntSpec EntProps5
  DeModel DeSpec PayloadModel GlobalModel GlobSpec FileModel FileSpec RoundSpec RoundFile RoundBad.
Open Scope Z_scope.

Lemma res_used g ver now g' : six_digits (minResolution g) -> six_digits (modelScale g) -> (1 # 1000000000000 <= minResolution g)%Q ->
  reads_back g ver now g' -> resolution_used g (minResolution g').
Proof.
  intros SR SS PR (_ & _ & _ & _ & _ & _ & _ & _ & _ & _ & _ & _ & _ & _ & _ & _ & _ & _ & _ & _ & _ & _ & _ & r & s & w & m & RE & CS & CM & _ & _ & _ & H).
  destruct RE as [[B _]|[_ ->]]; [exfalso; apply (Qlt_not_le _ _ B PR)|].
  apply six_close in CS; [|exact SS]. apply six_close in CM; [|exact SR]. unfold resolution_used.
  assert (US : unit_scale s <-> unit_scale (modelScale g)) by (unfold unit_scale; rewrite CS; tauto).
  destruct (applicationNote g).
  - destruct H as (_ & _ & H & _). rewrite H. exact CM.
  - destruct H as (_ & H1 & H2). split; intros K; rewrite <- US in K.
    + destruct (H1 K) as (_ & -> & _). rewrite CM. reflexivity.
    + destruct (H2 K) as (_ & -> & _). rewrite CM, CS. reflexivity.
Qed.

Lemma radii_eq u v xc yc xs ys xe ye xc' yc' xs' ys' xe' ye' : (u == v)%Q -> (xc == xc' -> yc == yc' -> xs == xs' -> ys == ys' -> xe == xe' -> ye == ye' ->
  radii_ok u xc yc xs ys xe ye <-> radii_ok v xc' yc' xs' ys' xe' ye')%Q.
Proof.
  intros E0 E1 E2 E3 E4 E5 E6. unfold radii_ok, coincide. cbv zeta. rewrite E0, E1, E2, E3, E4, E5, E6. reflexivity.
Qed.

Lemma data_ok_eq u1 u2 u form extras p : (u1 == u2)%Q -> data_ok u1 u form extras p -> data_ok u2 u form extras p.
Proof.
  intros E. destruct p as [a|l|c|l|v|t|m|c [[i j] k]|s|o|t|c [[i j] k]|x [[i j] k]|l|b|s|c|n|o|v|l|l|f|l]; cbn [data_ok]; auto.
  - intros [F H]. split; [exact F|]. intros a' C. specialize (H a' C). revert H. apply radii_eq; [symmetry; exact E|reflexivity..].
  - rewrite E. auto.
Qed.

Lemma doc_ok_plain d name ver now : head_ok d name ver now -> d_ents d <> [] -> all_lines (d_ents d) <= 9999998 ->
  applicationNote (d_glob d) = [] -> six_digits (minResolution (d_glob d)) -> six_digits (modelScale (d_glob d)) ->
  Forall (ent_ok (minResolution (d_glob d)) (minResolution (d_glob d))) (d_ents d) -> doc_ok d name ver now.
Proof.
  intros HO NE AL AN SR SS F. split; [exact HO|]. split; [exact NE|]. split; [exact AL|]. intros g' RB.
  pose proof HO as (_ & _ & _ & MR). cbn [with_name minResolution] in *.
  assert (P8 : (1 # 1000000000000 <= minResolution (d_glob d))%Q).
  { destruct MR as [[A B]|B]; [|eapply Qle_trans; [|exact B]; discriminate].
    destruct SR as (n & k & E & L & [Z|Z]); [rewrite Z in A; discriminate A|].
    rewrite Qabs_pos in Z; [|apply Qlt_le_weak, A]. eapply Qle_trans; [|exact Z]. discriminate. }
  apply res_used in RB; auto. unfold resolution_used in RB. cbn [with_name applicationNote minResolution] in RB. rewrite AN in RB.
  eapply Forall_impl; [|exact F]. intros e (DO & DD & EO & CO). split; [exact DO|]. split; [|auto].
  eapply data_ok_eq; [|exact DD]. symmetry. exact RB.
Qed.

Lemma small_arc_spoils d name ver now t over s name2 es1 e es2 a : head_ok d name ver now -> d_ents d = es1 ++ e :: es2 ->
  Forall (fun e => dir_sane (e_dir e)) (d_ents d) -> Forall ent_lined (es1 ++ [e]) ->
  Z.of_nat (length s) <= 729000000 -> ent_lines e <= 900000 ->
  six_digits (minResolution (d_glob d)) -> six_digits (modelScale (d_glob d)) ->
  e_data e = P100 a -> Forall real300 (arc_reals a) -> Forall six_digits (arc_reals a) -> extras_ok (e_extras e) -> e_comments e = [] ->
  (forall u, resolution_used (d_glob d) u -> ~ radii_ok u (a_xc a) (a_yc a) (a_xs a) (a_ys a) (a_xe a) (a_ye a)) ->
  Write d name ver now t over = POk (true, Old s) ->
  forall x, read_file [] 0 init_globals name2 (mkStream s false) <> POk x.
Proof.
  intros HO EE SA EL LS LE SR SS EA FR F6 EO EC NO W. eapply record_spoils; try eassumption.
  intros g' RB. split; [exact EO|]. left. split; [|exact EC]. rewrite EA. cbn [data_refused]. split; [exact FR|].
  intros a' CL.
  pose proof HO as (_ & _ & _ & MR). cbn [with_name minResolution] in *.
  assert (P8 : (1 # 1000000000000 <= minResolution (d_glob d))%Q).
  { destruct MR as [[A B]|B]; [|eapply Qle_trans; [|exact B]; discriminate].
    destruct SR as (n & k & E & L & [Z|Z]); [rewrite Z in A; discriminate A|].
    rewrite Qabs_pos in Z; [|apply Qlt_le_weak, A]. eapply Qle_trans; [|exact Z]. discriminate. }
  apply res_used in RB; auto. intros R. apply (NO _ RB). revert R.
  unfold arc_reals in *. inversion CL as [|? ? ? ? C1 L1]; inversion L1 as [|? ? ? ? C2 L2]; inversion L2 as [|? ? ? ? C3 L3]; inversion L3 as [|? ? ? ? C4 L4];
    inversion L4 as [|? ? ? ? C5 L5]; inversion L5 as [|? ? ? ? C6 L6]; inversion L6 as [|? ? ? ? C7 L7]; subst.
  inversion F6 as [|? ? D1 G1]; inversion G1 as [|? ? D2 G2]; inversion G2 as [|? ? D3 G3]; inversion G3 as [|? ? D4 G4];
    inversion G4 as [|? ? D5 G5]; inversion G5 as [|? ? D6 G6]; inversion G6 as [|? ? D7 G7]; subst.
  apply radii_eq; [reflexivity|..]; first [eapply six_close; eassumption|symmetry; eapply six_close; eassumption].
Qed.

(** Arcs with coordinates of at most six digits are kept when they pass the test. *)
Lemma arc_six u' u form extras a : Forall real300 (arc_reals a) -> Forall six_digits (arc_reals a) ->
  radii_ok u' (a_xc a) (a_yc a) (a_xs a) (a_ys a) (a_xe a) (a_ye a) -> data_ok u' u form extras (P100 a).
Proof.
  intros FR F6 R. cbn [data_ok]. split; [exact FR|]. intros a' CL. revert R.
  unfold arc_reals in *. inversion CL as [|? ? ? ? C1 L1]; inversion L1 as [|? ? ? ? C2 L2]; inversion L2 as [|? ? ? ? C3 L3]; inversion L3 as [|? ? ? ? C4 L4];
    inversion L4 as [|? ? ? ? C5 L5]; inversion L5 as [|? ? ? ? C6 L6]; inversion L6 as [|? ? ? ? C7 L7]; subst.
  inversion F6 as [|? ? D1 G1]; inversion G1 as [|? ? D2 G2]; inversion G2 as [|? ? D3 G3]; inversion G3 as [|? ? D4 G4];
    inversion G4 as [|? ? D5 G5]; inversion G5 as [|? ? D6 G6]; inversion G6 as [|? ? D7 G7]; subst.
  apply radii_eq; [reflexivity|..]; first [eapply six_close; eassumption|symmetry; eapply six_close; eassumption].
Qed.
