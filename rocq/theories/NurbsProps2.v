(** Unreadable and miscounted curves; surfaces. *)

From Coq Require Import Lia ZifyBool ZifyNat ZifyN QArith Qabs Lqa.
From Verif Require Import Base Num Spec IoModel PdModel PdFacts EntSpec EntModel EntModel2 EntModel3
  EntFacts EntProps2 EntProps3 NurbsModel NurbsSpec NurbsNeg NurbsProps.
Open Scope Z_scope.

Lemma flag_list (a b : bool) : Forall (fun v => v = 0 \/ v = 1) [if a then 1 else 0; 0; if b then 0 else 1; 0].
Proof.
  apply Forall_cons; [destruct a; auto|]. apply Forall_cons; [auto|].
  apply Forall_cons; [destruct b; auto|]. apply Forall_cons; [auto|constructor].
Qed.

Lemma set_refused c d tk tc vec extras k seq pd rd : spline_ok d -> vec_ok vec -> settings_ok pd rd seq k extras ->
  p_rat d = true -> Exists (fun w => w < 1 # 100000000)%Q (p_wts d) ->
  room k (Z.of_nat (length (p_knots d)) + 4 * p_n d + 5) 0 extras ->
  exists c', set_spline c d tk tc = POk (true, c') /\
    refused (WriteCurve vec c' extras [] k seq pd rd) (fun m f => readPD126 seq k m pd rd f).
Proof.
  intros S V ST RT WX RM. pose proof ST as (_ & _ & Hk & _).
  assert (B : 4 * p_n d <= 2147483647) by (unfold room, p_n in *; lia).
  destruct (set_holding c d tk tc S B) as (c' & E & H).
  exists c'. split; [exact E|].
  rewrite (write_holding vec c' d extras [] k seq pd rd S H).
  pose proof (V (snd (hasUniquePlane (p_pts d)))) as VR.
  destruct (vec (snd (hasUniquePlane (p_pts d)))) as [[x y] z]. cbn [pt_reals] in VR.
  destruct S as [O K W R RL]. rewrite RT in W.
  apply refused126; auto; try (cbn [in_file n_K n_M n_knots n_pts]; unfold p_n in *; lia).
  - apply flag_list.
  - cbn. now rewrite RT.
Qed.

(** ** After a refusal *)

Lemma refused_counts c n order ks cs rat v0 v1 c' : 2 <= order -> order <= n ->
  SetCurve c n order (Some ks) (Some cs) rat v0 v1 = POk (false, c') -> c' = with_counts n order c.
Proof.
  intros A B. unfold SetCurve. replace (order <? 2) with false by lia. replace (n <? order) with false by lia.
  destruct (int_max <? n + order); [discriminate|].
  destruct (in_range ks (n + order) v0 v1) as [| |b]; try discriminate. cbn [pbind].
  destruct b; cbn [negb].
  - unfold take_data. destruct (copy _ ks) as [| |kn]; try discriminate. cbn [pbind].
    destruct (int_max <? _); [discriminate|]. destruct (copy _ cs) as [| |cf]; try discriminate. cbn [pbind].
    destruct (unpack _ _ _) as [| |[p w]]; try discriminate. cbn [pbind]. destruct (hasUniquePlane p). discriminate.
  - intros H. injection H as <-. reflexivity.
Qed.

Lemma miscounted_crash d c n order vec extras cs k seq pd rd : spline_ok d -> holding d c -> 2 <= order -> order <= n ->
  p_n d + p_order d < n + order \/ p_n d < n ->
  WriteCurve vec (with_counts n order c) extras cs k seq pd rd = PCrash.
Proof.
  intros [O K W R _] H A B X. pose proof (holding_flags d c H) as FL. unfold WriteCurve.
  cbn [with_counts c_knots c_coeffs c_K c_M c_nKnots c_nCoeffs c_PROP1 c_PROP2 c_PROP3 c_PROP4 c_V0 c_V1 c_vnorm].
  rewrite FL. clear FL. unfold holding in H. rewrite H.
  cbn [c_knots c_coeffs c_K c_M c_nKnots c_nCoeffs c_PROP1 c_PROP2 c_PROP3 c_PROP4 c_V0 c_V1 c_vnorm].
  match goal with |- (if ?b then _ else _) = _ => replace b with false by (cbn [negb]; lia) end.
  destruct (Z_lt_dec (p_n d + p_order d) (n + order)) as [L|L]; [rewrite copy_short by lia; reflexivity|].
  rewrite copy_ok by lia. cbn [pbind]. unfold rational. cbn [nth].
  replace ((if p_rat d then 0 else 1) =? 0) with (p_rat d) by (destruct (p_rat d); reflexivity).
  rewrite unpack_short; [reflexivity|]. rewrite (pack_len (p_rat d) _ _ W). unfold p_n in *.
  destruct (p_rat d); cbn [wlen]; lia.
Qed.

(** The curve found in the file when the new counts are not larger. *)
Definition cut (d : spline) (n order : Z) : spline :=
  mkSpline order (firstn (Z.to_nat (n + order)) (p_knots d)) (p_rat d) (firstn (Z.to_nat n) (p_pts d))
    (firstn (Z.to_nat n) (p_wts d)) (p_v0 d) (p_v1 d).

Lemma miscounted_write d c n order vec extras cs k seq pd rd : spline_ok d -> holding d c -> 2 <= order -> order <= n ->
  n + order <= p_n d + p_order d -> n <= p_n d ->
  WriteCurve vec (with_counts n order c) extras cs k seq pd rd =
  let '(i, j, l) := vec (snd (hasUniquePlane (p_pts d))) in
  format126 (in_file (cut d n order) (fst (hasUniquePlane (p_pts d)))) i j l extras cs k seq pd rd.
Proof.
  intros [O K W R _] H A B X1 X2. pose proof (holding_flags d c H) as FL. unfold WriteCurve.
  cbn [with_counts c_knots c_coeffs c_K c_M c_nKnots c_nCoeffs c_PROP1 c_PROP2 c_PROP3 c_PROP4 c_V0 c_V1 c_vnorm].
  rewrite FL. clear FL. unfold holding in H. rewrite H.
  cbn [c_knots c_coeffs c_K c_M c_nKnots c_nCoeffs c_PROP1 c_PROP2 c_PROP3 c_PROP4 c_V0 c_V1 c_vnorm].
  match goal with |- (if ?b then _ else _) = _ => replace b with false by (cbn [negb]; lia) end.
  rewrite copy_ok by lia. cbn [pbind]. unfold rational. cbn [nth].
  replace ((if p_rat d then 0 else 1) =? 0) with (p_rat d) by (destruct (p_rat d); reflexivity).
  pose proof (unpack_prefix (p_rat d) (Z.to_nat n) (p_pts d) (p_wts d) [] ltac:(unfold p_n in *; lia) W) as U.
  rewrite app_nil_r in U. rewrite U. cbn [pbind].
  unfold in_file, cut, p_n. cbn [p_order p_knots p_rat p_pts p_wts p_v0 p_v1].
  rewrite firstn_length. replace (Z.of_nat (Nat.min (Z.to_nat n) (length (p_pts d)))) with n by (unfold p_n in *; lia).
  reflexivity.
Qed.

Lemma In_firstn {A} (x : A) n l : In x (firstn n l) -> In x l.
Proof. intros H. rewrite <- (firstn_skipn n l). apply in_or_app. auto. Qed.

Lemma Forall_firstn {A} (P : A -> Prop) n l : Forall P l -> Forall P (firstn n l).
Proof. rewrite !Forall_forall. intros H x X. apply H. eapply In_firstn; eauto. Qed.

Lemma reals_firstn n pts : Forall real300 (flat_map pt_reals pts) -> Forall real300 (flat_map pt_reals (firstn n pts)).
Proof.
  rewrite !Forall_forall. intros H x X. apply in_flat_map in X. destruct X as (p & P & X). apply H, in_flat_map.
  exists p. split; [eapply In_firstn; eauto|exact X].
Qed.

(** The refusal of the second call is not visible in the file, which holds a part
    of the first curve under the counts of the second. *)
Lemma miscounted_round c d tk tc n order ks cs rat v0 v1 c2 vec extras k seq pd rd :
  spline_ok d -> vec_ok vec -> settings_ok pd rd seq k extras ->
  (p_rat d = true -> Forall (fun w => 1 # 100000000 <= w)%Q (p_wts d)) ->
  room k (Z.of_nat (length (p_knots d)) + 4 * p_n d + 5) 0 extras -> 2 <= order -> order <= n ->
  (exists c1, set_spline c d tk tc = POk (true, c1) /\ SetCurve c1 n order (Some ks) (Some cs) rat v0 v1 = POk (false, c2)) ->
  (p_n d + p_order d < n + order \/ p_n d < n -> WriteCurve vec c2 extras [] k seq pd rd = PCrash) /\
  (n + order <= p_n d + p_order d -> n <= p_n d ->
   round_trip (WriteCurve vec c2 extras [] k seq pd rd) (fun m f => readPD126 seq k m pd rd f)
      seq k (extras_ptrs extras)
      (fun a => exists flat, ncurve_close (in_file (cut d n order) flat) (fst a))).
Proof.
  intros S V ST WP RM A B (c1 & E1 & E2). pose proof ST as (_ & _ & Hk & _).
  assert (BB : 4 * p_n d <= 2147483647) by (unfold room, p_n in *; lia).
  destruct (set_holding c d tk tc S BB) as (c' & E & H). rewrite E in E1. injection E1 as <-.
  rewrite (refused_counts _ _ _ _ _ _ _ _ _ A B E2).
  split; [intros X; now apply (miscounted_crash d)|]. intros X1 X2.
  rewrite (miscounted_write d c' n order vec extras [] k seq pd rd S H A B X1 X2).
  pose proof (V (snd (hasUniquePlane (p_pts d)))) as VR.
  destruct (vec (snd (hasUniquePlane (p_pts d)))) as [[x y] z]. cbn [pt_reals] in VR.
  destruct S as [O K W R RL]. apply Forall_app in RL. destruct RL as [R1 RL]. apply Forall_app in RL. destruct RL as [R2 RL].
  apply Forall_app in RL. destruct RL as [R3 R4].
  assert (LP : length (firstn (Z.to_nat n) (p_pts d)) = Z.to_nat n) by (rewrite firstn_length; unfold p_n in *; lia).
  eapply round_trip_weaken; [|apply (round126 (in_file (cut d n order) (fst (hasUniquePlane (p_pts d)))) x y z extras k seq pd rd ST)].
  - intros a [A1 _]. eexists. exact A1.
  - split; cbn [in_file cut p_order p_knots p_rat p_pts p_wts p_v0 p_v1 n_K n_M n_props n_knots n_wts n_pts n_v0 n_v1 nth].
    + unfold p_n, cut. cbn [p_pts]. rewrite LP. lia.
    + lia.
    + reflexivity.
    + apply flag_list.
    + unfold p_n. cbn [p_pts cut]. rewrite LP, firstn_length. unfold p_n in *. lia.
    + unfold p_n. cbn [p_pts cut]. lia.
    + destruct (p_rat d); cbn [Z.eqb].
      * split; [rewrite !firstn_length; rewrite W; reflexivity|]. apply Forall_firstn. auto.
      * rewrite W. apply firstn_nil.
    + repeat (apply Forall_app; split); auto using Forall_firstn, reals_firstn.
  - exact VR.
  - rewrite in_file_size. cbn [cut p_knots]. unfold p_n at 1. cbn [p_pts cut]. rewrite LP, firstn_length.
    unfold room, p_n in *. lia.
Qed.

(** ** Handing out *)

Lemma get_crash c d tk tc : spline_ok d -> 4 * p_n d <= 2147483647 ->
  exists c', set_spline c d tk tc = POk (true, c') /\ GetCurve c' = PCrash.
Proof.
  intros S B. destruct (set_holding c d tk tc S B) as (c' & E & H). exists c'. split; [exact E|].
  unfold holding in H. rewrite H. reflexivity.
Qed.

Lemma get_iff c : (GetCurve c = PCrash <-> exists l, c_knots c = Some l) /\ (c_knots c = None -> GetCurve c = POk false).
Proof.
  unfold GetCurve. destruct (c_knots c); split.
  - split; eauto. - discriminate. - split; [discriminate|intros [? X]; discriminate]. - reflexivity.
Qed.

Lemma pack_app rat p1 w1 p2 w2 : weights_fit rat p1 w1 -> weights_fit rat p2 w2 ->
  pack (p1 ++ p2) (w1 ++ w2) = pack p1 w1 ++ pack p2 w2.
Proof.
  revert w1. induction p1 as [|[[x y] z] p IH]; intros w1 F1 F2.
  - destruct rat; cbn in F1; [destruct w1; [reflexivity|discriminate]|subst; reflexivity].
  - destruct rat; cbn [weights_fit] in *.
    + destruct w1 as [|a w1]; cbn [length] in F1; [lia|]. cbn [app pack]. rewrite IH by (auto; lia). reflexivity.
    + subst. pose proof (IH [] eq_refl eq_refl) as X. cbn [app] in X. cbn [app pack]. rewrite X. reflexivity.
Qed.

Lemma peek_app l r i : i = Z.of_nat (length l) -> forall j, 0 <= j -> peek (l ++ r) (i + j) = peek r j.
Proof. intros -> j J. unfold peek. rewrite nth_error_app2 by lia. replace (Z.to_nat _ - length l)%nat with (Z.to_nat j) by lia. reflexivity. Qed.

Lemma point_pack p w r l : point_at (Some (pack (p :: l) w ++ r)) 0 = POk p.
Proof. destruct p as [[x y] z]. destruct w; reflexivity. Qed.

Lemma ends c d tk tc : spline_ok d -> 4 * p_n d <= 2147483647 ->
  exists c', set_spline c d tk tc = POk (true, c') /\
    GetStartPoint c' = POk (hd_error (p_pts d)) /\ GetEndPoint c' = POk (hd_error (rev (p_pts d))).
Proof.
  intros S B. destruct (set_holding c d tk tc S B) as (c' & E & H). exists c'. split; [exact E|].
  destruct S as [O K W R _]. unfold holding in H. rewrite H. unfold GetStartPoint, GetEndPoint.
  cbn [c_nCoeffs c_coeffs c_PROP3]. replace (p_n d <? 2) with false by lia.
  replace ((if p_rat d then 0 else 1) =? 0) with (p_rat d) by (destruct (p_rat d); reflexivity).
  split.
  - destruct (p_pts d) as [|p l] eqn:EP; [unfold p_n in O; rewrite EP in O; cbn in O; lia|].
    rewrite <- (app_nil_r (pack (p :: l) (p_wts d))), point_pack. reflexivity.
  - destruct (p_pts d) as [|p0 l0] eqn:EP; [unfold p_n in O; rewrite EP in O; cbn in O; lia|]. rewrite <- EP in *. clear p0 l0 EP.
    unfold p_n in *. destruct (rev (p_pts d)) as [|p l] eqn:ER.
    { apply (f_equal (@length _)) in ER. rewrite rev_length in ER. cbn in ER. lia. }
    assert (EP : p_pts d = rev l ++ [p]) by (rewrite <- (rev_involutive (p_pts d)), ER; reflexivity).
    rewrite EP in *. rewrite app_length in *. cbn [length] in *.
    assert (X : exists w1 w2, p_wts d = w1 ++ w2 /\ weights_fit (p_rat d) (rev l) w1 /\ weights_fit (p_rat d) [p] w2).
    { destruct (p_rat d); [|exists [], []; split; [exact W|split; reflexivity]].
      exists (firstn (length (rev l)) (p_wts d)), (skipn (length (rev l)) (p_wts d)). cbn [weights_fit length].
      rewrite firstn_skipn, firstn_length, skipn_length. split; [reflexivity|]. split; lia. }
    destruct X as (w1 & w2 & -> & F1 & F2). rewrite (pack_app (p_rat d)) by auto.
    replace ((Z.of_nat (length (rev l) + 1) - 1) * width (p_rat d)) with (Z.of_nat (length (pack (rev l) w1)))
      by (rewrite (pack_len (p_rat d) _ _ F1), width_wlen; lia).
    unfold point_at. rewrite !peek_app by lia. rewrite <- (Z.add_0_r (Z.of_nat (length (pack (rev l) w1)))) at 1.
    rewrite peek_app by lia. destruct p as [[x y] z]. destruct w2; reflexivity.
Qed.

(** A curve which never had data: the counts of a refused call make it look as if
    it had. *)
Lemma new_curve_refused n order ks cs rat v0 v1 : 2 <= order -> order <= n -> readable n order ks cs rat ->
  ~ within ks (n + order) v0 v1 ->
  exists c, SetCurve new_curve n order (Some ks) (Some cs) rat v0 v1 = POk (false, c) /\
    GetStartPoint c = PCrash /\ GetEndPoint c = PCrash /\
    GetStartPoint new_curve = POk None /\ GetEndPoint new_curve = POk None.
Proof.
  intros A B R W. exists (with_counts n order new_curve). split; [now apply set_range|].
  unfold GetStartPoint, GetEndPoint. cbn. replace (n <? 2) with false by lia. auto.
Qed.

(** ** Surfaces *)

Lemma set2_null s n1 n2 o1 o2 k1 k2 cs rat p1 p2 u0 u1 v0 v1 : k1 = None \/ k2 = None \/ cs = None ->
  SetSurface s n1 n2 o1 o2 k1 k2 cs rat p1 p2 u0 u1 v0 v1 = POk (false, s).
Proof. intros [->|[->| ->]]; [reflexivity|destruct k1; reflexivity|destruct k1, k2; reflexivity]. Qed.

Lemma recount2 s n1 n2 o1 o2 : recounted2 s (with_counts2 n1 n2 o1 o2 s) n1 n2 o1 o2.
Proof. split; cbn; repeat split. Qed.

Lemma set_surface s n1 n2 o1 o2 ks1 ks2 cs rat p1 p2 u0 u1 v0 v1 : readable2 n1 n2 o1 o2 ks1 ks2 cs rat ->
  exists b s', SetSurface s n1 n2 o1 o2 (Some ks1) (Some ks2) (Some cs) rat p1 p2 u0 u1 v0 v1 = POk (b, s') /\
    (b = true <-> acceptable2 n1 n2 o1 o2 ks1 ks2 u0 u1 v0 v1) /\
    (b = true -> stored2 s' n1 n2 o1 o2 ks1 ks2 cs rat p1 p2 u0 u1 v0 v1) /\
    (b = false -> ~ (2 <= o1 <= n1 /\ 2 <= o2 <= n2) -> s' = s) /\
    (b = false -> 2 <= o1 <= n1 /\ 2 <= o2 <= n2 -> recounted2 s s' n1 n2 o1 o2).
Proof.
  intros (R1 & R2 & R3 & R4 & R5 & R6). fold (width rat) in R3, R6. unfold SetSurface.
  destruct ((o1 <? 2) || (o2 <? 2) || (n1 <? o1) || (n2 <? o2)) eqn:C.
  - exists false, s. split; [reflexivity|]. split.
    { split; [discriminate|]. intros [(X1 & X2 & _) (X3 & X4 & _)]. clear R3 R6. lia. }
    split; [discriminate|]. split; [auto|]. clear R3 R6. lia.
  - assert (A : 2 <= o1 <= n1 /\ 2 <= o2 <= n2) by (clear R3 R6; lia).
    replace ((int_max <? n1 + o1) || (int_max <? n2 + o2)) with false by (unfold int_max; clear R3 R6; lia).
    destruct (in_range_spec ks1 (n1 + o1) u0 u1 ltac:(clear R3 R6; lia)) as (b1 & -> & S1). cbn [pbind].
    destruct (in_range_spec ks2 (n2 + o2) v0 v1 ltac:(clear R3 R6; lia)) as (b2 & E2 & S2).
    assert (NO : b1 && b2 = false -> exists b s', POk (false, with_counts2 n1 n2 o1 o2 s) = POk (b, s') /\
      (b = true <-> acceptable2 n1 n2 o1 o2 ks1 ks2 u0 u1 v0 v1) /\
      (b = true -> stored2 s' n1 n2 o1 o2 ks1 ks2 cs rat p1 p2 u0 u1 v0 v1) /\
      (b = false -> ~ (2 <= o1 <= n1 /\ 2 <= o2 <= n2) -> s' = s) /\
      (b = false -> 2 <= o1 <= n1 /\ 2 <= o2 <= n2 -> recounted2 s s' n1 n2 o1 o2)).
    { intros F. exists false, (with_counts2 n1 n2 o1 o2 s). split; [reflexivity|]. split.
      { split; [discriminate|]. intros [(_ & _ & W1) (_ & _ & W2)]. apply S1 in W1. apply S2 in W2. subst. discriminate. }
      split; [discriminate|]. split; [tauto|]. intros _ _. apply recount2. }
    destruct b1; cbn [negb]; [|apply NO; reflexivity]. rewrite E2. cbn [pbind].
    destruct b2; cbn [negb]; [|apply NO; reflexivity].
    unfold take_data2. cbn [with_counts2 f_nKnots1 f_nKnots2 f_nCoeffs1 f_nCoeffs2 f_K1 f_K2 f_M1 f_M2].
    replace (int_max <? n1 * n2 * width rat) with false by (unfold int_max; symmetry; apply Z.ltb_ge; exact R6).
    rewrite !copy_ok by assumption. cbn [pbind].
    eexists true, _. split; [reflexivity|]. split.
    { split; [intros _|reflexivity]. split; (split; [tauto|]); (split; [tauto|]); [apply S1|apply S2]; reflexivity. }
    split; [|split; intros X; discriminate X]. intros _.
    split; cbn [f_knots1 f_knots2 f_coeffs f_nKnots1 f_nKnots2 f_nCoeffs1 f_nCoeffs2 f_K1 f_K2 f_M1 f_M2 f_U0 f_U1 f_V0 f_V1 f_props];
      repeat split. destruct rat; reflexivity.
Qed.

Definition holding2 (d : patch) (s : surface) : Prop :=
  s = mkSurface (q_n1 d + q_o1 d) (q_n2 d + q_o2 d) (q_n1 d) (q_n2 d) (q_n1 d - 1) (q_n2 d - 1) (q_o1 d - 1) (q_o2 d - 1)
        [b01 (q_per1 d); b01 (q_per2 d); b01 (negb (q_rat d)); b01 (q_per1 d); b01 (q_per2 d)]
        (q_u0 d) (q_u1 d) (q_v0 d) (q_v1 d)
        (Some (q_knots1 d)) (Some (q_knots2 d)) (Some (pack (q_pts d) (q_wts d))).

Lemma set_holding2 s d t1 t2 tc : patch_ok d -> 4 * Z.of_nat (length (q_pts d)) <= 2147483647 ->
  Z.of_nat (length (q_knots1 d)) <= 2147483647 -> Z.of_nat (length (q_knots2 d)) <= 2147483647 ->
  exists s', set_patch s d t1 t2 tc = POk (true, s') /\ holding2 d s'.
Proof.
  intros [O1 O2 P K1 K2 W W1 W2 _] B B1 B2. unfold set_patch.
  pose proof (pack_len (q_rat d) (q_pts d) (q_wts d) W) as PL.
  assert (NN : q_n1 d * q_n2 d * width (q_rat d) = Z.of_nat (length (pack (q_pts d) (q_wts d)))).
  { rewrite PL, <- P, width_wlen. clear P. lia. }
  assert (NB : q_n1 d * q_n2 d * width (q_rat d) <= 2147483647).
  { rewrite NN, PL. clear P NN. destruct (q_rat d); cbn [wlen]; lia. }
  destruct (set_surface s (q_n1 d) (q_n2 d) (q_o1 d) (q_o2 d) (q_knots1 d ++ t1) (q_knots2 d ++ t2)
              (pack (q_pts d) (q_wts d) ++ tc) (q_rat d) (q_per1 d) (q_per2 d) (q_u0 d) (q_u1 d) (q_v0 d) (q_v1 d))
    as (b & s' & E & A & ST & _).
  { unfold readable2. fold (width (q_rat d)). rewrite NN. rewrite NN in NB. rewrite !app_length. clear P NN. lia. }
  assert (AC : acceptable2 (q_n1 d) (q_n2 d) (q_o1 d) (q_o2 d) (q_knots1 d ++ t1) (q_knots2 d ++ t2) (q_u0 d) (q_u1 d) (q_v0 d) (q_v1 d)).
  { clear P NN NB. split; (split; [lia|]); (split; [lia|]); apply within_app; auto; lia. }
  apply A in AC. subst b. exists s'. split; [exact E|].
  destruct (ST eq_refl) as [[S1 S1b] S2 (S3 & S4 & S5 & S6 & S7 & S8 & S9 & SA) (SB & SC & SD & SE) SF].
  fold (width (q_rat d)) in S2. rewrite NN in S2. rewrite firstn_len_app in S2 by lia.
  rewrite firstn_len_app in S1, S1b by (clear P NN NB; lia).
  unfold holding2. destruct s'; cbn in *. subst. reflexivity.
Qed.

Lemma patch_flags d : forallb flag01 [b01 (q_per1 d); b01 (q_per2 d); b01 (negb (q_rat d)); b01 (q_per1 d); b01 (q_per2 d)] = true.
Proof. destruct (q_per1 d), (q_per2 d), (q_rat d); reflexivity. Qed.

Lemma write_holding2 s d extras cs k seq pd rd : patch_ok d -> 4 * Z.of_nat (length (q_pts d)) <= 2147483647 -> holding2 d s ->
  WriteSurface s extras cs k seq pd rd = format128 (patch_in_file d) extras cs k seq pd rd.
Proof.
  intros [O1 O2 P K1 K2 W W1 W2 _] B H. unfold holding2 in H. rewrite H. unfold WriteSurface.
  cbn [f_knots1 f_knots2 f_coeffs f_nKnots1 f_nKnots2 f_nCoeffs1 f_nCoeffs2 f_K1 f_K2 f_M1 f_M2 f_U0 f_U1 f_V0 f_V1 f_props].
  rewrite patch_flags. rewrite !Z.sub_add.
  rewrite Z.eqb_refl.
  match goal with |- (if ?b then _ else _) = _ => replace b with false by (cbn [negb]; clear P; lia) end.
  replace (int_max <? q_n1 d * q_n2 d) with false by (rewrite <- P; unfold int_max; clear P; lia).
  rewrite !copy_ok by (clear P; lia). rewrite !firstn_all2 by (clear P; lia). cbn [pbind].
  unfold rational. cbn [nth].
  replace (b01 (negb (q_rat d)) =? 0) with (q_rat d) by (destruct (q_rat d); reflexivity).
  rewrite <- P, Nat2Z.id.
  pose proof (unpack_pack (q_rat d) (q_pts d) (q_wts d) [] W) as U. rewrite app_nil_r in U. rewrite U. reflexivity.
Qed.

Lemma patch_flags' d : Forall (fun v => v = 0 \/ v = 1)
  [b01 (q_per1 d); b01 (q_per2 d); b01 (negb (q_rat d)); b01 (q_per1 d); b01 (q_per2 d)].
Proof. repeat (apply Forall_cons; [match goal with |- b01 ?b = _ \/ _ => destruct b; auto end|]). constructor. Qed.

Definition patch_room (k : Z) (d : patch) (extras : list (Z * Z)) : Prop :=
  room k (Z.of_nat (length (q_knots1 d)) + Z.of_nat (length (q_knots2 d)) + 4 * Z.of_nat (length (q_pts d)) + 4) 0 extras.

Lemma set_round2 s d t1 t2 tc extras k seq pd rd : patch_ok d -> settings_ok pd rd seq k extras ->
  (q_rat d = true -> Forall (fun w => 1 # 100000000 <= w)%Q (q_wts d)) -> patch_room k d extras ->
  exists s', set_patch s d t1 t2 tc = POk (true, s') /\
    round_trip (WriteSurface s' extras [] k seq pd rd) (fun m f => readPD128 seq k m pd rd f)
      seq k (extras_ptrs extras) (nsurf_close (patch_in_file d)).
Proof.
  intros S ST WP RM. pose proof ST as (_ & _ & Hk & _).
  assert (B : 4 * Z.of_nat (length (q_pts d)) <= 2147483647) by (unfold patch_room, room in *; lia).
  destruct (set_holding2 s d t1 t2 tc S B) as (s' & E & H); try (unfold patch_room, room in *; lia).
  exists s'. split; [exact E|]. rewrite (write_holding2 s' d extras [] k seq pd rd S B H).
  destruct S as [O1 O2 P K1 K2 W W1 W2 RL].
  apply round128; auto.
  split; cbn [patch_in_file s_K1 s_K2 s_M1 s_M2 s_props s_knots1 s_knots2 s_wts s_pts s_u0 s_u1 s_v0 s_v1 nth];
    try (clear P; lia); auto.
  - apply patch_flags'.
  - rewrite !Z.sub_add. exact P.
  - destruct (q_rat d); cbn; auto.
Qed.

Lemma set_refused2 s d t1 t2 tc extras k seq pd rd : patch_ok d -> settings_ok pd rd seq k extras ->
  q_rat d = true -> Exists (fun w => w < 1 # 100000000)%Q (q_wts d) -> patch_room k d extras ->
  exists s', set_patch s d t1 t2 tc = POk (true, s') /\
    refused (WriteSurface s' extras [] k seq pd rd) (fun m f => readPD128 seq k m pd rd f).
Proof.
  intros S ST RT WX RM. pose proof ST as (_ & _ & Hk & _).
  assert (B : 4 * Z.of_nat (length (q_pts d)) <= 2147483647) by (unfold patch_room, room in *; lia).
  destruct (set_holding2 s d t1 t2 tc S B) as (s' & E & H); try (unfold patch_room, room in *; lia).
  exists s'. split; [exact E|]. rewrite (write_holding2 s' d extras [] k seq pd rd S B H).
  destruct S as [O1 O2 P K1 K2 W W1 W2 RL]. rewrite RT in W.
  apply refused128; auto; try (cbn [patch_in_file s_K1 s_K2 s_M1 s_M2 s_knots1 s_knots2]; clear P; lia).
  - apply patch_flags'.
  - cbn [patch_in_file s_pts s_K1 s_K2]. rewrite !Z.sub_add. exact P.
  - cbn. now rewrite RT.
Qed.

Lemma get_iff2 s : (GetSurface s = PCrash <-> exists l, f_knots1 s = Some l) /\ (f_knots1 s = None -> GetSurface s = POk false).
Proof.
  unfold GetSurface. destruct (f_knots1 s); split.
  - split; eauto. - discriminate. - split; [discriminate|intros [? X]; discriminate]. - reflexivity.
Qed.

Lemma get_crash2 s d t1 t2 tc : patch_ok d -> 4 * Z.of_nat (length (q_pts d)) <= 2147483647 ->
  Z.of_nat (length (q_knots1 d)) <= 2147483647 -> Z.of_nat (length (q_knots2 d)) <= 2147483647 ->
  exists s', set_patch s d t1 t2 tc = POk (true, s') /\ GetSurface s' = PCrash.
Proof.
  intros S B B1 B2. destruct (set_holding2 s d t1 t2 tc S B B1 B2) as (s' & E & H). exists s'. split; [exact E|].
  unfold holding2 in H. rewrite H. reflexivity.
Qed.
