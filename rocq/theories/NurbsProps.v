(** Setting, handing out and writing spline data. *)

From Coq Require Import Lia ZifyBool ZifyNat ZifyN QArith Qabs Lqa.
From Verif Require Import Base Num Spec IoModel PdModel PdFacts EntSpec EntModel EntModel2 EntModel3
  EntFacts EntProps2 EntProps3 NurbsModel NurbsSpec NurbsNeg.
Open Scope Z_scope.

(** ** Arrays *)

Lemma copy_ok n l : n <= Z.of_nat (length l) -> copy n l = POk (firstn (Z.to_nat n) l).
Proof. intros H. unfold copy. replace (_ <? n) with false by lia. reflexivity. Qed.

Lemma copy_short n l : Z.of_nat (length l) < n -> copy n l = PCrash.
Proof. intros H. unfold copy. replace (_ <? n) with true by lia. reflexivity. Qed.

Lemma copy_app n l r : n = Z.of_nat (length l) -> copy n (l ++ r) = POk l.
Proof.
  intros ->. rewrite copy_ok by (rewrite app_length; lia). rewrite Nat2Z.id, firstn_app, firstn_all, Nat.sub_diag. cbn [firstn].
  now rewrite app_nil_r.
Qed.

Definition wlen (rat : bool) : nat := if rat then 4%nat else 3%nat.
Lemma width_wlen rat : width rat = Z.of_nat (wlen rat). Proof. now destruct rat. Qed.

Lemma unpack_enough rat n : forall l, (n * wlen rat <= length l)%nat -> exists p w, unpack rat n l = POk (p, w) /\
  length p = n /\ (if rat then length w = n else w = []).
Proof.
  induction n as [|n IH]; intros l H; [exists [], []; destruct rat; auto|].
  destruct rat; cbn [wlen] in *.
  - destruct l as [|x [|y [|z [|w r]]]]; cbn [length] in H; try lia.
    destruct (IH r ltac:(lia)) as (p & ws & E & L1 & L2). cbn [unpack]. rewrite E. cbn [pbind].
    eexists _, _. split; [reflexivity|]. cbn [length]. lia.
  - destruct l as [|x [|y [|z r]]]; cbn [length] in H; try lia.
    destruct (IH r ltac:(lia)) as (p & ws & E & L1 & L2). cbn [unpack]. rewrite E. cbn [pbind].
    eexists _, _. split; [reflexivity|]. cbn [length]. split; [lia|exact L2].
Qed.

Lemma unpack_short rat n : forall l, (length l < n * wlen rat)%nat -> unpack rat n l = PCrash.
Proof.
  induction n as [|n IH]; intros l H; [cbn in H; lia|].
  destruct rat; cbn [wlen] in *.
  - destruct l as [|x [|y [|z [|w r]]]]; cbn [length] in H; try reflexivity.
    cbn [unpack]. rewrite IH by lia. reflexivity.
  - destruct l as [|x [|y [|z r]]]; cbn [length] in H; try reflexivity.
    cbn [unpack]. rewrite IH by lia. reflexivity.
Qed.

Definition weights_fit (rat : bool) (p : list point) (w : list Q) : Prop :=
  if rat then length w = length p else w = [].

Lemma pack_len rat p w : weights_fit rat p w -> length (pack p w) = (length p * wlen rat)%nat.
Proof.
  revert w. induction p as [|[[x y] z] p IH]; intros w H; [destruct w; reflexivity|].
  destruct rat; cbn [weights_fit wlen] in *.
  - destruct w as [|a w]; cbn [length] in H; [lia|]. cbn [pack length]. rewrite (IH w) by lia. lia.
  - subst w. cbn [pack length]. rewrite (IH []) by reflexivity. lia.
Qed.

Lemma unpack_pack rat p w r : weights_fit rat p w -> unpack rat (length p) (pack p w ++ r) = POk (p, w).
Proof.
  revert w. induction p as [|[[x y] z] p IH]; intros w H.
  - destruct rat; cbn in H; [destruct w; [reflexivity|discriminate]|subst w; reflexivity].
  - destruct rat; cbn [weights_fit] in *.
    + destruct w as [|a w]; cbn [length] in H; [lia|]. cbn [pack length app unpack]. rewrite (IH w) by lia. reflexivity.
    + subst w. cbn [pack length app unpack]. rewrite (IH []) by reflexivity. reflexivity.
Qed.

(** Fewer points than there are. *)
Lemma unpack_prefix rat n p w r : (n <= length p)%nat -> weights_fit rat p w ->
  unpack rat n (pack p w ++ r) = POk (firstn n p, firstn n w).
Proof.
  revert p w. induction n as [|n IH]; intros p w L H; [reflexivity|].
  destruct p as [|[[x y] z] p]; cbn [length] in L; [lia|]. destruct rat; cbn [weights_fit] in *.
  - destruct w as [|a w]; cbn [length] in H; [lia|]. cbn [pack app unpack firstn]. rewrite IH by lia. reflexivity.
  - subst w. cbn [pack app unpack firstn]. rewrite (IH p []) by (auto; lia). rewrite !firstn_nil. reflexivity.
Qed.

(** ** The parameter range *)

Lemma Qlt_b a b : Qlt_bool a b = true <-> (a < b)%Q.
Proof.
  unfold Qlt_bool. split; intros H.
  - destruct (Qle_bool b a) eqn:E; [discriminate|]. destruct (Qlt_le_dec a b) as [L|L]; [exact L|].
    apply Qle_bool_iff in L. congruence.
  - destruct (Qle_bool b a) eqn:E; [|reflexivity]. apply Qle_bool_iff in E. lra.
Qed.
Lemma Qle_b a b : negb (Qle_bool a b) = true <-> (b < a)%Q.
Proof. exact (Qlt_b b a). Qed.

Lemma in_range_spec ks n v0 v1 : 1 <= n <= Z.of_nat (length ks) ->
  exists b, in_range ks n v0 v1 = POk b /\ (b = true <-> within ks n v0 v1).
Proof.
  intros H. unfold in_range, peek. change (Z.to_nat 0) with 0%nat.
  destruct (nth_error ks 0) as [a|] eqn:Ea; [|apply nth_error_None in Ea; lia]. cbn [pbind].
  destruct (nth_error ks (Z.to_nat (n - 1))) as [z|] eqn:Ez; [|apply nth_error_None in Ez; lia].
  assert (W : within ks n v0 v1 <-> (a <= v0)%Q /\ (v0 < v1)%Q /\ (v1 <= z)%Q).
  { unfold within. rewrite Ea, Ez. split.
    - intros (? & ? & A & B & C). injection A as <-. injection B as <-. exact C.
    - intros C. exists a, z. auto. }
  destruct (Qlt_bool v0 a) eqn:E1.
  - exists false. split; [reflexivity|]. rewrite W. apply Qlt_b in E1. split; [discriminate|]. intros (? & _). lra.
  - assert (N1 : (a <= v0)%Q). { destruct (Qlt_le_dec v0 a) as [L|L]; [|exact L]. apply Qlt_b in L. congruence. }
    cbn [pbind]. eexists. split; [reflexivity|]. rewrite W, !andb_true_iff, !Qle_b, negb_true_iff.
    split.
    + intros ((A & B) & C). repeat split; auto. destruct (Qlt_le_dec z v1) as [L|L]; [apply Qlt_b in L; congruence|exact L].
    + intros (A & B & C). split; [split; lra|]. destruct (Qlt_bool z v1) eqn:E; [|reflexivity]. apply Qlt_b in E. lra.
Qed.

(** ** Setting a curve *)

Lemma plane_flag pts : exists f n, hasUniquePlane pts = (f, n).
Proof. destruct (hasUniquePlane pts) as [f n]. eauto. Qed.

Lemma set_null c n order k cs rat v0 v1 : k = None \/ cs = None -> SetCurve c n order k cs rat v0 v1 = POk (false, c).
Proof. intros [->| ->]; [destruct cs; reflexivity|destruct k; reflexivity]. Qed.

Lemma set_counts c n order ks cs rat v0 v1 : ~ (2 <= order /\ order <= n) ->
  SetCurve c n order (Some ks) (Some cs) rat v0 v1 = POk (false, c).
Proof.
  intros H. unfold SetCurve. destruct (order <? 2) eqn:A; [reflexivity|]. destruct (n <? order) eqn:B; [reflexivity|]. lia.
Qed.

Lemma set_range c n order ks cs rat v0 v1 : 2 <= order -> order <= n -> readable n order ks cs rat ->
  ~ within ks (n + order) v0 v1 ->
  SetCurve c n order (Some ks) (Some cs) rat v0 v1 = POk (false, with_counts n order c).
Proof.
  intros A B (R1 & R2 & R3 & R4) W. unfold SetCurve. replace (order <? 2) with false by lia. replace (n <? order) with false by lia.
  replace (int_max <? n + order) with false by (unfold int_max; lia).
  destruct (in_range_spec ks (n + order) v0 v1 ltac:(lia)) as (b & -> & S). cbn [pbind].
  destruct b; [|reflexivity]. exfalso. apply W, S. reflexivity.
Qed.

Lemma set_good c n order ks cs rat v0 v1 : acceptable n order ks v0 v1 -> readable n order ks cs rat ->
  exists c' p w, SetCurve c n order (Some ks) (Some cs) rat v0 v1 = POk (true, c') /\ stored c' n order ks cs rat v0 v1 /\
    unpack rat (Z.to_nat n) (firstn (Z.to_nat (n * width rat)) cs) = POk (p, w) /\
    c_PROP1 c' = (if fst (hasUniquePlane p) then 1 else 0) /\ c_vnorm c' = snd (hasUniquePlane p).
Proof.
  intros (A & B & W) (R1 & R2 & R3 & R4). unfold SetCurve. replace (order <? 2) with false by lia. replace (n <? order) with false by lia.
  replace (int_max <? n + order) with false by (unfold int_max; lia).
  destruct (in_range_spec ks (n + order) v0 v1 ltac:(lia)) as (b & -> & S). cbn [pbind].
  rewrite (proj2 S W). cbn [negb]. unfold take_data. cbn [with_counts c_nKnots c_nCoeffs c_K c_M].
  fold (width rat) in R2, R4.
  rewrite copy_ok by lia. cbn [pbind]. replace (int_max <? n * width rat) with false by (unfold int_max; lia).
  rewrite copy_ok by lia. cbn [pbind]. rewrite width_wlen in R2.
  destruct (unpack_enough rat (Z.to_nat n) (firstn (Z.to_nat (n * width rat)) cs)) as (p & w & U & L1 & L2).
  { rewrite firstn_length, width_wlen. lia. }
  rewrite U. cbn [pbind]. destruct (hasUniquePlane p) as [f d] eqn:HP.
  eexists _, p, w. split; [reflexivity|].
  cbn [c_PROP1 c_vnorm]. split; [|rewrite HP; auto].
  split; cbn [c_knots c_coeffs c_nKnots c_nCoeffs c_K c_M c_PROP1 c_PROP2 c_PROP3 c_PROP4 c_V0 c_V1]; auto.
  destruct f; auto.
Qed.

Lemma recount c n order : recounted c (with_counts n order c) n order.
Proof. split; cbn; auto. Qed.

Lemma set_curve c n order ks cs rat v0 v1 : readable n order ks cs rat ->
  exists b c', SetCurve c n order (Some ks) (Some cs) rat v0 v1 = POk (b, c') /\
    (b = true <-> acceptable n order ks v0 v1) /\
    (b = true -> stored c' n order ks cs rat v0 v1) /\
    (b = false -> ~ (2 <= order /\ order <= n) -> c' = c) /\
    (b = false -> 2 <= order /\ order <= n -> recounted c c' n order).
Proof.
  intros R. destruct (Z_le_dec 2 order) as [A|A]; [destruct (Z_le_dec order n) as [B|B]|].
  - destruct (in_range_spec ks (n + order) v0 v1) as (b & _ & S). { destruct R; lia. }
    destruct b.
    + assert (AC : acceptable n order ks v0 v1) by (repeat split; auto; now apply S).
      destruct (set_good c n order ks cs rat v0 v1 AC R) as (c' & p & w & E & ST & _).
      exists true, c'. split; [exact E|]. split; [tauto|]. split; [auto|]. split; intros X; discriminate X.
    + assert (W : ~ within ks (n + order) v0 v1) by (intros W; apply S in W; discriminate).
      exists false, (with_counts n order c). split; [now apply set_range|].
      split. { split; [discriminate|]. intros (_ & _ & X). now apply W in X. }
      split; [discriminate|]. split; [intros _ X; exfalso; auto|]. intros _ _. apply recount.
  - exists false, c. split; [apply set_counts; lia|].
    split. { split; [discriminate|]. intros (_ & X & _). lia. }
    split; [discriminate|]. split; [auto|]. lia.
  - exists false, c. split; [apply set_counts; lia|].
    split. { split; [discriminate|]. intros (X & _). lia. }
    split; [discriminate|]. split; [auto|]. lia.
Qed.

(** ** Writing a curve *)

Lemma within_app ks r n v0 v1 : n <= Z.of_nat (length ks) -> 1 <= n -> within (ks ++ r) n v0 v1 <-> within ks n v0 v1.
Proof.
  intros L N. unfold within. rewrite !nth_error_app1 by lia. reflexivity.
Qed.

(** The state of a curve holding [d]. *)
Definition holding (d : spline) (c : curve) : Prop :=
  c = mkCurve (p_n d + p_order d) (p_n d) (p_n d - 1) (p_order d - 1)
        (if fst (hasUniquePlane (p_pts d)) then 1 else 0) 0 (if p_rat d then 0 else 1) 0 (p_v0 d) (p_v1 d)
        (Some (p_knots d)) (Some (pack (p_pts d) (p_wts d))) (snd (hasUniquePlane (p_pts d))).

Lemma firstn_len_app {A} (l r : list A) n : n = length l -> firstn n (l ++ r) = l.
Proof. intros ->. rewrite firstn_app, Nat.sub_diag, firstn_all. cbn [firstn]. apply app_nil_r. Qed.

Lemma set_holding c d tk tc : spline_ok d -> 4 * p_n d <= 2147483647 ->
  exists c', set_spline c d tk tc = POk (true, c') /\ holding d c'.
Proof.
  intros [O K W R _] B. unfold set_spline.
  pose proof (pack_len (p_rat d) (p_pts d) (p_wts d) W) as PL. unfold p_n in *.
  assert (RD : readable (Z.of_nat (length (p_pts d))) (p_order d) (p_knots d ++ tk) (pack (p_pts d) (p_wts d) ++ tc) (p_rat d)).
  { unfold readable. rewrite !app_length, PL. destruct (p_rat d); cbn [wlen]; lia. }
  assert (AC : acceptable (Z.of_nat (length (p_pts d))) (p_order d) (p_knots d ++ tk) (p_v0 d) (p_v1 d)).
  { split; [lia|]. split; [lia|]. apply within_app; auto; lia. }
  destruct (set_good c _ _ _ _ _ _ _ AC RD) as (c' & p & w & E & ST & U & P1 & VN).
  exists c'. split; [exact E|]. destruct ST as [S1 S2 (S3 & S4 & S5 & S6) [S7 S8] S9 [SA SB] _].
  rewrite Nat2Z.id in U. rewrite firstn_len_app in S1 by lia.
  fold (width (p_rat d)) in S2.
  rewrite firstn_len_app in S2, U by (rewrite PL, width_wlen; lia).
  pose proof (unpack_pack (p_rat d) (p_pts d) (p_wts d) [] W) as U'. rewrite app_nil_r in U'. rewrite U' in U. injection U as <- <-.
  unfold holding, p_n. destruct c'; cbn in *. subst. reflexivity.
Qed.

Lemma holding_flags d c : holding d c -> forallb flag01 [c_PROP1 c; c_PROP2 c; c_PROP3 c; c_PROP4 c] = true.
Proof. intros ->. cbn. destruct (fst _), (p_rat d); reflexivity. Qed.

Lemma write_holding vec c d extras cs k seq pd rd : spline_ok d -> holding d c ->
  WriteCurve vec c extras cs k seq pd rd =
  let '(i, j, l) := vec (snd (hasUniquePlane (p_pts d))) in
  format126 (in_file d (fst (hasUniquePlane (p_pts d)))) i j l extras cs k seq pd rd.
Proof.
  intros [O K W R _] H. pose proof (holding_flags d c H) as FL. unfold WriteCurve. rewrite FL. clear FL. unfold holding in H. rewrite H.
  cbn [c_knots c_coeffs c_K c_M c_nKnots c_nCoeffs c_PROP1 c_PROP2 c_PROP3 c_PROP4 c_V0 c_V1 c_vnorm].
  match goal with |- (if ?b then _ else _) = _ => replace b with false by (cbn [negb]; lia) end.
  rewrite copy_ok by lia. rewrite firstn_all2 by lia. cbn [pbind].
  unfold rational. cbn [nth].
  replace ((if p_rat d then 0 else 1) =? 0) with (p_rat d) by (destruct (p_rat d); reflexivity).
  pose proof (unpack_pack (p_rat d) (p_pts d) (p_wts d) [] W) as U. rewrite app_nil_r in U.
  unfold p_n. rewrite Nat2Z.id, U. cbn [pbind]. reflexivity.
Qed.

Lemma in_file_size d flat : ncurve_size (in_file d flat) = Z.of_nat (length (p_knots d)) + 4 * p_n d + 5.
Proof. reflexivity. Qed.

Lemma room_small k m t extras : 1 <= k -> 0 <= t -> room k m t extras -> m <= 9999999.
Proof. unfold room. lia. Qed.

Lemma set_round c d tk tc vec extras k seq pd rd : spline_ok d -> vec_ok vec -> settings_ok pd rd seq k extras ->
  (p_rat d = true -> Forall (fun w => 1 # 100000000 <= w)%Q (p_wts d)) ->
  room k (Z.of_nat (length (p_knots d)) + 4 * p_n d + 5) 0 extras ->
  exists c' (flat : bool), set_spline c d tk tc = POk (true, c') /\ c_PROP1 c' = (if flat then 1 else 0) /\
    round_trip (WriteCurve vec c' extras [] k seq pd rd) (fun m f => readPD126 seq k m pd rd f)
      seq k (extras_ptrs extras)
      (fun a => ncurve_close (in_file d flat) (fst a) /\
         if flat then let '(x, y, z) := vec (c_vnorm c') in direction_close nurbs_res x y z (snd a)
         else snd a = Exact 0 0 1).
Proof.
  intros S V ST WP RM. pose proof ST as (_ & _ & Hk & _).
  assert (B : 4 * p_n d <= 2147483647) by (unfold room, p_n in *; lia).
  destruct (set_holding c d tk tc S B) as (c' & E & H).
  exists c', (fst (hasUniquePlane (p_pts d))). split; [exact E|]. split; [rewrite H; reflexivity|].
  rewrite (write_holding vec c' d extras [] k seq pd rd S H).
  replace (c_vnorm c') with (snd (hasUniquePlane (p_pts d))) by (rewrite H; reflexivity).
  pose proof (V (snd (hasUniquePlane (p_pts d)))) as VR.
  destruct (vec (snd (hasUniquePlane (p_pts d)))) as [[x y] z]. cbn [pt_reals] in VR.
  destruct S as [O K W R RL].
  eapply round_trip_weaken; [|apply (round126 (in_file d (fst (hasUniquePlane (p_pts d)))) x y z extras k seq pd rd ST)].
  - cbn [in_file n_props nth]. intros a [A1 A2]. split; [exact A1|]. destruct (fst _); exact A2.
  - split; cbn [in_file n_K n_M n_props n_knots n_wts n_pts n_v0 n_v1 nth]; try lia; auto.
    + apply Forall_cons; [destruct (fst _); auto|]. apply Forall_cons; [auto|].
      apply Forall_cons; [destruct (p_rat d); auto|]. apply Forall_cons; [auto|constructor].
    + unfold p_n; lia.
    + destruct (p_rat d); cbn; auto.
  - exact VR.
  - rewrite in_file_size. exact RM.
Qed.
