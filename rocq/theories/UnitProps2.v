(** The claims about names, transforms, end points and conics, proved. *)

From Coq Require Import QArith Lqa Lia ZifyBool ZifyNat ZifyN.
From Verif Require Import Base Num Spec NumFacts IoModel EntModel EntModel2 EntModel3 GeomModel PayloadModel UnitModel UnitSpec UnitFacts UnitProps.
Open Scope Z_scope.

(** ** Names *)

Lemma zpad_ok : forall w n, (0 < w)%nat -> 0 <= n < 10 ^ Z.of_nat w -> length (zpad w n) = w /\ dval (zpad w n) = n.
Proof.
  intros w n W H. unfold zpad, showZ. replace (n <? 0) with false by lia.
  pose proof (showN_len n w ltac:(lia) W ltac:(lia)). split.
  - rewrite app_length, repeat_length. lia.
  - rewrite dval_app, showN_dval by lia.
    assert (Z0 : forall k, dval (repeat "0"%char k) = 0).
    { induction k; [reflexivity|]. cbn [repeat]. rewrite dval_cons, IHk. change (code "0") with 48. lia. }
    rewrite Z0. lia.
Qed.

Lemma app_split : forall {A} (a b c d : list A), length a = length c -> a ++ b = c ++ d -> a = c /\ b = d.
Proof.
  intros A a. induction a; intros b [|x c] d L E; try discriminate; [auto|].
  cbn in E. injection E as -> E. injection L as L. destruct (IHa _ _ _ L E) as [-> ->]. auto.
Qed.

Lemma zpad_inj : forall w n n' r r', (0 < w)%nat -> 0 <= n < 10 ^ Z.of_nat w -> 0 <= n' < 10 ^ Z.of_nat w ->
  zpad w n ++ r = zpad w n' ++ r' -> n = n' /\ r = r'.
Proof.
  intros w n n' r r' W H H' E. destruct (zpad_ok w n W H) as [L1 V1]. destruct (zpad_ok w n' W H') as [L2 V2].
  apply app_split in E; [|congruence]. destruct E as [E ->]. split; [congruence|reflexivity].
Qed.

Lemma name_inj : forall p d d', calendar d -> calendar d' -> name_at p d = name_at p d' -> d = d'.
Proof.
  intros p d d' (A1 & A2 & A3 & A4 & A5) (B1 & B2 & B3 & B4 & B5) E. unfold name_at in E.
  apply app_inv_head in E.
  apply zpad_inj in E; [|lia|change (10 ^ Z.of_nat 4) with 10000; lia|change (10 ^ Z.of_nat 4) with 10000; lia].
  destruct E as [E1 E].
  apply zpad_inj in E; [|lia|change (10 ^ Z.of_nat 3) with 1000; lia|change (10 ^ Z.of_nat 3) with 1000; lia].
  destruct E as [E2 E].
  apply zpad_inj in E; [|lia|change (10 ^ Z.of_nat 2) with 100; lia|change (10 ^ Z.of_nat 2) with 100; lia].
  destruct E as [E3 E].
  apply zpad_inj in E; [|lia|change (10 ^ Z.of_nat 2) with 100; lia|change (10 ^ Z.of_nat 2) with 100; lia].
  destruct E as [E4 E].
  apply zpad_inj in E; [|lia|change (10 ^ Z.of_nat 2) with 100; lia|change (10 ^ Z.of_nat 2) with 100; lia].
  destruct E as [E5 _].
  destruct d, d'; cbn in *. f_equal; lia.
Qed.

Lemma part_names : forall d d', calendar d -> calendar d' -> (GetNewPartName d = GetNewPartName d' <-> d = d').
Proof. intros d d' C C'. split; [apply name_inj; assumption|intros ->; reflexivity]. Qed.
Lemma assembly_names : forall d d', calendar d -> calendar d' -> (GetNewAssemblyName d = GetNewAssemblyName d' <-> d = d').
Proof. intros d d' C C'. split; [apply name_inj; assumption|intros ->; reflexivity]. Qed.
Lemma names_differ : forall d d', GetNewPartName d <> GetNewAssemblyName d'.
Proof. intros d d' E. unfold GetNewPartName, GetNewAssemblyName, name_at in E. discriminate. Qed.
Lemma name_length : forall d, calendar d -> length (GetNewPartName d) = 21%nat /\ length (GetNewAssemblyName d) = 21%nat.
Proof.
  intros d (A1 & A2 & A3 & A4 & A5). unfold GetNewPartName, GetNewAssemblyName, name_at. rewrite !app_length.
  destruct (zpad_ok 4 (tm_year d + 1900)) as [-> _]; [lia|change (10 ^ Z.of_nat 4) with 10000; lia|].
  destruct (zpad_ok 3 (tm_yday d + 1)) as [-> _]; [lia|change (10 ^ Z.of_nat 3) with 1000; lia|].
  destruct (zpad_ok 2 (tm_hour d)) as [-> _]; [lia|change (10 ^ Z.of_nat 2) with 100; lia|].
  destruct (zpad_ok 2 (tm_min d)) as [-> _]; [lia|change (10 ^ Z.of_nat 2) with 100; lia|].
  destruct (zpad_ok 2 (tm_sec d)) as [-> _]; [lia|change (10 ^ Z.of_nat 2) with 100; lia|].
  split; reflexivity.
Qed.

(** ** Transforms *)

Ltac peq := unfold pt_eq; cbn; repeat split; ring.

Lemma tmul_apply : forall m n v, pt_eq (tapply (tmul m n) v) (tapply m (tapply n v)).
Proof. intros [R [a b c]] [R' [a' b' c']] [x y z]. destruct R, R'. peq. Qed.
Lemma tmul_assoc : forall l m n v, pt_eq (tapply (tmul (tmul l m) n) v) (tapply (tmul l (tmul m n)) v).
Proof. intros [R [a b c]] [R' [a' b' c']] [R2 [a2 b2 c2]] [x y z]. destruct R, R', R2. peq. Qed.
Lemma tident_apply : forall v, pt_eq (tapply tident v) v.
Proof. intros [x y z]. peq. Qed.
Lemma tident_l : forall m v, pt_eq (tapply (tmul tident m) v) (tapply m v).
Proof. intros [R [a b c]] [x y z]. destruct R. peq. Qed.
Lemma tident_r : forall m v, pt_eq (tapply (tmul m tident) v) (tapply m v).
Proof. intros [R [a b c]] [x y z]. destruct R. peq. Qed.
Lemma tscale_apply : forall m s v, pt_eq (tapply (tscale m s) v) (pscale (tapply m v) s).
Proof. intros [R [a b c]] s [x y z]. destruct R. peq. Qed.
Lemma tapply_diff : forall m v w, pt_eq (psub (tapply m v) (tapply m w)) (mapply (tR m) (psub v w)).
Proof. intros [R [a b c]] [x y z] [x' y' z']. destruct R. peq. Qed.
Lemma mapply_linear : forall m s v w, pt_eq (mapply m (padd (pscale v s) w)) (padd (pscale (mapply m v) s) (mapply m w)).
Proof. intros R s [x y z] [x' y' z']. destruct R. peq. Qed.
Lemma matrix_sum : forall m n v, pt_eq (mapply (madd m n) v) (padd (mapply m v) (mapply n v)) /\
                                 pt_eq (mapply (msub m n) v) (psub (mapply m v) (mapply n v)).
Proof. intros R R' [x y z]. destruct R, R'. split; peq. Qed.

(** The transform of an entity carries points through the whole chain. *)
Section chain.
Context {D : Type}.
Implicit Types es : list (item D).

Lemma takes_apply : forall m v, takes m v (tapply (xf_trans m) v).
Proof. intros m [x y z]. unfold takes. cbn. repeat split; ring. Qed.

Lemma takes_eq : forall m v v' w w', pt_eq v v' -> pt_eq w w' -> takes m v w -> takes m v' w'.
Proof.
  intros m v v' w w' (A1 & A2 & A3) (B1 & B2 & B3) (C1 & C2 & C3). unfold takes.
  rewrite <- A1, <- A2, <- A3, <- B1, <- B2, <- B3. auto.
Qed.

Lemma pt_eq_refl v : pt_eq v v. Proof. repeat split; reflexivity. Qed.
Lemma pt_eq_sym v w : pt_eq v w -> pt_eq w v. Proof. intros (A & B & C). repeat split; symmetry; assumption. Qed.
Lemma pt_eq_trans u v w : pt_eq u v -> pt_eq v w -> pt_eq u w.
Proof. intros (A & B & C) (A' & B' & C'). repeat split; etransitivity; eassumption. Qed.

Lemma carries_eq : forall es j v w, carries es j v w -> forall v' w', pt_eq v v' -> pt_eq w w' -> carries es j v' w'.
Proof.
  intros es j v w H. induction H as [j m it v w N P T K|j k m it v u w N P T K C IH]; intros v' w' V W.
  - eapply carries_last; try eassumption. eapply takes_eq; eassumption.
  - eapply carries_next; try eassumption; [eapply takes_eq; [exact V|apply pt_eq_refl|exact K]|]. apply IH; [apply pt_eq_refl|exact W].
Qed.

Lemma matrix_carries : forall f es j t, transform_matrix f es j = Some t -> forall v, carries es j v (tapply t v).
Proof.
  induction f; intros es j t H v; [discriminate|]. cbn [transform_matrix] in H.
  destruct (nth_error es j) as [[[[]|] o q]|] eqn:N; try discriminate.
  destruct o as [k|].
  - destruct (transform_matrix f es k) as [u|] eqn:E; [|discriminate]. cbn in H. injection H as <-.
    eapply carries_next; [exact N|reflexivity|reflexivity|apply takes_apply|].
    eapply carries_eq; [apply (IHf _ _ _ E)|apply pt_eq_refl|]. apply pt_eq_sym. apply tmul_apply.
  - injection H as <-. eapply carries_last; [exact N|reflexivity|reflexivity|apply takes_apply].
Qed.

Lemma takes_fun : forall m v w w', takes m v w -> takes m v w' -> pt_eq w w'.
Proof.
  intros m v w w' (A & B & C) (A' & B' & C'). repeat split; [rewrite A, A'|rewrite B, B'|rewrite C, C']; reflexivity.
Qed.

Lemma carries_fun : forall es j v w, carries es j v w -> forall w', carries es j v w' -> pt_eq w w'.
Proof.
  intros es j v w H. induction H as [j m it v w N P T K|j k m it v u w N P T K C IH]; intros w' H'.
  - inversion H' as [? m' it' ? ? N' P' T' K'|? ? m' it' ? ? ? N' P' T' K' C']; subst.
    + rewrite N in N'. injection N' as <-. rewrite P in P'. injection P' as <-. eapply takes_fun; eassumption.
    + rewrite N in N'. injection N' as <-. congruence.
  - inversion H' as [? m' it' ? ? N' P' T' K'|? k' m' it' ? u' ? N' P' T' K' C']; subst.
    + rewrite N in N'. injection N' as <-. congruence.
    + rewrite N in N'. injection N' as <-. rewrite P in P'. injection P' as <-. rewrite T in T'. injection T' as <-.
      apply IH. eapply carries_eq; [exact C'| |apply pt_eq_refl]. eapply takes_fun; eassumption.
Qed.

(** ... and is found whenever the chain carries some point. *)
Lemma tm_mono : forall f es j t, transform_matrix f es j = Some t -> forall f', (f <= f')%nat -> transform_matrix f' es j = Some t.
Proof.
  induction f; intros es j t H f' L; [discriminate|]. destruct f'; [lia|]. cbn [transform_matrix] in *.
  destruct (nth_error es j) as [[[[]|] o q]|] eqn:N; try discriminate. destruct o as [k|]; [|exact H].
  destruct (transform_matrix f es k) as [u|] eqn:E; [|discriminate]. rewrite (IHf _ _ _ E f') by lia. exact H.
Qed.

(** The positions visited. *)
Fixpoint tm_path (f : nat) es (j : nat) : list nat :=
  match f with
  | O => []
  | S f' => j :: match nth_error es j with Some (mkItem _ (Some k) _) => tm_path f' es k | _ => [] end
  end.

Lemma tm_path_fuel : forall f es j t, transform_matrix f es j = Some t -> transform_matrix (length (tm_path f es j)) es j = Some t.
Proof.
  induction f; intros es j t H; [discriminate|]. cbn [transform_matrix tm_path length] in *.
  destruct (nth_error es j) as [[[[]|] o q]|] eqn:N; try discriminate. destruct o as [k|]; [|exact H].
  destruct (transform_matrix f es k) as [u|] eqn:E; [|discriminate]. rewrite (IHf _ _ _ E). exact H.
Qed.

Lemma tm_path_det : forall f f' es j t t', transform_matrix f es j = Some t -> transform_matrix f' es j = Some t' ->
  tm_path f es j = tm_path f' es j.
Proof.
  induction f; intros f' es j t t' H H'; [discriminate|]. destruct f'; [discriminate|]. cbn [transform_matrix tm_path] in *.
  destruct (nth_error es j) as [[[[]|] o q]|] eqn:N; try discriminate. destruct o as [k|]; [|reflexivity].
  destruct (transform_matrix f es k) as [u|] eqn:E; [|discriminate].
  destruct (transform_matrix f' es k) as [u'|] eqn:E'; [|discriminate]. f_equal. eapply IHf; eassumption.
Qed.

Lemma tm_path_in : forall f es j t, transform_matrix f es j = Some t -> forall k, In k (tm_path f es j) ->
  (k < length es)%nat /\ exists f' u, transform_matrix f' es k = Some u /\ (length (tm_path f' es k) <= length (tm_path f es j))%nat.
Proof.
  induction f; intros es j t H k I; [discriminate|]. pose proof H as H0. cbn [transform_matrix] in H.
  cbn [tm_path] in I. destruct I as [<-|I].
  - split; [apply nth_error_Some; intros X; rewrite X in H; discriminate|]. exists (S f), t. split; [exact H0|lia].
  - cbn [tm_path]. destruct (nth_error es j) as [[[[]|] o q]|] eqn:N; try discriminate. destruct o as [k'|]; [|destruct I].
    destruct (transform_matrix f es k') as [u|] eqn:E; [|discriminate].
    destruct (IHf _ _ _ E k I) as (A & f' & u' & B & C). split; [exact A|]. exists f', u'. split; [exact B|]. cbn [length]. lia.
Qed.

Lemma tm_path_nodup : forall f es j t, transform_matrix f es j = Some t -> NoDup (tm_path f es j).
Proof.
  induction f; intros es j t H; [discriminate|]. pose proof H as H0. cbn [transform_matrix] in H. cbn [tm_path].
  destruct (nth_error es j) as [[[[]|] o q]|] eqn:N; try discriminate. destruct o as [k'|].
  - destruct (transform_matrix f es k') as [u|] eqn:E; [|discriminate]. constructor; [|eapply IHf; exact E].
    intros I. destruct (tm_path_in _ _ _ _ E _ I) as (_ & f' & u' & B & C).
    pose proof (tm_path_det _ _ _ _ _ _ H0 B) as X. rewrite <- X in C. cbn [tm_path] in C. rewrite N in C. cbn [length] in C. lia.
  - constructor; [intros []|constructor].
Qed.

Lemma carries_matrix : forall es j v w, carries es j v w ->
  exists t, transform_matrix (S (length es)) es j = Some t /\ pt_eq (tapply t v) w.
Proof.
  intros es j v w H.
  assert (X : exists f t, transform_matrix f es j = Some t).
  { induction H as [j m it v w N P T K|j k m it v u w N P T K C IH].
    - exists 1%nat, (xf_trans m). cbn. rewrite N. destruct it as [d o q]. cbn in P, T. subst. reflexivity.
    - destruct IH as (f & t & E). exists (S f), (tmul t (xf_trans m)). cbn [transform_matrix]. rewrite N.
      destruct it as [d o q]. cbn in P, T. subst. rewrite E. reflexivity. }
  destruct X as (f & t & E). exists t. split.
  - eapply tm_mono; [apply tm_path_fuel; exact E|].
    assert (length (tm_path f es j) <= length (seq 0 (length es)))%nat; [|rewrite seq_length in *; lia].
    apply NoDup_incl_length; [eapply tm_path_nodup; exact E|].
    intros k I. apply in_seq. destruct (tm_path_in _ _ _ _ E _ I). lia.
  - eapply carries_fun; [|exact H]. eapply matrix_carries. exact E.
Qed.

(** ** Rescaling moves transformed points along *)

Lemma rescaled_124 : forall f a b (m : xform) (p' : payload D), rescaled f a b (P124 m) p' ->
  exists m', p' = P124 m' /\ tR (xf_trans m') = tR (xf_trans m) /\ pt_rescaled a b (tT (xf_trans m)) (tT (xf_trans m')).
Proof.
  intros f a b m p' (H1 & _ & H3). destruct p'; try discriminate. exists m0. split; [reflexivity|].
  cbn in H3. injection H3 as E1 E2 E3 E4 E5 E6 E7 E8 E9.
  split; [unfold xf_trans; cbn; congruence|]. cbn in H1. inversion H1 as [|? ? ? ? X1 H2]; subst. inversion H2 as [|? ? ? ? X2 H4]; subst.
  inversion H4 as [|? ? ? ? X3 _]; subst. repeat split; assumption.
Qed.

Lemma tmul_rescaled : forall a b s s' t t', tR s' = tR s -> pt_rescaled a b (tT s) (tT s') -> tR t' = tR t -> pt_rescaled a b (tT t) (tT t') ->
  tR (tmul s' t') = tR (tmul s t) /\ pt_rescaled a b (tT (tmul s t)) (tT (tmul s' t')).
Proof.
  intros a b [R [x y z]] [R' [x' y' z']] [Q [u v w]] [Q' [u' v' w']] E (A1 & A2 & A3) F (B1 & B2 & B3). cbn in *. subst. split; [reflexivity|].
  unfold pt_rescaled. cbn. destruct R; cbn.
  repeat split; rewrite !Qmult_plus_distr_l, <- !Qmult_assoc; rewrite A1 || rewrite A2 || rewrite A3; rewrite B1, B2, B3; reflexivity.
Qed.

Lemma tapply_rescaled : forall a b t t' v v', tR t' = tR t -> pt_rescaled a b (tT t) (tT t') -> pt_rescaled a b v v' ->
  pt_rescaled a b (tapply t v) (tapply t' v').
Proof.
  intros a b [R [x y z]] [R' [x' y' z']] [u v w] [u' v' w'] E (A1 & A2 & A3) (B1 & B2 & B3). cbn in *. subst.
  unfold pt_rescaled. cbn. destruct R; cbn.
  repeat split; rewrite !Qmult_plus_distr_l, <- !Qmult_assoc; rewrite A1 || rewrite A2 || rewrite A3; rewrite B1, B2, B3; reflexivity.
Qed.

Lemma tm_rescaled : forall a b es es', all_rescaled a b es es' -> forall f j t, transform_matrix f es j = Some t ->
  exists t', transform_matrix f es' j = Some t' /\ tR t' = tR t /\ pt_rescaled a b (tT t) (tT t').
Proof.
  intros a b es es' [L H]. induction f; intros j t E; [discriminate|]. cbn [transform_matrix] in *.
  destruct (nth_error es j) as [[[[]|] o q]|] eqn:N; try discriminate.
  destruct (nth_error es' j) as [it'|] eqn:N'.
  2: { apply nth_error_None in N'. assert (j < length es)%nat by (apply nth_error_Some; congruence). lia. }
  destruct (H _ _ _ N N') as (A1 & A2 & p & p' & A3 & A4 & A5). cbn in A1, A2, A3. injection A3 as <-.
  assert (X : exists m', p' = P124 m' /\ tR (xf_trans m') = tR (xf_trans m) /\ pt_rescaled a b (tT (xf_trans m)) (tT (xf_trans m'))).
  { destruct A5 as [[_ R]|[_ R]]; eapply rescaled_124; exact R. }
  destruct X as (m' & -> & X1 & X2). destruct it' as [d' o' q']. cbn in A1, A2, A4. subst d' o' q'.
  destruct o as [k|].
  - destruct (transform_matrix f es k) as [u|] eqn:U; [|discriminate]. cbn in E. injection E as <-.
    destruct (IHf _ _ U) as (u' & U' & Y1 & Y2). rewrite U'. cbn [option_map]. eexists. split; [reflexivity|].
    apply tmul_rescaled; assumption.
  - injection E as <-. eexists. split; [reflexivity|]. split; assumption.
Qed.

Lemma place_rescaled : forall a b es es' o v v' w, all_rescaled a b es es' -> pt_rescaled a b v v' -> place es o v = Some w ->
  exists w', place es' o v' = Some w' /\ pt_rescaled a b w w'.
Proof.
  intros a b es es' o v v' w H V P. unfold place in *. destruct o as [j|].
  - destruct (transform_matrix (S (length es)) es j) as [t|] eqn:E; [|discriminate]. cbn [option_map] in P. injection P as <-.
    destruct (tm_rescaled _ _ _ _ H _ _ _ E) as (t' & E' & R & T). replace (length es') with (length es) by (symmetry; apply H).
    rewrite E'. eexists. split; [reflexivity|]. apply tapply_rescaled; assumption.
  - injection P as <-. eauto.
Qed.

Lemma coords_first : forall a b (p q p' : point) l l', Forall2 (fun x y => x * a == y * b)%Q (flat_map coords (p :: q :: l)) (flat_map coords (p' :: l')) ->
  exists q' l2, l' = q' :: l2 /\ pt_rescaled a b (of_point p) (of_point p').
Proof.
  intros a b [[x y] z] [[u v] w] [[x' y'] z'] l l' H. cbn in H.
  inversion H as [|? ? ? ? X1 H1]; subst. inversion H1 as [|? ? ? ? X2 H2]; subst. inversion H2 as [|? ? ? ? X3 H3]; subst.
  destruct l' as [|q' l2]; [inversion H3|]. exists q', l2. repeat split; assumption.
Qed.

Lemma coords_last : forall a b (l l' : list point) d, Forall2 (fun x y => x * a == y * b)%Q (flat_map coords l) (flat_map coords l') -> l <> [] ->
  pt_rescaled a b (of_point (last l d)) (of_point (last l' d)).
Proof.
  intros a b l. induction l as [|[[x y] z] l IH]; intros l' d H N; [congruence|].
  destruct l' as [|[[x' y'] z'] l']; [inversion H|]. cbn [flat_map coords app] in H.
  inversion H as [|? ? ? ? X1 H1]; subst. inversion H1 as [|? ? ? ? X2 H2]; subst. inversion H2 as [|? ? ? ? X3 H3]; subst.
  destruct l as [|q l].
  - destruct l' as [|[[? ?] ?] l']; [|inversion H3]. cbn. repeat split; assumption.
  - destruct l' as [|q' l']; [destruct q as [[? ?] ?]; inversion H3|]. apply (IH (q' :: l') d H3). discriminate.
Qed.

Lemma raw_rescaled : forall a b (p p' : payload D) w v, rescaled false a b p p' ->
  (if w : bool then raw_end p else raw_start p) = Some v ->
  exists v', (if w then raw_end p' else raw_start p') = Some v' /\ pt_rescaled a b v v'.
Proof.
  intros a b p p' w v (H1 & _ & H3) E.
  destruct p; try (destruct w; discriminate); destruct p'; try discriminate; cbn in H1.
  - repeat (match goal with H : Forall2 _ (_ :: _) _ |- _ => inversion H; clear H; subst end).
    destruct w; injection E as <-; (eexists; split; [reflexivity|repeat split; assumption]).
  - repeat (match goal with H : Forall2 _ (_ :: _) _ |- _ => inversion H; clear H; subst end).
    destruct w; injection E as <-; (eexists; split; [reflexivity|repeat split; assumption]).
  - repeat (match goal with H : Forall2 _ (_ :: _) _ |- _ => inversion H; clear H; subst end).
    destruct w; injection E as <-; (eexists; split; [reflexivity|repeat split; assumption]).
  - cbn [raw_end raw_start] in *. destruct (n_pts c) as [|q1 [|q2 l]] eqn:C; [destruct w; discriminate|destruct w; discriminate|].
    destruct (n_pts c0) as [|r1 rl] eqn:C0.
    { cbn in H1. destruct q1 as [[? ?] ?]. inversion H1. }
    destruct (coords_first _ _ _ _ _ _ _ H1) as (r2 & l2 & -> & F).
    destruct w; injection E as <-; (eexists; split; [reflexivity|]); [|exact F].
    apply (coords_last _ _ _ _ (0, 0, 0)%Q) in H1; [exact H1|discriminate].
Qed.

Lemma rest_102 : forall f l (p' : payload D), rest f (P102 l) = rest f p' -> p' = P102 l.
Proof. intros f l p' H. cbn in H. destruct p'; try discriminate; cbn in H; congruence. Qed.

Lemma end_point_rescaled : forall a b es es', all_rescaled a b es es' -> forall w f j v,
  (forall k, part_of es k j -> ~ in_parameter_space es k) ->
  end_point w f es j = Some v -> exists v', end_point w f es' j = Some v' /\ pt_rescaled a b v v'.
Proof.
  intros a b es es' H w. induction f; intros j v F E; [discriminate|]. cbn [end_point] in *.
  destruct (nth_error es j) as [[[p|] o q]|] eqn:N; try discriminate.
  destruct (nth_error es' j) as [it'|] eqn:N'.
  2: { apply nth_error_None in N'. assert (j < length es)%nat by (apply nth_error_Some; congruence). destruct H. lia. }
  pose proof H as [_ H']. destruct (H' _ _ _ N N') as (A1 & A2 & p0 & p' & A3 & A4 & A5). cbn in A1, A2, A3. injection A3 as <-.
  assert (R : rescaled false a b p p').
  { destruct A5 as [[A5 _]|[_ A5]]; [|exact A5]. exfalso. apply (F j); [constructor|exact A5]. }
  destruct it' as [d' o' q']. cbn in A1, A2, A4. subst d' o' q'.
  assert (X : exists u, (match p with
             | P102 l => match (if w then rev l else l) with [] => None | n :: _ => end_point w f es (Z.to_nat (n / 2)) end
             | _ => if w then raw_end p else raw_start p end) = Some u /\ place es o u = Some v).
  { destruct (match p with
             | P102 l => match (if w then rev l else l) with [] => None | n :: _ => end_point w f es (Z.to_nat (n / 2)) end
             | _ => if w then raw_end p else raw_start p end) as [u|]; [|discriminate]. exists u. split; [reflexivity|exact E]. }
  destruct X as (u & U & V).
  assert (Y : exists u', (match p' with
             | P102 l => match (if w then rev l else l) with [] => None | n :: _ => end_point w f es' (Z.to_nat (n / 2)) end
             | _ => if w then raw_end p' else raw_start p' end) = Some u' /\ pt_rescaled a b u u').
  { assert (C : (exists l, p = P102 l) \/ (if w then raw_end p else raw_start p) = Some u).
    { destruct p; try (right; exact U). left. eauto. }
    destruct C as [[l ->]|C].
    - destruct R as (_ & _ & R). apply rest_102 in R. subst p'.
      destruct (if w then rev l else l) as [|n r] eqn:L; [discriminate|].
      assert (I : In n l) by (destruct w; [apply in_rev; rewrite L|rewrite L]; left; reflexivity).
      apply IHf; [|exact U]. intros k K. apply F. eapply part_member; [|exact I|exact K].
      unfold data_at. rewrite N. reflexivity.
    - destruct (raw_rescaled _ _ _ _ w _ R C) as (u' & U' & S). exists u'. split; [|exact S].
      destruct p'; try exact U'. destruct w; discriminate. }
  destruct Y as (u' & U' & S). rewrite U'. cbn [obind]. eapply place_rescaled; eassumption.
Qed.

Lemma end_points_convert : forall (m m' : mdl D) u a b which f j v,
  unit_length (m_unit m) = Some a -> unit_length u = Some b -> sound (m_ents m) -> Forall supported (m_ents m) ->
  ConvertUnits m u = POk (true, m') ->
  (forall k, part_of (m_ents m) k j -> ~ in_parameter_space (m_ents m) k) ->
  end_point which f (m_ents m) j = Some v ->
  exists v', end_point which f (m_ents m') j = Some v' /\ pt_rescaled a b v v'.
Proof.
  intros m m' u a b which f j v A B SO F H P E. destruct (convert_ok m u a b A B SO F) as (m2 & H2 & _ & _ & _ & R).
  rewrite H in H2. injection H2 as <-. eapply end_point_rescaled; eassumption.
Qed.

Lemma end_points_scale : forall (m m' : mdl D) t which f j v,
  scale_ok t -> (0 < m_scale m)%Q -> sound (m_ents m) -> Forall supported (m_ents m) ->
  ChangeModelScale m t = POk (true, m') ->
  (forall k, part_of (m_ents m) k j -> ~ in_parameter_space (m_ents m) k) ->
  end_point which f (m_ents m) j = Some v ->
  exists v', end_point which f (m_ents m') j = Some v' /\ pt_rescaled t (m_scale m) v v'.
Proof.
  intros m m' t which f j v T S SO F H P E. destruct (scale_change m t T S SO F) as (m2 & H2 & _ & _ & _ & R).
  rewrite H in H2. injection H2 as <-. eapply end_point_rescaled; eassumption.
Qed.

Lemma chain_iff : forall es j v w,
  carries es j v w <-> exists t, transform_matrix (S (length es)) es j = Some t /\ pt_eq (tapply t v) w.
Proof.
  intros es j v w. split; [apply carries_matrix|]. intros (t & E & P).
  eapply carries_eq; [eapply matrix_carries; exact E|apply pt_eq_refl|exact P].
Qed.

End chain.

(** ** Conics *)

Lemma conic_stays : forall s c x y, ~ (s == 0)%Q -> (on_conic (rescale104 s c) x y <-> on_conic c x y).
Proof.
  intros s c x y N. unfold on_conic. cbn.
  set (e := (c_A c * x * x + c_B c * x * y + c_C c * y * y + c_D c * x + c_E c * y + c_F c)%Q).
  assert (X : (c_A c * s * x * x + c_B c * s * x * y + c_C c * s * y * y + c_D c * s * x + c_E c * s * y + c_F c * s == s * e)%Q)
    by (unfold e; ring).
  rewrite X. split; intros H.
  - apply Qmult_integral in H. tauto.
  - rewrite H. ring.
Qed.

Lemma conic_ends_leave : forall s c x y, (c_D c == 0)%Q -> (c_E c == 0)%Q -> ~ (c_F c == 0)%Q -> ~ (s == 0)%Q -> ~ (s * s == 1)%Q ->
  on_conic c x y -> ~ on_conic (rescale104 s c) (x * s) (y * s).
Proof.
  intros s c x y DD EE FF S0 S1 H G. apply conic_stays in G; [|exact S0]. unfold on_conic in *. rewrite DD, EE in *.
  assert (X : ((c_F c) * (1 - s * s) == 0)%Q).
  { transitivity ((c_A c * (x * s) * (x * s) + c_B c * (x * s) * (y * s) + c_C c * (y * s) * (y * s) + 0 * (x * s) + 0 * (y * s) + c_F c) -
                  s * s * (c_A c * x * x + c_B c * x * y + c_C c * y * y + 0 * x + 0 * y + c_F c))%Q; [ring|].
    rewrite G, H. ring. }
  apply Qmult_integral in X. destruct X as [X|X]; [tauto|]. apply S1. lra.
Qed.
