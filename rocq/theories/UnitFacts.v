(** Lemmas about [UnitModel]: what rescaling all entities does. *)

From Coq Require Import QArith Lqa Lia ZifyBool ZifyNat ZifyN.
From Verif Require Import Base Num IoModel EntModel EntModel2 EntModel3 GeomModel PayloadModel UnitModel UnitSpec.
Open Scope Z_scope.

Section anc.
Context {D : Type}.
Implicit Types es : list (item D).

Lemma anc_mono : forall f es o r, ancestors f es o = Some r -> forall f', (f <= f')%nat -> ancestors f' es o = Some r.
Proof.
  induction f; intros es o r H f' L.
  - destruct o; cbn in H; [discriminate|]. destruct f'; exact H.
  - destruct o as [j|]; [|destruct f'; exact H].
    destruct f'; [lia|]. cbn [ancestors] in *.
    destruct (nth_error es j) as [it|]; [|discriminate].
    destruct (it_data it) as [[]|];
    try exact H;
    destruct (ancestors f es (it_parent it)) as [[ls cs]|] eqn:E; try discriminate;
    rewrite (IHf _ _ _ E f' ltac:(lia)); exact H.
Qed.

Lemma anc_det : forall f f' es o r r', ancestors f es o = Some r -> ancestors f' es o = Some r' -> r = r'.
Proof.
  intros. apply anc_mono with (f' := Nat.max f f') in H; [|lia]. apply anc_mono with (f' := Nat.max f f') in H0; [|lia].
  congruence.
Qed.

(** One step. *)
Lemma anc_step : forall f es j l c, ancestors f es (Some j) = Some (l, c) ->
  exists it f', f = S f' /\ nth_error es j = Some it /\
    ((exists o, it_data it = Some (P142 o) /\ l = [] /\ c = Some o) \/
     (~ is_on_surface es j /\ exists l', l = j :: l' /\ ancestors f' es (it_parent it) = Some (l', c))).
Proof.
  intros f es j l c H. destruct f; [discriminate|]. cbn [ancestors] in H.
  destruct (nth_error es j) as [it|] eqn:N; [|discriminate].
  exists it, f. split; [reflexivity|]. split; [reflexivity|].
  assert (A : (exists o, it_data it = Some (P142 o)) \/ (~ exists o, it_data it = Some (P142 o))).
  { destruct (it_data it) as [[]|]; try (right; intros [? ?]; discriminate). left. eauto. }
  destruct A as [[o A]|A].
  - left. exists o. rewrite A in H. injection H as <- <-. repeat split; assumption.
  - right. split.
    + unfold is_on_surface, data_at. rewrite N. exact A.
    + destruct (it_data it) as [[]|]; try (exfalso; apply A; eauto; fail);
      destruct (ancestors f es (it_parent it)) as [[ls cs]|] eqn:E; try discriminate;
      injection H as <- <-; exists ls; split; reflexivity.
Qed.

Lemma climbs_anc : forall es i, climbs es i -> exists f r, ancestors f es (parent_at es i) = Some r.
Proof.
  intros es i H. induction H as [i H|i k H L C [f [r IH]]]; rewrite H.
  - exists O, ([], None). reflexivity.
  - destruct (nth_error es k) as [it|] eqn:N; [|apply nth_error_None in N; lia].
    unfold parent_at in IH. rewrite N in IH. cbn [obind] in IH.
    exists (S f). cbn [ancestors]. rewrite N. rewrite IH. destruct r as [l c].
    destruct (it_data it) as [[]|]; eexists; reflexivity.
Qed.

Lemma anc_in : forall f es o l c, ancestors f es o = Some (l, c) -> forall j, In j l ->
  (j < length es)%nat /\ ~ is_on_surface es j /\
  exists l' f', ancestors f' es (Some j) = Some (l', c) /\ (length l' <= length l)%nat.
Proof.
  induction f; intros es o l c H j I.
  - destruct o; cbn in H; [discriminate|]. injection H as <- <-. destruct I.
  - destruct o as [k|]; [|cbn in H; injection H as <- <-; destruct I].
    destruct (anc_step _ _ _ _ _ H) as (it & f' & F & N & [(o & _ & -> & _)|(S & l' & -> & A)]); [destruct I|].
    injection F as <-. destruct I as [<-|I].
    + split; [apply nth_error_Some; congruence|]. split; [exact S|]. exists (k :: l'), (Datatypes.S f). split; [exact H|]. lia.
    + destruct (IHf _ _ _ _ A _ I) as (B & C & l2 & f2 & E & L). split; [exact B|]. split; [exact C|].
      exists l2, f2. split; [exact E|]. cbn. lia.
Qed.

Lemma anc_nodup : forall f es o l c, ancestors f es o = Some (l, c) -> NoDup l.
Proof.
  induction f; intros es o l c H.
  - destruct o; cbn in H; [discriminate|]. injection H as <- <-. constructor.
  - destruct o as [k|]; [|cbn in H; injection H as <- <-; constructor].
    destruct (anc_step _ _ _ _ _ H) as (it & f' & F & N & [(o & _ & -> & _)|(S & l' & -> & A)]); [constructor|].
    injection F as <-. constructor; [|eapply IHf; exact A].
    intros I. destruct (anc_in _ _ _ _ _ A _ I) as (_ & _ & l2 & f2 & E & L).
    pose proof (anc_det _ _ _ _ _ _ H E) as Q. injection Q as <-. cbn in L. lia.
Qed.

Lemma anc_fuel : forall f es o l c, ancestors f es o = Some (l, c) ->
  ancestors (length l + match c with Some _ => 1 | None => 0 end) es o = Some (l, c).
Proof.
  induction f; intros es o l c H.
  - destruct o; cbn in H; [discriminate|]. injection H as <- <-. reflexivity.
  - destruct o as [k|]; [|cbn in H; injection H as <- <-; reflexivity].
    destruct (anc_step _ _ _ _ _ H) as (it & f' & F & N & [(o & E & -> & ->)|(S & l' & -> & A)]).
    + cbn. rewrite N, E. reflexivity.
    + injection F as <-. apply IHf in A. cbn [length Nat.add ancestors]. rewrite N, A.
      destruct (it_data it) as [[]|] eqn:E; try reflexivity.
      exfalso. apply S. unfold is_on_surface, data_at. rewrite N. cbn. eauto.
Qed.

Lemma anc_top : forall f es o l c, ancestors f es o = Some (l, Some c) ->
  exists k, data_at es k = Some (P142 c) /\ ~ In k l /\ (k < length es)%nat /\ (last (map Some l) o = Some k \/
    exists t, In t l /\ parent_at es t = Some k).
Proof.
  induction f; intros es o l c H.
  - destruct o; cbn in H; discriminate.
  - destruct o as [k|]; [|cbn in H; discriminate].
    destruct (anc_step _ _ _ _ _ H) as (it & f' & F & N & [(o & E & -> & Q)|(S & l' & -> & A)]).
    + injection Q as ->. exists k. unfold data_at. rewrite N. cbn. repeat split; auto. apply nth_error_Some. congruence.
    + injection F as <-. destruct (IHf _ _ _ _ A) as (k2 & A1 & A2 & A3 & A4). exists k2.
      split; [exact A1|]. split.
      { intros [<-|I]; [|tauto]. apply S. unfold is_on_surface. eauto. }
      split; [exact A3|]. right. destruct A4 as [A4|(t & I & P)].
      * destruct l' as [|x l'].
        { cbn in A4. exists k. split; [left; reflexivity|]. unfold parent_at. rewrite N. exact A4. }
        exfalso. assert (B : last (map Some (x :: l')) (it_parent it) = Some k2 -> In k2 (x :: l')).
        { clear. revert x. induction l'; intros x H; [cbn in H; injection H as ->; left; reflexivity|]. right. apply IHl'. exact H. }
        exact (A2 (B A4)).
      * exists t. split; [right; exact I|exact P].
Qed.

Lemma anc_small : forall f es o l c, ancestors f es o = Some (l, c) -> ancestors (length es) es o = Some (l, c).
Proof.
  intros f es o l c H. eapply anc_mono; [eapply anc_fuel; exact H|].
  assert (B : forall l0 : list nat, NoDup l0 -> (forall j, In j l0 -> (j < length es)%nat) -> (length l0 <= length es)%nat).
  { intros l0 N I. rewrite <- (seq_length (length es) 0). apply NoDup_incl_length; [exact N|].
    intros j J. apply in_seq. specialize (I j J). lia. }
  pose proof (anc_nodup _ _ _ _ _ H) as N.
  assert (I : forall j, In j l -> (j < length es)%nat) by (intros j J; destruct (anc_in _ _ _ _ _ H _ J); assumption).
  destruct c as [c|].
  - destruct (anc_top _ _ _ _ _ H) as (k & _ & K & L & _).
    specialize (B (k :: l) ltac:(constructor; assumption)). cbn in B.
    rewrite Nat.add_1_r. apply B. intros j [<-|J]; auto.
  - rewrite Nat.add_0_r. apply B; assumption.
Qed.

(** What the list of ancestors contains. *)
Lemma anc_above : forall f es i l c, ancestors f es (parent_at es i) = Some (l, c) ->
  forall j, above es i j <-> (j = i \/ In j l).
Proof.
  induction f; intros es i l c H j.
  - destruct (parent_at es i) eqn:P; cbn in H; [discriminate|]. injection H as <- <-.
    split; [|intros [->|[]]; constructor]. intros A. inversion A; subst; [left; reflexivity|congruence].
  - destruct (parent_at es i) as [k|] eqn:P.
    + destruct (anc_step _ _ _ _ _ H) as (it & f' & F & N & [(o & E & -> & Q)|(S & l' & -> & A)]).
      * split; [|intros [->|[]]; constructor]. intros A. inversion A as [|? k' ? P' S' A']; subst; [left; reflexivity|].
        exfalso. rewrite P in P'. injection P' as <-. apply S'. unfold is_on_surface, data_at. rewrite N. cbn. eauto.
      * injection F as <-.
        assert (PK : it_parent it = parent_at es k) by (unfold parent_at; rewrite N; reflexivity). rewrite PK in A.
        specialize (IHf _ _ _ _ A j). split.
        { intros B. inversion B as [|? k' ? P' S' A']; subst; [left; reflexivity|]. rewrite P in P'. injection P' as <-.
          right. apply IHf in A'. destruct A' as [->|A']; [left; reflexivity|right; exact A']. }
        { intros [->|B]; [constructor|]. eapply above_up; [exact P|exact S|]. apply IHf. destruct B as [<-|B]; auto. }
    + cbn in H. injection H as <- <-. split; [|intros [->|[]]; constructor].
      intros A. inversion A; subst; [left; reflexivity|congruence].
Qed.

(** Only one curve on a surface can be met first. *)
Lemma anc_first : forall f es i l c, ancestors f es (parent_at es i) = Some (l, c) ->
  forall top k o, above es i top -> parent_at es top = Some k -> data_at es k = Some (P142 o) -> c = Some o.
Proof.
  intros f es i l c H top k o A. revert f l c H. induction A as [i|i m top PM SM A IH]; intros f l c H PK DK.
  - rewrite PK in H. destruct (anc_step _ _ _ _ _ H) as (it & f' & F & N & [(o' & E & -> & Q)|(S & _)]).
    + unfold data_at in DK. rewrite N in DK. cbn in DK. congruence.
    + exfalso. apply S. exists o. exact DK.
  - rewrite PM in H. destruct (anc_step _ _ _ _ _ H) as (it & f' & F & N & [(o' & E & -> & Q)|(S & l' & -> & A')]).
    + exfalso. apply SM. unfold is_on_surface, data_at. rewrite N. cbn. eauto.
    + eapply IH; [|exact PK|exact DK].
      replace (parent_at es m) with (it_parent it) by (unfold parent_at; rewrite N; reflexivity). exact A'.
Qed.

Lemma is_flat_spec : forall es i it, nth_error es i = Some it -> climbs es i ->
  exists b, is_flat es i it = Some b /\ (b = true <-> in_parameter_space es i).
Proof.
  intros es i it N C. destruct (climbs_anc _ _ C) as (f & [l c] & H).
  assert (P : parent_at es i = it_parent it) by (unfold parent_at; rewrite N; reflexivity).
  pose proof (anc_above _ _ _ _ _ H) as AB. pose proof (anc_first _ _ _ _ _ H) as FI.
  pose proof (anc_small _ _ _ _ _ H) as HS. unfold is_flat. rewrite <- P, HS.
  destruct c as [c|].
  - assert (T : exists top k, above es i top /\ parent_at es top = Some k /\ data_at es k = Some (P142 c)).
    { destruct (anc_top _ _ _ _ _ H) as (k & K1 & _ & _ & [K|(t & T1 & T2)]).
      - destruct l as [|x l].
        + cbn in K. exists i, k. split; [constructor|]. auto.
        + assert (B : exists t, In t (x :: l) /\ Some t = Some k).
          { clear - K. revert x K. induction l; intros x K; [exists x; split; [left; reflexivity|exact K]|].
            destruct (IHl a K) as (t & T & E). exists t. split; [right; exact T|exact E]. }
          destruct B as (t & T & [= ->]). exfalso.
          destruct (anc_in _ _ _ _ _ H _ T) as (_ & S & _). apply S. exists c. exact K1.
      - exists t, k. split; [apply AB; right; exact T1|]. auto. }
    destruct T as (top & k & T1 & T2 & T3).
    destruct (os_b c) as [n|] eqn:O.
    + eexists. split; [reflexivity|]. rewrite existsb_exists. split.
      * intros (b & B & E). apply Z.eqb_eq in E. exists top, k, c, b. repeat split; try assumption; [|congruence].
        apply AB. destruct B as [<-|B]; auto.
      * intros (top' & k' & c' & b & A1 & A2 & A3 & A4 & A5). specialize (FI _ _ _ A1 A2 A3). injection FI as ->.
        exists b. split; [apply AB in A4; cbn; destruct A4 as [->|A4]; auto|]. apply Z.eqb_eq. congruence.
    + exists false. split; [reflexivity|]. split; [discriminate|].
      intros (top' & k' & c' & b & A1 & A2 & A3 & A4 & A5). specialize (FI _ _ _ A1 A2 A3). injection FI as ->. congruence.
  - exists false. split; [reflexivity|]. split; [discriminate|].
    intros (top' & k' & c' & b & A1 & A2 & A3 & A4 & A5). specialize (FI _ _ _ A1 A2 A3). discriminate.
Qed.

(** ** One entity *)

Lemma F2_map_scale : forall (a b s : Q) (l : list Q), (s * b == a)%Q ->
  Forall2 (fun x y => x * a == y * b)%Q l (map (fun x => x * s)%Q l).
Proof. intros a b s l H. induction l; constructor; auto. rewrite <- H. ring. Qed.

Lemma coords_scale : forall s l, flat_map coords (map (scale_pt s) l) = map (fun x => x * s)%Q (flat_map coords l).
Proof. induction l as [|[[x y] z] l IH]; cbn; [reflexivity|]. rewrite IH. reflexivity. Qed.
Lemma depth_scale : forall s l, flat_map depth (map (scale_pt_z s) l) = map (fun x => x * s)%Q (flat_map depth l).
Proof. induction l as [|[[x y] z] l IH]; cbn; [reflexivity|]. rewrite IH. reflexivity. Qed.
Lemma blot_scale : forall s l, map (blot false) (map (scale_pt s) l) = map (blot false) l.
Proof. induction l as [|[[x y] z] l IH]; cbn; [reflexivity|]. rewrite IH. reflexivity. Qed.
Lemma blot_scale_z : forall s l, map (blot true) (map (scale_pt_z s) l) = map (blot true) l.
Proof. induction l as [|[[x y] z] l IH]; cbn; [reflexivity|]. rewrite IH. reflexivity. Qed.

Lemma rescale_rescaled : forall flat (s a b : Q) (p : payload D), (s * b == a)%Q -> rescaled flat a b p (rescale flat s p).
Proof.
  intros flat s a b p H. unfold rescaled.
  split; [|split].
  - replace (lengths flat (rescale flat s p)) with (map (fun x => x * s)%Q (lengths flat p)); [apply F2_map_scale; exact H|].
    destruct p; try reflexivity; cbn; rewrite ?coords_scale; try reflexivity.
    destruct flat; rewrite ?coords_scale, ?depth_scale; reflexivity.
  - replace (coefficients (rescale flat s p)) with (map (fun x => x * s)%Q (coefficients p)); [apply F2_map_scale; exact H|].
    destruct p; reflexivity.
  - destruct p; try reflexivity; cbn; rewrite ?blot_scale; try reflexivity.
    destruct flat; rewrite ?blot_scale, ?blot_scale_z; reflexivity.
Qed.

Lemma rescale_flat_other : forall s (p : payload D), (forall c d, p <> P126 c d) -> rescale true s p = rescale false s p.
Proof. intros s p H. destruct p; try reflexivity. exfalso. eapply H. reflexivity. Qed.

Lemma rescale_item_ok : forall es i it s a b, (s * b == a)%Q -> nth_error es i = Some it -> climbs es i -> supported it ->
  exists it', rescale_item es i s it = POk it' /\ item_rescaled es a b i it it'.
Proof.
  intros es i it s a b H N C S. destruct (is_flat_spec _ _ _ N C) as (f & F & E).
  unfold supported in S. destruct (it_data it) as [p|] eqn:P; [|congruence].
  exists (mkItem (Some (rescale f s p)) (it_trans it) (it_parent it)). split.
  - unfold rescale_item. rewrite P. destruct p; try (destruct f; reflexivity). rewrite F. reflexivity.
  - split; [reflexivity|]. split; [reflexivity|]. exists p, (rescale f s p). split; [exact P|]. split; [reflexivity|].
    destruct f.
    + left. split; [apply E; reflexivity|]. apply rescale_rescaled; exact H.
    + right. split; [intros X; apply E in X; discriminate|]. apply rescale_rescaled; exact H.
Qed.

(** ** All entities *)

Definition some_rescaled es (a b : Q) (i : nat) (l l' : list (item D)) : Prop :=
  length l' = length l /\
  forall j it it', nth_error l j = Some it -> nth_error l' j = Some it' -> item_rescaled es a b (i + j) it it'.

Lemma rescale_all_ok : forall s a b es, (s * b == a)%Q -> sound es -> forall l pre post, es = pre ++ l ++ post -> Forall supported l ->
  exists l', some_rescaled es a b (length pre) l l' /\
  (post = [] -> rescale_all es (length pre) s l = POk (true, l')) /\
  (forall it post', post = it :: post' -> ~ supported it -> rescale_all es (length pre) s (l ++ post) = POk (false, l' ++ post)).
Proof.
  intros s a b es H SO l. induction l as [|it l IH]; intros pre post E F.
  - exists []. split; [split; [reflexivity|intros [|j] ? ? X; discriminate]|].
    split; [reflexivity|]. intros it post' -> NS. cbn. unfold rescale_item.
    unfold supported in NS. destruct (it_data it) eqn:X; [exfalso; apply NS; discriminate|]. reflexivity.
  - pose proof (Forall_inv F) as F1. pose proof (Forall_inv_tail F) as F2.
    assert (N : nth_error es (length pre) = Some it).
    { rewrite E. rewrite nth_error_app2 by lia. rewrite Nat.sub_diag. reflexivity. }
    destruct (rescale_item_ok _ _ _ s a b H N ltac:(apply SO; apply nth_error_Some; congruence) F1) as (it' & R & I).
    destruct (IH (pre ++ [it]) post) as (l' & [L S] & R1 & R2); [rewrite <- app_assoc; exact E|exact F2|].
    rewrite app_length in S, R1, R2. cbn [length] in S, R1, R2. rewrite Nat.add_1_r in *.
    exists (it' :: l'). split; [|split].
    + split; [cbn; congruence|]. intros [|j] x x' X X'; cbn in X, X'.
      * injection X as <-. injection X' as <-. rewrite Nat.add_0_r. exact I.
      * rewrite <- plus_n_Sm. apply S; assumption.
    + intros P. cbn [rescale_all]. rewrite R, R1 by exact P. reflexivity.
    + intros x post' P NS. cbn [app rescale_all]. rewrite R, (R2 _ _ P NS). reflexivity.
Qed.

Lemma rescale_all_total : forall s a b es, (s * b == a)%Q -> sound es -> Forall supported es ->
  exists es', rescale_all es 0 s es = POk (true, es') /\ all_rescaled a b es es'.
Proof.
  intros s a b es H SO F. destruct (rescale_all_ok s a b es H SO es [] []) as (l' & S & R & _); [rewrite app_nil_r; reflexivity|exact F|].
  exists l'. split; [apply R; reflexivity|]. exact S.
Qed.

(** ** Algebra of [all_rescaled] *)

Lemma F2_trans : forall (a b c : Q) l1 l2 l3, (~ b == 0)%Q ->
  Forall2 (fun x y => x * a == y * b)%Q l1 l2 -> Forall2 (fun x y => x * b == y * c)%Q l2 l3 ->
  Forall2 (fun x y => x * a == y * c)%Q l1 l3.
Proof.
  intros a b c l1 l2 l3 _ H. revert l3. induction H; intros l3 G; inversion G; subst; constructor; auto.
  transitivity (y * b)%Q; assumption.
Qed.

Lemma F2_flip : forall (a b : Q) l1 l2, Forall2 (fun x y => x * a == y * b)%Q l1 l2 -> Forall2 (fun x y => x * b == y * a)%Q l2 l1.
Proof. induction 1; constructor; auto. symmetry. assumption. Qed.

Lemma rescaled_trans : forall f (a b c : Q) (p q r : payload D), (~ b == 0)%Q ->
  rescaled f a b p q -> rescaled f b c q r -> rescaled f a c p r.
Proof.
  intros f a b c p q r H (A1 & A2 & A3) (B1 & B2 & B3).
  split; [eapply F2_trans; eassumption|]. split; [eapply F2_trans; eassumption|]. congruence.
Qed.

Lemma rescaled_flip : forall f (a b : Q) (p q : payload D), rescaled f a b p q -> rescaled f b a q p.
Proof. intros f a b p q (A1 & A2 & A3). split; [apply F2_flip; exact A1|]. split; [apply F2_flip; exact A2|]. congruence. Qed.

Lemma rescaled_same : forall f (a : Q) (p : payload D), rescaled f a a p p.
Proof.
  assert (R : forall (a : Q) l, Forall2 (fun x y => x * a == y * a)%Q l l) by (induction l; constructor; auto; reflexivity).
  intros. split; [apply R|]. split; [apply R|reflexivity].
Qed.

Lemma all_parents : forall a b es es', all_rescaled a b es es' -> forall i, parent_at es' i = parent_at es i.
Proof.
  intros a b es es' [L H] i. unfold parent_at.
  destruct (nth_error es i) as [it|] eqn:N; destruct (nth_error es' i) as [it'|] eqn:N'; cbn.
  - destruct (H _ _ _ N N') as (_ & P & _). exact P.
  - apply nth_error_None in N'. assert (i < length es)%nat by (apply nth_error_Some; congruence). lia.
  - apply nth_error_None in N. assert (i < length es')%nat by (apply nth_error_Some; congruence). lia.
  - reflexivity.
Qed.

Lemma rest_142 : forall f (p p' : payload D) c, rest f p = rest f p' -> p = P142 c -> p' = P142 c.
Proof. intros f p p' c H ->. cbn in H. destruct p'; try discriminate; cbn in H; congruence. Qed.

Lemma all_on_surface : forall a b es es', all_rescaled a b es es' -> forall i c,
  data_at es i = Some (P142 c) <-> data_at es' i = Some (P142 c).
Proof.
  intros a b es es' [L H] i c. unfold data_at.
  destruct (nth_error es i) as [it|] eqn:N; destruct (nth_error es' i) as [it'|] eqn:N'; cbn.
  - destruct (H _ _ _ N N') as (_ & _ & p & p' & -> & -> & R).
    assert (E : exists f, rest f p = rest f p') by (destruct R as [(_ & _ & _ & R)|(_ & _ & _ & R)]; eauto).
    destruct E as [f E]. split; intros [= X]; f_equal; [exact (rest_142 _ _ _ _ E X)|exact (rest_142 _ _ _ _ (eq_sym E) X)].
  - apply nth_error_None in N'. assert (i < length es)%nat by (apply nth_error_Some; congruence). lia.
  - apply nth_error_None in N. assert (i < length es')%nat by (apply nth_error_Some; congruence). lia.
  - tauto.
Qed.

Lemma all_above : forall a b es es', all_rescaled a b es es' -> forall i j, above es i j -> above es' i j.
Proof.
  intros a b es es' H i j A. induction A as [|i k j P S A IH]; [constructor|].
  eapply above_up; [rewrite (all_parents _ _ _ _ H); exact P| |exact IH].
  intros [c C]. apply S. exists c. apply (all_on_surface _ _ _ _ H). exact C.
Qed.

Lemma all_above_back : forall a b es es', all_rescaled a b es es' -> forall i j, above es' i j -> above es i j.
Proof.
  intros a b es es' H i j A. induction A as [|i k j P S A IH]; [constructor|].
  eapply above_up; [rewrite <- (all_parents _ _ _ _ H); exact P| |exact IH].
  intros [c C]. apply S. exists c. apply (all_on_surface _ _ _ _ H). exact C.
Qed.

Lemma all_in_space : forall a b es es', all_rescaled a b es es' -> forall i,
  in_parameter_space es i <-> in_parameter_space es' i.
Proof.
  intros a b es es' H i. split; intros (t & k & c & x & A1 & A2 & A3 & A4 & A5); exists t, k, c, x.
  - split; [eapply all_above; eassumption|]. split; [rewrite (all_parents _ _ _ _ H); exact A2|].
    split; [apply (all_on_surface _ _ _ _ H); exact A3|]. split; [eapply all_above; eassumption|exact A5].
  - split; [eapply all_above_back; eassumption|]. split; [rewrite <- (all_parents _ _ _ _ H); exact A2|].
    split; [apply (all_on_surface _ _ _ _ H); exact A3|]. split; [eapply all_above_back; eassumption|exact A5].
Qed.

Lemma all_trans : forall (a b c : Q) es1 es2 es3, (~ b == 0)%Q -> all_rescaled a b es1 es2 -> all_rescaled b c es2 es3 ->
  all_rescaled a c es1 es3.
Proof.
  intros a b c es1 es2 es3 NZ H1 H2. pose proof (all_in_space _ _ _ _ H1) as SP.
  destruct H1 as [L1 H1], H2 as [L2 H2]. split; [congruence|]. intros i it it'' N N''.
  destruct (nth_error es2 i) as [it'|] eqn:N'.
  - destruct (H1 _ _ _ N N') as (A1 & A2 & p & p' & A3 & A4 & A5).
    destruct (H2 _ _ _ N' N'') as (B1 & B2 & q & q' & B3 & B4 & B5).
    rewrite A4 in B3. injection B3 as <-. split; [congruence|]. split; [congruence|]. exists p, q'. split; [exact A3|]. split; [exact B4|].
    specialize (SP i).
    destruct A5 as [[A5 A6]|[A5 A6]]; destruct B5 as [[B5 B6]|[B5 B6]]; try tauto.
    + left. split; [exact A5|]. eapply rescaled_trans; eassumption.
    + right. split; [exact A5|]. eapply rescaled_trans; eassumption.
  - apply nth_error_None in N'. assert (i < length es1)%nat by (apply nth_error_Some; congruence). lia.
Qed.

Lemma all_flip : forall (a b : Q) es1 es2, all_rescaled a b es1 es2 -> all_rescaled b a es2 es1.
Proof.
  intros a b es1 es2 H. pose proof (all_in_space _ _ _ _ H) as SP. destruct H as [L H]. split; [congruence|].
  intros i it' it N' N. destruct (H _ _ _ N N') as (A1 & A2 & p & p' & A3 & A4 & A5).
  split; [congruence|]. split; [congruence|]. exists p', p. split; [exact A4|]. split; [exact A3|]. specialize (SP i).
  destruct A5 as [[A5 A6]|[A5 A6]]; [left|right]; (split; [tauto|apply rescaled_flip; exact A6]).
Qed.

Lemma all_same : forall (a : Q) es, sound es -> Forall supported es -> all_rescaled a a es es.
Proof.
  intros a es SO F. split; [reflexivity|]. intros i it it' N N'. rewrite N in N'. injection N' as <-.
  split; [reflexivity|]. split; [reflexivity|].
  pose proof (proj1 (Forall_forall _ _) F it (nth_error_In _ _ N)) as S. unfold supported in S.
  destruct (it_data it) as [p|]; [|congruence]. exists p, p. split; [reflexivity|]. split; [reflexivity|].
  destruct (is_flat_spec es i it N ltac:(apply SO; apply nth_error_Some; congruence)) as (b & _ & E).
  destruct b; [left; split; [apply E; reflexivity|]|right; split; [intros X; apply E in X; discriminate|]]; apply rescaled_same.
Qed.

Lemma all_sound : forall (a b : Q) es es', all_rescaled a b es es' -> sound es -> sound es'.
Proof.
  intros a b es es' H SO i L. pose proof H as [LE _]. specialize (SO i ltac:(lia)).
  clear L. induction SO as [i P|i k P K C IH]; [apply climbs_end|eapply climbs_up].
  - rewrite (all_parents _ _ _ _ H). exact P.
  - rewrite (all_parents _ _ _ _ H). exact P.
  - lia.
  - exact IH.
Qed.

Lemma all_supported : forall (a b : Q) es es', all_rescaled a b es es' -> Forall supported es'.
Proof.
  intros a b es es' [L H]. apply Forall_forall. intros it' I. apply In_nth_error in I. destruct I as [i N'].
  destruct (nth_error es i) as [it|] eqn:N.
  - destruct (H _ _ _ N N') as (_ & _ & p & p' & _ & A & _). unfold supported. congruence.
  - apply nth_error_None in N. assert (i < length es')%nat by (apply nth_error_Some; congruence). lia.
Qed.

Lemma all_factor : forall (a b c d : Q) es es', (~ b == 0)%Q -> (~ d == 0)%Q -> (a * d == c * b)%Q ->
  all_rescaled a b es es' -> all_rescaled c d es es'.
Proof.
  assert (G : forall (a b c d : Q) l l', (~ b == 0)%Q -> (~ d == 0)%Q -> (a * d == c * b)%Q ->
    Forall2 (fun x y => x * a == y * b)%Q l l' -> Forall2 (fun x y => x * c == y * d)%Q l l').
  { intros a b c d l l' B DD E H. induction H as [|x y l l' H _ IH]; constructor; auto.
    apply (Qmult_inj_r _ _ b B). transitivity (x * (a * d))%Q; [rewrite E; ring|].
    transitivity ((x * a) * d)%Q; [ring|]. rewrite H. ring. }
  intros a b c d es es' B DD E [L H]. split; [exact L|]. intros i it it' N N'.
  destruct (H _ _ _ N N') as (A1 & A2 & p & p' & A3 & A4 & A5).
  split; [exact A1|]. split; [exact A2|]. exists p, p'. split; [exact A3|]. split; [exact A4|].
  destruct A5 as [[A5 (R1 & R2 & R3)]|[A5 (R1 & R2 & R3)]]; [left|right]; (split; [exact A5|]);
    (split; [eapply G; [exact B|exact DD|exact E|exact R1]|]; split; [eapply G; [exact B|exact DD|exact E|exact R2]|exact R3]).
Qed.

End anc.
