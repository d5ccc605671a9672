(** Theorems about units, scales, names, transforms and end points. *)

From Coq Require Import QArith Lia.
From Verif Require Import Base IoModel EntModel EntModel2 EntModel3 GeomModel PayloadModel UnitModel UnitSpec UnitFacts UnitProps UnitProps2.
Open Scope Z_scope.

(** A model: a quarter circle with a transform which refers to another one, a line
    joined with it, a B-spline in the parameter space of a surface and an ellipse. *)
Definition turn : xform := mkX 0 (-(1)) 0 10 1 0 0 20 0 0 1 30.
Definition shift : xform := mkX 1 0 0 5 0 1 0 0 0 0 1 0.
Definition quarter : arc := mkArc 3 0 0 1 0 0 1.
Definition spline : ncurve := mkNc 1 1 [0; 0; 1; 0] [0; 0; 1; 1]%Q [1; 1]%Q [(1 # 4, 1 # 2, 0); (3 # 4, 1 # 2, 1)]%Q 0 1.
Definition ellipse : conic := mkConic 1 0 4 0 0 (-(4)) 0 2 0 0 1.
Definition sample : list (item unit) :=
  [mkItem (Some (P100 quarter)) (Some 1%nat) (Some 4%nat);
   mkItem (Some (P124 turn)) (Some 2%nat) (Some 0%nat);
   mkItem (Some (P124 shift)) None (Some 1%nat);
   mkItem (Some (P110 (mkLine 0 1 3 4 5 6))) None (Some 4%nat);
   mkItem (Some (P102 [1; 7])) (Some 2%nat) None;
   mkItem (Some (P126 spline tt)) None (Some 6%nat);
   mkItem (Some (P142 (mkOn 1 (Some 15) (Some 11) (Some 9) 2))) None None;
   mkItem (Some (P104 ellipse)) None None].
Definition model1 : mdl unit := mkMdl 1 (1 # 1000) 2 sample.
Definition null_item : item unit := mkItem None None None.
Definition model2 : mdl unit := mkMdl 1 (1 # 1000) 1 (firstn 3 sample ++ null_item :: skipn 4 sample).

Lemma sample_sound : sound sample.
Proof.
  intros i H. cbn in H.
  assert (C : forall k, (k < 8)%nat -> parent_at sample k = None -> climbs sample k) by (intros; constructor; assumption).
  assert (C4 : climbs sample 4) by (apply C; [lia|reflexivity]).
  assert (C6 : climbs sample 6) by (apply C; [lia|reflexivity]).
  assert (C0 : climbs sample 0) by (eapply climbs_up; [reflexivity|cbn; lia|exact C4]).
  assert (C1 : climbs sample 1) by (eapply climbs_up; [reflexivity|cbn; lia|exact C0]).
  do 8 (destruct i as [|i]; [first [assumption | apply C; [lia|reflexivity] | eapply climbs_up; [reflexivity|cbn; lia|assumption]]|]).
  lia.
Qed.

Lemma sample_supported : Forall supported sample.
Proof. repeat constructor; discriminate. Qed.

Lemma model2_sound : sound (m_ents model2).
Proof.
  intros i H. cbn in H.
  assert (C : forall k, (k < 8)%nat -> parent_at (m_ents model2) k = None -> climbs (m_ents model2) k) by (intros; constructor; assumption).
  assert (C4 : climbs (m_ents model2) 4) by (apply C; [lia|reflexivity]).
  assert (C6 : climbs (m_ents model2) 6) by (apply C; [lia|reflexivity]).
  assert (C0 : climbs (m_ents model2) 0) by (eapply climbs_up; [reflexivity|cbn; lia|exact C4]).
  assert (C1 : climbs (m_ents model2) 1) by (eapply climbs_up; [reflexivity|cbn; lia|exact C0]).
  do 8 (destruct i as [|i]; [first [assumption | apply C; [lia|reflexivity] | eapply climbs_up; [reflexivity|cbn; lia|assumption]]|]).
  lia.
Qed.

(** The B-spline of the sample lies in the parameter space, the arc does not. *)
Example sample_spaces : in_parameter_space sample 5 /\ ~ in_parameter_space sample 0.
Proof.
  split.
  - exists 5%nat, 6%nat, (mkOn 1 (Some 15) (Some 11) (Some 9) 2), 5%nat. repeat split; constructor.
  - destruct (is_flat_spec sample 0 _ eq_refl (sample_sound 0%nat ltac:(cbn; lia))) as (b & E & F).
    vm_compute in E. injection E as <-. intros X. apply F in X. discriminate.
Qed.

(** ** C32 *)

(** Converting units keeps what the lengths mean: as a number times the length of
    the unit every length and the resolution stay the same; the rest of the model is
    untouched. *)
Theorem c32_conversion : forall (D : Type) (m : mdl D) u a b,
  unit_length (m_unit m) = Some a -> unit_length u = Some b -> sound (m_ents m) -> Forall supported (m_ents m) ->
  exists m', ConvertUnits m u = POk (true, m') /\ m_unit m' = u /\ m_scale m' = m_scale m /\
             (m_res m * a == m_res m' * b)%Q /\ all_rescaled a b (m_ents m) (m_ents m').
Proof. exact @convert_ok. Qed.
Print Assumptions c32_conversion.

(** Converting to one unit and then to another is the same as converting to the
    latter. *)
Theorem c32_conversions_compose : forall (D : Type) (m : mdl D) u v m1 m2,
  unit_length (m_unit m) <> None -> unit_length u <> None -> unit_length v <> None ->
  sound (m_ents m) -> Forall supported (m_ents m) ->
  ConvertUnits m u = POk (true, m1) -> ConvertUnits m1 v = POk (true, m2) ->
  exists m3, ConvertUnits m v = POk (true, m3) /\ m_unit m2 = m_unit m3 /\ m_scale m2 = m_scale m3 /\
             (m_res m2 == m_res m3)%Q /\ all_rescaled 1 1 (m_ents m2) (m_ents m3).
Proof. exact @convert_compose. Qed.
Print Assumptions c32_conversions_compose.

(** Converting there and back leaves everything as it was. *)
Theorem c32_there_and_back : forall (D : Type) (m : mdl D) u m1,
  unit_length (m_unit m) <> None -> unit_length u <> None -> sound (m_ents m) -> Forall supported (m_ents m) ->
  ConvertUnits m u = POk (true, m1) ->
  exists m2, ConvertUnits m1 (m_unit m) = POk (true, m2) /\ m_unit m2 = m_unit m /\ m_scale m2 = m_scale m /\
             (m_res m2 == m_res m)%Q /\ all_rescaled 1 1 (m_ents m2) (m_ents m).
Proof. exact @convert_there_and_back. Qed.
Print Assumptions c32_there_and_back.

(** To and from user defined units there is no conversion. *)
Theorem c32_extern_refused : forall (D : Type) (m : mdl D) u,
  m_unit m <> u -> m_unit m = 3 \/ u = 3 -> ConvertUnits m u = POk (false, m).
Proof. exact @convert_extern. Qed.
Print Assumptions c32_extern_refused.

(** Numbers which are not units are not refused: undefined behaviour, or lengths
    divided by zero. *)
Theorem c32_outside_undefined : forall (D : Type) (m : mdl D) u a,
  unit_length (m_unit m) = Some a -> u < 1 \/ 11 < u -> ConvertUnits m u = PCrash.
Proof. exact @convert_outside. Qed.
Print Assumptions c32_outside_undefined.

Example c32_case : exists m1, ConvertUnits model1 2 = POk (true, m1) /\ (m_res m1 == 127 # 5000)%Q /\
  all_rescaled inch 1 sample (m_ents m1) /\
  exists a, option_map it_data (nth_error (m_ents m1) 0) = Some (Some (P100 a)) /\ (a_z a == 381 # 5)%Q.
Proof.
  destruct (convert_ok model1 2 inch 1 eq_refl eq_refl sample_sound sample_supported) as (m1 & E & _ & _ & _ & A).
  exists m1. split; [exact E|]. vm_compute in E. injection E as <-. split; [reflexivity|]. split; [exact A|].
  eexists. split; [reflexivity|]. reflexivity.
Qed.

(** ** C33 *)

(** An unsupported entity makes the conversion fail, and leaves the model half
    converted: the resolution and the entities before that one are scaled, the
    others and the unit are not. *)
Theorem c33_conversion_not_atomic : forall (D : Type) (m : mdl D) u a b l1 it l2,
  unit_length (m_unit m) = Some a -> unit_length u = Some b -> m_unit m <> u -> sound (m_ents m) ->
  m_ents m = l1 ++ it :: l2 -> Forall supported l1 -> ~ supported it ->
  exists m' l1', ConvertUnits m u = POk (false, m') /\ m_unit m' = m_unit m /\ m_scale m' = m_scale m /\
    ~ (a == b)%Q /\ (m_res m * a == m_res m' * b)%Q /\ m_ents m' = l1' ++ it :: l2 /\ length l1' = length l1 /\
    forall i x x', nth_error l1 i = Some x -> nth_error l1' i = Some x' -> item_rescaled (m_ents m) a b i x x'.
Proof. exact @convert_not_atomic. Qed.
Print Assumptions c33_conversion_not_atomic.

(** The same when the scale is changed; the new scale is recorded all the same. *)
Theorem c33_scaling_not_atomic : forall (D : Type) (m : mdl D) t l1 it l2,
  scale_ok t -> (0 < m_scale m)%Q -> sound (m_ents m) -> m_ents m = l1 ++ it :: l2 -> Forall supported l1 -> ~ supported it ->
  exists m' l1', ChangeModelScale m t = POk (false, m') /\ m_unit m' = m_unit m /\ m_scale m' = t /\
    (m_res m' == m_res m * t)%Q /\ m_ents m' = l1' ++ it :: l2 /\ length l1' = length l1 /\
    forall i x x', nth_error l1 i = Some x -> nth_error l1' i = Some x' -> item_rescaled (m_ents m) t (m_scale m) i x x'.
Proof. exact @scale_not_atomic. Qed.
Print Assumptions c33_scaling_not_atomic.

Example c33_case : sound (m_ents model2) /\ m_ents model2 = firstn 3 sample ++ null_item :: skipn 4 sample /\
  Forall supported (firstn 3 sample) /\ ~ supported null_item /\ scale_ok (5 # 1) /\
  exists m', ConvertUnits model2 2 = POk (false, m') /\ m_unit m' = 1 /\ (m_res m' == 127 # 5000)%Q.
Proof.
  split; [exact model2_sound|]. split; [reflexivity|]. split; [repeat constructor; discriminate|].
  split; [intros X; apply X; reflexivity|]. split; [split; discriminate|].
  eexists. split; [vm_compute; reflexivity|]. split; reflexivity.
Qed.

(** ** C34 *)

(** Changing the scale of the model from s to t multiplies the lengths by t/s and the
    resolution by t. *)
Theorem c34_scale_change : forall (D : Type) (m : mdl D) t,
  scale_ok t -> (0 < m_scale m)%Q -> sound (m_ents m) -> Forall supported (m_ents m) ->
  exists m', ChangeModelScale m t = POk (true, m') /\ m_unit m' = m_unit m /\ m_scale m' = t /\
             (m_res m' == m_res m * t)%Q /\ all_rescaled t (m_scale m) (m_ents m) (m_ents m').
Proof. exact @scale_change. Qed.
Print Assumptions c34_scale_change.

(** So that the resolution keeps its proportion to the lengths exactly from scale 1. *)
Theorem c34_resolution_drifts : forall (D : Type) (m : mdl D) t m',
  scale_ok t -> (0 < m_scale m)%Q -> ~ (m_res m == 0)%Q -> ChangeModelScale m t = POk (true, m') ->
  ((m_res m * t == m_res m' * m_scale m)%Q <-> (m_scale m == 1)%Q).
Proof. exact @scale_resolution. Qed.
Print Assumptions c34_resolution_drifts.

(** Scales outside of 6e-8 .. 17000000 are refused. *)
Theorem c34_refused : forall (D : Type) (m : mdl D) t, ~ scale_ok t -> ChangeModelScale m t = POk (false, m).
Proof. exact @scale_refused. Qed.
Print Assumptions c34_refused.

Example c34_case : exists m', ChangeModelScale model1 3 = POk (true, m') /\ (m_res m' == 3 # 1000)%Q /\ ~ (m_scale model1 == 1)%Q /\
  (exists a, option_map it_data (nth_error (m_ents m') 0) = Some (Some (P100 a)) /\ (a_z a == 9 # 2)%Q) /\
  ~ scale_ok (20000000 # 1) /\ ~ scale_ok (1 # 100000000).
Proof.
  eexists. split; [vm_compute; reflexivity|]. split; [reflexivity|]. split; [discriminate|].
  split; [eexists; split; [reflexivity|reflexivity]|]. split; intros [X Y]; [apply Y|apply X]; reflexivity.
Qed.

(** ** C35 *)

(** The name reported for a unit is that of the next one, or empty for the last. *)
Theorem c35_next_unit_named : (forall u, 1 <= u <= 10 -> GetUnitName u = unit_abbrev (u + 1)) /\ GetUnitName 11 = Some [].
Proof. exact (conj unit_name_next unit_name_last). Qed.
Print Assumptions c35_next_unit_named.

(** It never is the right one. *)
Theorem c35_never_right : forall u, 1 <= u <= 11 -> GetUnitName u <> unit_abbrev u.
Proof. exact unit_name_never. Qed.
Print Assumptions c35_never_right.

Example c35_case : GetUnitName 2 = Some (S2 "CUST") /\ unit_abbrev 2 = Some (S2 "MM").
Proof. split; reflexivity. Qed.

(** ** C39 *)

(** Composing transforms is applying them one after the other. *)
Theorem c39_composition : forall m n v, pt_eq (tapply (tmul m n) v) (tapply m (tapply n v)).
Proof. exact tmul_apply. Qed.
Print Assumptions c39_composition.

(** It is associative, with the default transform neutral. *)
Theorem c39_monoid : (forall l m n v, pt_eq (tapply (tmul (tmul l m) n) v) (tapply (tmul l (tmul m n)) v)) /\
  (forall v, pt_eq (tapply tident v) v) /\
  (forall m v, pt_eq (tapply (tmul tident m) v) (tapply m v)) /\ (forall m v, pt_eq (tapply (tmul m tident) v) (tapply m v)).
Proof. exact (conj tmul_assoc (conj tident_apply (conj tident_l tident_r))). Qed.
Print Assumptions c39_monoid.

(** Scaling a transform scales its results; matrices are linear, transforms are
    linear in differences. *)
Theorem c39_linear : (forall m s v, pt_eq (tapply (tscale m s) v) (pscale (tapply m v) s)) /\
  (forall m s v w, pt_eq (mapply m (padd (pscale v s) w)) (padd (pscale (mapply m v) s) (mapply m w))) /\
  (forall m v w, pt_eq (psub (tapply m v) (tapply m w)) (mapply (tR m) (psub v w))) /\
  (forall m n v, pt_eq (mapply (madd m n) v) (padd (mapply m v) (mapply n v)) /\
                 pt_eq (mapply (msub m n) v) (psub (mapply m v) (mapply n v))).
Proof. exact (conj tscale_apply (conj mapply_linear (conj tapply_diff matrix_sum))). Qed.
Print Assumptions c39_linear.

(** The matrix of a transform entity is that of the whole chain of transforms which
    it refers to, applied one after the other, starting with its own; it is found
    whenever the chain ends. *)
Theorem c39_chain : forall (D : Type) (es : list (item D)) j v w,
  carries es j v w <-> exists t, transform_matrix (S (length es)) es j = Some t /\ pt_eq (tapply t v) w.
Proof. exact @chain_iff. Qed.
Print Assumptions c39_chain.

Example c39_case : carries sample 1 (mkPt 1 0 3) (mkPt 15 21 33).
Proof.
  eapply carries_next; [reflexivity|reflexivity|reflexivity| |].
  - instantiate (1 := mkPt 10 21 33). repeat split; reflexivity.
  - eapply carries_last; [reflexivity|reflexivity|reflexivity|]. repeat split; reflexivity.
Qed.

(** ** C42 *)

(** Generated names are determined by the second, and determine it; names of parts
    and assemblies differ. *)
Theorem c42_names : forall d d', calendar d -> calendar d' ->
  (GetNewPartName d = GetNewPartName d' <-> d = d') /\ (GetNewAssemblyName d = GetNewAssemblyName d' <-> d = d').
Proof. exact (fun d d' C C' => conj (part_names d d' C C') (assembly_names d d' C C')). Qed.
Print Assumptions c42_names.

Theorem c42_parts_are_not_assemblies : forall d d', GetNewPartName d <> GetNewAssemblyName d'.
Proof. exact names_differ. Qed.
Print Assumptions c42_parts_are_not_assemblies.

(** They are 21 characters long. *)
Theorem c42_length : forall d, calendar d -> length (GetNewPartName d) = 21%nat /\ length (GetNewAssemblyName d) = 21%nat.
Proof. exact name_length. Qed.
Print Assumptions c42_length.

Example c42_case : calendar (mkTm 126 318 8 5 9) /\ GetNewPartName (mkTm 126 318 8 5 9) = S2 "part20263190805090001".
Proof. split; [repeat split; discriminate|reflexivity]. Qed.

(** ** C56 *)

(** Rescaling a conic multiplies all coefficients of its equation: the curve stays
    where it is ... *)
Theorem c56_conic_stays : forall s c x y, ~ (s == 0)%Q -> (on_conic (rescale104 s c) x y <-> on_conic c x y).
Proof. exact conic_stays. Qed.
Print Assumptions c56_conic_stays.

(** ... while the end points move; those of an ellipse or hyperbola in standard
    position move off the curve. *)
Theorem c56_ends_leave : forall s c x y, (c_D c == 0)%Q -> (c_E c == 0)%Q -> ~ (c_F c == 0)%Q -> ~ (s == 0)%Q -> ~ (s * s == 1)%Q ->
  on_conic c x y -> ~ on_conic (rescale104 s c) (x * s) (y * s).
Proof. exact conic_ends_leave. Qed.
Print Assumptions c56_ends_leave.

Example c56_case : on_conic ellipse (c_X1 ellipse) (c_Y1 ellipse) /\
  c_X1 (rescale104 inch ellipse) = (c_X1 ellipse * inch)%Q /\
  ~ on_conic (rescale104 inch ellipse) (c_X1 (rescale104 inch ellipse)) (c_Y1 (rescale104 inch ellipse)).
Proof.
  split; [reflexivity|]. split; [reflexivity|].
  apply (conic_ends_leave inch ellipse (c_X1 ellipse) (c_Y1 ellipse)); try reflexivity; discriminate.
Qed.

(** ** C57 *)

(** The end points which curves report, through all transforms and composite
    curves, keep their place when units are converted, unless a curve in the
    parameter space of a surface is involved. *)
Theorem c57_end_points : forall (D : Type) (m m' : mdl D) u a b which f j v,
  unit_length (m_unit m) = Some a -> unit_length u = Some b -> sound (m_ents m) -> Forall supported (m_ents m) ->
  ConvertUnits m u = POk (true, m') ->
  (forall k, part_of (m_ents m) k j -> ~ in_parameter_space (m_ents m) k) ->
  end_point which f (m_ents m) j = Some v ->
  exists v', end_point which f (m_ents m') j = Some v' /\ pt_rescaled a b v v'.
Proof. exact @end_points_convert. Qed.
Print Assumptions c57_end_points.

(** ... and scale with the model. *)
Theorem c57_end_points_scale : forall (D : Type) (m m' : mdl D) t which f j v,
  scale_ok t -> (0 < m_scale m)%Q -> sound (m_ents m) -> Forall supported (m_ents m) ->
  ChangeModelScale m t = POk (true, m') ->
  (forall k, part_of (m_ents m) k j -> ~ in_parameter_space (m_ents m) k) ->
  end_point which f (m_ents m) j = Some v ->
  exists v', end_point which f (m_ents m') j = Some v' /\ pt_rescaled t (m_scale m) v v'.
Proof. exact @end_points_scale. Qed.
Print Assumptions c57_end_points_scale.

(** The composite curve of the sample starts where its arc starts, after all three
    transforms, and ends where its line ends. *)
Example c57_case : (exists v, end_point false 9 sample 4 = Some v /\ pt_eq v (mkPt 20 21 33)) /\
  (exists v, end_point true 9 sample 4 = Some v /\ pt_eq v (mkPt 9 5 6)) /\
  (forall k, part_of sample k 4 -> ~ in_parameter_space sample k).
Proof.
  split; [eexists; split; [vm_compute; reflexivity|repeat split; reflexivity]|].
  split; [eexists; split; [vm_compute; reflexivity|repeat split; reflexivity]|].
  assert (G : forall i it, nth_error sample i = Some it -> is_flat sample i it = Some false -> ~ in_parameter_space sample i).
  { intros i it N E X. destruct (is_flat_spec sample i it N) as (b & E' & F);
      [apply sample_sound; apply nth_error_Some; congruence|].
    apply F in X. congruence. }
  assert (P : forall j k, part_of sample k j -> j = 4%nat \/ j = 0%nat \/ j = 3%nat -> ~ in_parameter_space sample k).
  { intros j k H. induction H as [j|j l n k H I _ IH]; intros C.
    - destruct C as [->|[->| ->]]; eapply G; reflexivity.
    - apply IH. destruct C as [->|[->| ->]]; cbn in H; try discriminate. injection H as <-.
      destruct I as [<-|[<-|[]]]; cbn; auto. }
  intros k K. eapply P; [exact K|auto].
Qed.
