(** The claims about which files are accepted, of what kind the pointers made from them
    are, and what goes wrong (C79 - C84), each with a concrete case. *)

From Coq Require Import List Bool ZArith Lia ZifyBool ZifyNat.
From Verif Require Import GraphModel GraphSpec PlanSpec AssocModel AssocSpec AcceptSpec AcceptProps AcceptFacts AcceptCull AcceptMore PropAssoc.
Import ListNotations.
Open Scope Z_scope.

(** *** C79: Read accepts a file only if every reference in it is in order *)

Theorem c79_accepted_file_is_proper : forall closed joins qs g,
  connect closed joins qs = Some (true, g) -> (forall q, In q qs -> length (q_des q) = 7%nat) ->
  forall i q, nth_error qs i = Some q -> proper qs i q.
Proof. intros closed joins qs g C L i q E. exact (proj1 (connect_proper closed joins qs g C i q E) (L q (nth_error_In qs i E))). Qed.
Print Assumptions c79_accepted_file_is_proper.

Definition accepts (qs : list wants) : bool := match connect closed_ex joins_ex qs with Some (b, _) => b | None => false end.
Lemma accepts_ok qs : accepts qs = true -> exists g, connect closed_ex joins_ex qs = Some (true, g).
Proof. unfold accepts. destruct (connect closed_ex joins_ex qs) as [[[|] g]|]; try discriminate. now exists g. Qed.

(* a file is accepted; with a circle in place of the transform, a property in place of a
   segment, or a vertex that is not in its list, it is not *)
Example c79_case : (exists g, connect closed_ex joins_ex file_ex = Some (true, g)) /\ (forall q, In q file_ex -> length (q_des q) = 7%nat) /\
  accepts (wl 100 [] :: tl file_ex) = false /\
  accepts (firstn 4 file_ex ++ wl 102 [5; 29] :: skipn 5 file_ex) = false /\
  accepts (firstn 9 file_ex ++ wt 504 1 1 0 no_des [] [] [] [(17, (15, 1), (15, 3))] [] :: skipn 10 file_ex) = false.
Proof.
  split; [apply accepts_ok; vm_compute; reflexivity|]. split.
  - assert (F : Forall (fun q => length (q_des q) = 7%nat) file_ex) by (repeat constructor). rewrite Forall_forall in F. exact F.
  - split; [vm_compute; reflexivity|]. split; vm_compute; reflexivity.
Qed.

(** *** C80: After Read, successful or not, every pointer is of the kind its place asks for *)

Theorem c80_pointers_fit : forall closed joins qs b g, connect closed joins qs = Some (b, g) ->
  (forall i m, look g i = Some m -> exists q, nth_error qs i = Some q /\ n_type m = kind q /\ n_null m = (kind q =? 0) /\ n_form m = q_form q /\
     n_points m = q_points q /\ length (n_des m) = 7%nat /\ well_kinded qs m) /\
  (b = false -> forall i, (i < length qs)%nat -> exists m, look g i = Some m).
Proof. exact connect_kinds. Qed.
Print Assumptions c80_pointers_fit.

Definition result (qs : list wants) : option bool := option_map fst (connect closed_ex joins_ex qs).
Example c80_case : result file_ex = Some true /\
  result (firstn 9 file_ex ++ wt 504 1 1 0 no_des [] [] [] [(17, (15, 1), (15, 3))] [] :: skipn 10 file_ex) = Some false.
Proof. split; vm_compute; reflexivity. Qed.

(** *** C81: An entity that names itself in its Directory Entry *)

Theorem c81_never_accepted : forall closed joins qs i q k v,
  nth_error qs i = Some q -> length (q_des q) = 7%nat -> nth_error (q_des q) k = Some v -> is_ref k v -> leads (Z.abs v) i ->
  forall g, connect closed joins qs <> Some (true, g).
Proof.
  exact (fun closed joins qs i q k v E L D R A g C =>
    match p_des qs i q (proj1 (connect_proper closed joins qs g C i q E) L) k v D R with
    | ex_intro _ x (ex_intro _ p (conj B (conj _ (conj F _)))) => F (leads_one _ x i B A)
    end).
Qed.
Print Assumptions c81_never_accepted.

Theorem c81_first_entity_is_undefined : forall closed joins q qs k v,
  nth_error (q_des q) k = Some v -> is_ref k v -> Z.abs v = 1 -> (k = 4%nat -> kind q = 124) ->
  (forall j w, (j < k)%nat -> nth_error (q_des q) j = Some w -> ~ is_ref j w) -> connect closed joins (q :: qs) = None.
Proof. exact self_claim. Qed.
Print Assumptions c81_first_entity_is_undefined.

Example c81_case : let q := wt 110 0 0 0 [0; 1; 0; 0; 0; 0; -1] [] [] [] [] [] in
  nth_error (q_des q) 6 = Some (-1) /\ is_ref 6 (-1) /\ (6%nat = 4%nat -> kind q = 124) /\
  (forall j w, (j < 6)%nat -> nth_error (q_des q) j = Some w -> ~ is_ref j w) /\ accepts [q] = false.
Proof.
  cbv zeta. split; [reflexivity|]. split; [unfold is_ref; cbn; lia|]. split; [discriminate|]. split; [|vm_compute; reflexivity].
  intros j w Hj E. do 6 (destruct j as [|j]; [cbn in E; injection E as <-; unfold is_ref; cbn; lia|]). lia.
Qed.

(** *** C82: An extrusion is refused when its composite curve is stored after it *)

Theorem c82_extrusion_after_its_curve : forall closed joins qs g, connect closed joins qs = Some (true, g) -> hollow_open closed ->
  forall i q v c p, nth_error qs i = Some q -> kind q = 164 -> In v (q_slots q) -> leads v c -> nth_error qs c = Some p -> kind p = 102 ->
  (c < i)%nat.
Proof. exact extrusion_claim. Qed.
Print Assumptions c82_extrusion_after_its_curve.

(* the same entities, in the other order *)
Definition swept_ex : list wants := [wl 110 []; wl 110 []; wl 102 [1; 3]; wt 164 0 0 0 no_des [] [5] [] [] []].
Definition early_ex : list wants := [wl 110 []; wl 110 []; wt 164 0 0 0 no_des [] [7] [] [] []; wl 102 [1; 3]].
Example c82_case : hollow_open closed_ex /\ result swept_ex = Some true /\ result early_ex = Some false.
Proof.
  split; [|split; vm_compute; reflexivity]. intros g c m E T I. unfold closed_ex. rewrite E, T, I. reflexivity.
Qed.

(** *** C83: An unsupported entity that names an empty definition before it *)

Theorem c83_destroyed_entity_is_used : forall closed joins q0 q1 tl,
  q_type q0 = 308 -> q_items q0 = @Datatypes.nil Z -> q_extras q0 = @Datatypes.nil Z -> (forall k v, nth_error (q_des q0) k = Some v -> ~ is_ref k v) ->
  ~ In (q_type q1) known -> q_extras q1 = @Datatypes.nil Z -> q_des q1 = 1 :: tl -> (forall k v, nth_error tl k = Some v -> ~ is_ref (S k) v) ->
  connect closed joins [q0; q1] = None.
Proof. exact dangling_claim. Qed.
Print Assumptions c83_destroyed_entity_is_used.

(* without the reference, or with a definition that is not empty, all is well *)
Definition named_ex (d : Z) (items : list Z) : list wants :=
  [wl 308 items; wt 116 0 0 0 [d; 1; 0; 0; 0; 0; 3] [] [] [] [] []; wl 110 []].
Example c83_case : ~ In 116 known /\ (forall k v, nth_error no_des k = Some v -> ~ is_ref k v) /\
  (forall k v, nth_error [1; 0; 0; 0; 0; 3] k = Some v -> ~ is_ref (S k) v) /\
  result (named_ex 1 []) = None /\ result (named_ex 0 []) = Some true /\ result (named_ex 1 [5]) = Some true.
Proof.
  split; [cbn; intuition discriminate|]. split.
  { intros k v E. do 7 (destruct k as [|k]; [cbn in E; injection E as <-; unfold is_ref; cbn; lia|]). destruct k; discriminate. }
  split. { intros k v E. do 6 (destruct k as [|k]; [cbn in E; injection E as <-; unfold is_ref; cbn; lia|]). destruct k; discriminate. }
  split; [vm_compute; reflexivity|]. split; vm_compute; reflexivity.
Qed.

(** *** C84: What may be left behind by Read *)

(* a face listed twice by its shell: after deleting the face the shell points to a
   destroyed entity, and cannot be deleted *)
Theorem c84_duplicate_dangles_refuted :
  ~ (forall closed joins qs g e h r m x, connect closed joins qs = Some (true, g) -> DelEntity g e = Some (true, h) ->
       look h r = Some m -> In x (n_items m) -> exists n, look h x = Some n).
Proof. exact duplicate_claim. Qed.
Print Assumptions c84_duplicate_dangles_refuted.

(* a Read that failed, then Clear *)
Theorem c84_clear_after_failure_refuted :
  ~ (forall closed joins qs g, connect closed joins qs = Some (false, g) -> exists h, Clear g = Some h).
Proof. exact failure_claim. Qed.
Print Assumptions c84_clear_after_failure_refuted.
