(** The claims about spline data (C41, C71-C73), each with a concrete case. *)

From Coq Require Import Lia QArith.
From Verif Require Import Base Num Spec IoModel PdModel PdFacts EntSpec EntModel EntModel2 EntModel3
  NurbsModel NurbsSpec NurbsProps NurbsProps2 NurbsPlane.
Open Scope Z_scope.

(** A quarter of a circle and a straight polynomial line. *)
Definition quarter : spline :=
  mkSpline 3 [0; 0; 0; 1; 1; 1]%Q true [(1, 0, 0); (1, 1, 0); (0, 1, 0)]%Q [1; 7071 # 10000; 1]%Q 0 1.
Definition line3 : spline :=
  mkSpline 2 [0; 0; 1; 2; 2]%Q false [(0, 0, 0); (1, 2, 3); (2, 4, 6)]%Q [] 0 (3 # 2).
Ltac reals := repeat (apply Forall_cons; [vm_compute; discriminate|]); apply Forall_nil.
Example quarter_ok : spline_ok quarter.
Proof. split; [cbn; lia|reflexivity|reflexivity|exists 0%Q, 1%Q; repeat split; vm_compute; congruence|reals]. Qed.
Example line3_ok : spline_ok line3.
Proof. split; [cbn; lia|reflexivity|reflexivity|exists 0%Q, 2%Q; repeat split; vm_compute; congruence|reals]. Qed.

(** *** C41: Spline data setter *)

Theorem c41_set_exactly : forall c n order ks cs rat v0 v1, readable n order ks cs rat ->
  exists b c', SetCurve c n order (Some ks) (Some cs) rat v0 v1 = POk (b, c') /\
    (b = true <-> acceptable n order ks v0 v1) /\
    (b = true -> stored c' n order ks cs rat v0 v1) /\
    (b = false -> ~ (2 <= order /\ order <= n) -> c' = c) /\
    (b = false -> 2 <= order /\ order <= n -> recounted c c' n order).
Proof. exact set_curve. Qed.
Print Assumptions c41_set_exactly.

Theorem c41_set_null : forall c n order k cs rat v0 v1, k = None \/ cs = None ->
  SetCurve c n order k cs rat v0 v1 = POk (false, c).
Proof. exact set_null. Qed.
Print Assumptions c41_set_null.

(** Falling knots and a negative weight are not noticed; a range outside of the
    knots leaves a curve of which only the counts are new. *)
Example c41_case :
  (exists c, SetCurve new_curve 2 2 (Some [0; 5; -3; 1]%Q) (Some [1; 2; 3; -1; 4; 5; 6; 0]%Q) true 0 1 = POk (true, c) /\
     c_coeffs c = Some [1; 2; 3; -1; 4; 5; 6; 0]%Q) /\
  SetCurve new_curve 2 2 (Some [0; 0; 1; 1]%Q) (Some [1; 2; 3; 4; 5; 6]%Q) false 0 2 = POk (false, with_counts 2 2 new_curve).
Proof. split; [eexists; split; reflexivity|reflexivity]. Qed.

Theorem c41_round_trip : forall c d tk tc vec extras k seq pd rd, spline_ok d -> vec_ok vec -> settings_ok pd rd seq k extras ->
  (p_rat d = true -> Forall (fun w => 1 # 100000000 <= w)%Q (p_wts d)) ->
  room k (Z.of_nat (length (p_knots d)) + 4 * p_n d + 5) 0 extras ->
  exists c' (flat : bool), set_spline c d tk tc = POk (true, c') /\ c_PROP1 c' = (if flat then 1 else 0) /\
    round_trip (WriteCurve vec c' extras [] k seq pd rd) (fun m f => readPD126 seq k m pd rd f)
      seq k (extras_ptrs extras)
      (fun a => ncurve_close (in_file d flat) (fst a) /\
         if flat then let '(x, y, z) := vec (c_vnorm c') in direction_close nurbs_res x y z (snd a)
         else snd a = Exact 0 0 1).
Proof. exact set_round. Qed.
Print Assumptions c41_round_trip.

Theorem c41_ends : forall c d tk tc, spline_ok d -> 4 * p_n d <= 2147483647 ->
  exists c', set_spline c d tk tc = POk (true, c') /\
    GetStartPoint c' = POk (hd_error (p_pts d)) /\ GetEndPoint c' = POk (hd_error (rev (p_pts d))).
Proof. exact ends. Qed.
Print Assumptions c41_ends.

Theorem c41_get_crashes : forall c d tk tc, spline_ok d -> 4 * p_n d <= 2147483647 ->
  exists c', set_spline c d tk tc = POk (true, c') /\ GetCurve c' = PCrash.
Proof. exact get_crash. Qed.
Print Assumptions c41_get_crashes.

Theorem c41_after_refusal : forall c d tk tc n order ks cs rat v0 v1 c2 vec extras k seq pd rd,
  spline_ok d -> vec_ok vec -> settings_ok pd rd seq k extras ->
  (p_rat d = true -> Forall (fun w => 1 # 100000000 <= w)%Q (p_wts d)) ->
  room k (Z.of_nat (length (p_knots d)) + 4 * p_n d + 5) 0 extras -> 2 <= order -> order <= n ->
  (exists c1, set_spline c d tk tc = POk (true, c1) /\ SetCurve c1 n order (Some ks) (Some cs) rat v0 v1 = POk (false, c2)) ->
  (p_n d + p_order d < n + order \/ p_n d < n -> WriteCurve vec c2 extras [] k seq pd rd = PCrash) /\
  (n + order <= p_n d + p_order d -> n <= p_n d ->
   round_trip (WriteCurve vec c2 extras [] k seq pd rd) (fun m f => readPD126 seq k m pd rd f)
      seq k (extras_ptrs extras)
      (fun a => exists flat, ncurve_close (in_file (cut d n order) flat) (fst a))).
Proof. exact miscounted_round. Qed.
Print Assumptions c41_after_refusal.

Theorem c41_new_after_refusal : forall n order ks cs rat v0 v1, 2 <= order -> order <= n -> readable n order ks cs rat ->
  ~ within ks (n + order) v0 v1 ->
  exists c, SetCurve new_curve n order (Some ks) (Some cs) rat v0 v1 = POk (false, c) /\
    GetStartPoint c = PCrash /\ GetEndPoint c = PCrash /\
    GetStartPoint new_curve = POk None /\ GetEndPoint new_curve = POk None.
Proof. exact new_curve_refused. Qed.
Print Assumptions c41_new_after_refusal.

Example c41_case_refusal :
  match set_spline new_curve quarter [] [9]%Q with
  | POk (true, c1) =>
    match SetCurve c1 2 2 (Some [0; 0; 1; 1]%Q) (Some [1; 2; 3; 4; 5; 6]%Q) false 0 2 with
    | POk (false, c2) => c_K c2 = 1 /\ c_coeffs c2 = c_coeffs c1 /\ GetEndPoint c2 = POk (Some (1, 1, 0))%Q
    | _ => False
    end /\ GetEndPoint c1 = POk (Some (0, 1, 0))%Q
  | _ => False
  end.
Proof. vm_compute. auto. Qed.

(** *** C71: Spline surface data setter *)

Definition saddle : patch :=
  mkPatch 2 2 2 2 [0; 0; 1; 1]%Q [0; 0; 2; 2]%Q true [(0, 0, 0); (1, 0, 1); (0, 1, 1); (1, 1, 0)]%Q [1; 2; 1; 2]%Q
    0 1 0 2 true false.
Example saddle_ok : patch_ok saddle.
Proof.
  split; [cbn; lia|cbn; lia|reflexivity|reflexivity|reflexivity|reflexivity| | |reals].
  - exists 0%Q, 1%Q. repeat split; vm_compute; congruence.
  - exists 0%Q, 2%Q. repeat split; vm_compute; congruence.
Qed.

Theorem c71_set_exactly : forall s n1 n2 o1 o2 ks1 ks2 cs rat p1 p2 u0 u1 v0 v1, readable2 n1 n2 o1 o2 ks1 ks2 cs rat ->
  exists b s', SetSurface s n1 n2 o1 o2 (Some ks1) (Some ks2) (Some cs) rat p1 p2 u0 u1 v0 v1 = POk (b, s') /\
    (b = true <-> acceptable2 n1 n2 o1 o2 ks1 ks2 u0 u1 v0 v1) /\
    (b = true -> stored2 s' n1 n2 o1 o2 ks1 ks2 cs rat p1 p2 u0 u1 v0 v1) /\
    (b = false -> ~ (2 <= o1 <= n1 /\ 2 <= o2 <= n2) -> s' = s) /\
    (b = false -> 2 <= o1 <= n1 /\ 2 <= o2 <= n2 -> recounted2 s s' n1 n2 o1 o2).
Proof. exact set_surface. Qed.
Print Assumptions c71_set_exactly.

Theorem c71_set_null : forall s n1 n2 o1 o2 k1 k2 cs rat p1 p2 u0 u1 v0 v1, k1 = None \/ k2 = None \/ cs = None ->
  SetSurface s n1 n2 o1 o2 k1 k2 cs rat p1 p2 u0 u1 v0 v1 = POk (false, s).
Proof. exact set2_null. Qed.
Print Assumptions c71_set_null.

Theorem c71_round_trip : forall s d t1 t2 tc extras k seq pd rd, patch_ok d -> settings_ok pd rd seq k extras ->
  (q_rat d = true -> Forall (fun w => 1 # 100000000 <= w)%Q (q_wts d)) -> patch_room k d extras ->
  exists s', set_patch s d t1 t2 tc = POk (true, s') /\
    round_trip (WriteSurface s' extras [] k seq pd rd) (fun m f => readPD128 seq k m pd rd f)
      seq k (extras_ptrs extras) (nsurf_close (patch_in_file d)).
Proof. exact set_round2. Qed.
Print Assumptions c71_round_trip.

Theorem c71_get_crashes : forall s d t1 t2 tc, patch_ok d -> 4 * Z.of_nat (length (q_pts d)) <= 2147483647 ->
  Z.of_nat (length (q_knots1 d)) <= 2147483647 -> Z.of_nat (length (q_knots2 d)) <= 2147483647 ->
  exists s', set_patch s d t1 t2 tc = POk (true, s') /\ GetSurface s' = PCrash.
Proof. exact get_crash2. Qed.
Print Assumptions c71_get_crashes.

Example c71_case :
  match set_patch new_surface saddle [] [] [] with
  | POk (true, s) => f_props s = [1; 0; 0; 1; 0] /\
      match SetSurface s 3 2 2 2 (Some [0; 0; 1; 2; 2]%Q) (Some [0; 0; 2; 2]%Q) (Some (repeat 1%Q 18)) false false false 0 3 0 2 with
      | POk (false, s') => f_K1 s' = 2 /\ f_coeffs s' = f_coeffs s /\
          WriteSurface s' [] [] 1 1 "," ";" = PCrash
      | _ => False
      end
  | _ => False
  end.
Proof. vm_compute. auto. Qed.

(** *** C72: The planar flag of a spline curve *)

Theorem c72_planar_found : forall pts n k, (3 <= length pts)%nat -> ~ (dot3 n n == 0)%Q -> in_plane n k pts ->
  bends_everywhere pts -> exists d, hasUniquePlane pts = (true, d) /\ along n d.
Proof. exact planar_found. Qed.
Print Assumptions c72_planar_found.

Theorem c72_planar_sound : forall pts n, bends_everywhere pts -> hasUniquePlane pts = (true, n) -> keeps_to_planes pts.
Proof. exact planar_keeps. Qed.
Print Assumptions c72_planar_sound.

Theorem c72_straight_line : forall pts, (3 <= length pts)%nat -> collinear pts -> hasUniquePlane pts = (true, Exact 0 0 1).
Proof. exact line_is_planar. Qed.
Print Assumptions c72_straight_line.

Theorem c72_short : forall pts, (length pts < 3)%nat -> hasUniquePlane pts = (false, Exact 0 0 1).
Proof. exact short_not_planar. Qed.
Print Assumptions c72_short.

Theorem c72_planar_missed_refuted : exists pts, coplanar pts /\ NoDup pts /\ hasUniquePlane pts = (false, Exact 0 0 1).
Proof. exact (ex_intro _ corner corner_missed). Qed.
Print Assumptions c72_planar_missed_refuted.

Theorem c72_kink_taken_refuted : exists pts, ~ coplanar pts /\ hasUniquePlane pts = (true, Exact 0 0 1).
Proof. exact (ex_intro _ kink kink_taken). Qed.
Print Assumptions c72_kink_taken_refuted.

(** A square in a slanted plane, and one with a corner lifted. *)
Example c72_case :
  let sq := [(0, 0, 0); (1, 0, 1); (1, 1, 2); (0, 1, 1); (-(1), 0, -(1))]%Q in
  in_plane (1, 1, -(1))%Q 0 sq /\ bends_everywhere sq /\ fst (hasUniquePlane sq) = true /\
  fst (hasUniquePlane [(0, 0, 0); (1, 0, 1); (1, 1, 2); (0, 1, 1 + (1 # 1000000))]%Q) = false /\
  collinear (p_pts line3) /\ hasUniquePlane (p_pts line3) = (true, Exact 0 0 1).
Proof.
  cbn zeta. split; [|split; [|split; [reflexivity|split; [reflexivity|split; [|reflexivity]]]]].
  - unfold in_plane. repeat (apply Forall_cons; [reflexivity|]). apply Forall_nil.
  - repeat split; vm_compute; discriminate.
  - exists (0, 0, 0)%Q, (1, 2, 3)%Q. cbn [p_pts line3].
    apply Forall_cons; [exists 0%Q; repeat split|]. apply Forall_cons; [exists 1%Q; repeat split|].
    apply Forall_cons; [exists 2%Q; repeat split|]. apply Forall_nil.
Qed.

(** *** C73: Weights which make a file unreadable *)

Theorem c73_curve_refused : forall c d tk tc vec extras k seq pd rd, spline_ok d -> vec_ok vec -> settings_ok pd rd seq k extras ->
  p_rat d = true -> Exists (fun w => w < 1 # 100000000)%Q (p_wts d) ->
  room k (Z.of_nat (length (p_knots d)) + 4 * p_n d + 5) 0 extras ->
  exists c', set_spline c d tk tc = POk (true, c') /\
    refused (WriteCurve vec c' extras [] k seq pd rd) (fun m f => readPD126 seq k m pd rd f).
Proof. exact set_refused. Qed.
Print Assumptions c73_curve_refused.

Theorem c73_surface_refused : forall s d t1 t2 tc extras k seq pd rd, patch_ok d -> settings_ok pd rd seq k extras ->
  q_rat d = true -> Exists (fun w => w < 1 # 100000000)%Q (q_wts d) -> patch_room k d extras ->
  exists s', set_patch s d t1 t2 tc = POk (true, s') /\
    refused (WriteSurface s' extras [] k seq pd rd) (fun m f => readPD128 seq k m pd rd f).
Proof. exact set_refused2. Qed.
Print Assumptions c73_surface_refused.

Example c73_case : let d := mkSpline 2 [0; 0; 1; 1]%Q true [(1, 0, 0); (0, 1, 0)]%Q [1; 1 # 1000000000]%Q 0 1 in
  spline_ok d /\ Exists (fun w => w < 1 # 100000000)%Q (p_wts d) /\
  match set_spline new_curve d [] [] with
  | POk (true, c) =>
    match WriteCurve (fun _ => (0, 0, 1)%Q) c [] [] 1 1 "," ";" with
    | POk r => readPD126 1 1 (p_count r) "," ";" (mkStream (p_out r) false) = PFail
    | _ => False
    end
  | _ => False
  end.
Proof.
  cbn zeta. split; [|split].
  - split; [cbn; lia|reflexivity|reflexivity|exists 0%Q, 1%Q; repeat split; vm_compute; congruence|reals].
  - apply Exists_cons_tl, Exists_cons_hd. reflexivity.
  - vm_compute. reflexivity.
Qed.
