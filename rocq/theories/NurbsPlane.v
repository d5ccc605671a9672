(** The plane of a curve. *)

From Coq Require Import Lia ZifyBool QArith Qabs Lqa.
From Verif Require Import Base Num Spec EntModel EntModel2 EntModel3 NurbsModel NurbsSpec NurbsProps.
Open Scope Q_scope.

Definition cross (a b : point) : point :=
  let '(ax, ay, az) := a in let '(bx, by_, bz) := b in
  (ay * bz - az * by_, az * bx - ax * bz, ax * by_ - ay * bx).
Definition nrm (a b c : point) : point := cross (sub3 b a) (sub3 c a).

Lemma calc_nrm a b c : CalcNormal a b c = let '(x, y, z) := nrm a b c in CheckNormal x y z.
Proof. destruct a as [[? ?] ?], b as [[? ?] ?], c as [[? ?] ?]. reflexivity. Qed.
Lemma area_nrm a b c : area2 a b c = dot3 (nrm a b c) (nrm a b c).
Proof. destruct a as [[? ?] ?], b as [[? ?] ?], c as [[? ?] ?]. reflexivity. Qed.
Lemma volume_nrm a b c d : volume2 a b c d = dot3 (nrm a b c) (sub3 d c) * dot3 (nrm a b c) (sub3 d c).
Proof. destruct a as [[? ?] ?], b as [[? ?] ?], c as [[? ?] ?], d as [[? ?] ?]. reflexivity. Qed.

(** ** Straight runs *)

Lemma calc_straight a b c : area2 a b c < 1 # 1000000000000 -> CalcNormal a b c = Exact 0 0 1.
Proof.
  rewrite calc_nrm, area_nrm. destruct (nrm a b c) as [[x y] z]. cbn [dot3]. intros H. unfold CheckNormal.
  apply Qlt_b in H. rewrite H. reflexivity.
Qed.

Lemma line_area p v a b c : on_line p v a -> on_line p v b -> on_line p v c -> area2 a b c == 0.
Proof.
  destruct p as [[px py] pz], v as [[vx vy] vz], a as [[ax ay] az], b as [[bx by_] bz], c as [[cx cy] cz].
  intros (t & A1 & A2 & A3) (s & B1 & B2 & B3) (r & C1 & C2 & C3).
  cbn [area2 sub3]. rewrite A1, A2, A3, B1, B2, B3, C1, C2, C3. ring.
Qed.

Lemma same_z p v : forall l a b, on_line p v a -> on_line p v b -> Forall (on_line p v) l ->
  same_normals (Exact 0 0 1) a b l = true.
Proof.
  induction l as [|c l IH]; intros a b A B F; [reflexivity|]. inversion F as [|? ? C F']; subst. cbn [same_normals].
  rewrite calc_straight by (rewrite (line_area p v) by auto; reflexivity).
  rewrite (IH b c B C F'). reflexivity.
Qed.

Lemma line_is_planar pts : (3 <= length pts)%nat -> collinear pts -> hasUniquePlane pts = (true, Exact 0 0 1).
Proof.
  intros L (p & v & F). destruct pts as [|a [|b [|c r]]]; cbn [length] in L; try lia.
  inversion F as [|? ? A F1]; subst. inversion F1 as [|? ? B F2]; subst. inversion F2 as [|? ? C F3]; subst.
  unfold hasUniquePlane. rewrite calc_straight by (rewrite (line_area p v) by auto; reflexivity).
  rewrite (same_z p v) by auto. reflexivity.
Qed.

(** ** Directions *)

Definition par (p q : point) : Prop := dot3 p q * dot3 p q == dot3 p p * dot3 q q.

(** [d] is the direction of [p] as [CheckNormal] delivers it. *)
Definition rep (d : direction) (p : point) : Prop :=
  let '(x, y, z) := p in
  d = Unit x y z \/ (d = Exact x y z /\ - (1 # 100000000) <= dot3 p p - 1 /\ dot3 p p - 1 <= 1 # 100000000).

Lemma check_rep p : 1 # 1000000000000 <= dot3 p p -> rep (let '(x, y, z) := p in CheckNormal x y z) p.
Proof.
  destruct p as [[x y] z]. cbn [dot3]. intros H. unfold rep, CheckNormal. cbn [dot3].
  destruct (Qlt_bool (x * x + y * y + z * z) (1 # 1000000000000)) eqn:E; [apply Qlt_b in E; lra|].
  destruct (Qlt_bool (x * x + y * y + z * z - 1) (- (1 # 100000000))) eqn:E1; [left; reflexivity|].
  destruct (Qlt_bool (1 # 100000000) (x * x + y * y + z * z - 1)) eqn:E2; [left; reflexivity|].
  right. split; [reflexivity|]. split.
  - destruct (Qlt_le_dec (x * x + y * y + z * z - 1) (- (1 # 100000000))) as [L|L]; [|exact L]. apply Qlt_b in L. congruence.
  - destruct (Qlt_le_dec (1 # 100000000) (x * x + y * y + z * z - 1)) as [L|L]; [|exact L]. apply Qlt_b in L. congruence.
Qed.

Lemma dot_neg p q : dot3 p (neg3 q) == - dot3 p q.
Proof. destruct p as [[? ?] ?], q as [[? ?] ?]. cbn [dot3 neg3]. ring. Qed.
Lemma dot_neg2 q : dot3 (neg3 q) (neg3 q) == dot3 q q.
Proof. destruct q as [[? ?] ?]. cbn [dot3 neg3]. ring. Qed.
Lemma dot_comm p q : dot3 p q == dot3 q p.
Proof. destruct p as [[? ?] ?], q as [[? ?] ?]. cbn [dot3]. ring. Qed.
Lemma dot_pos p : 0 <= dot3 p p.
Proof. destruct p as [[x y] z]. cbn [dot3]. nra. Qed.
Lemma dot_diff p q : dot3 (sub3 q p) (sub3 q p) == dot3 p p + dot3 q q - 2 * dot3 p q.
Proof. destruct p as [[? ?] ?], q as [[? ?] ?]. cbn [dot3 sub3]. ring. Qed.

Lemma rep_flip d p : rep d p -> rep (flip d) (neg3 p).
Proof.
  destruct p as [[x y] z]. unfold rep. cbn [neg3]. intros [->|(-> & A & B)]; [left; reflexivity|right].
  split; [reflexivity|]. pose proof (dot_neg2 (x, y, z)) as E. cbn [neg3] in E. rewrite E. auto.
Qed.

Lemma tol_small : 0 < close_tol /\ close_tol < 4 # 10000000000000000.
Proof. split; reflexivity. Qed.

Lemma at_least_ok p t m : 0 <= p -> t * t * m <= p * p -> at_least p t m = true.
Proof. intros A B. unfold at_least. apply andb_true_iff. split; now apply Qle_bool_iff. Qed.

Lemma at_least_inv p t m : at_least p t m = true -> 0 <= p /\ t * t * m <= p * p.
Proof. unfold at_least. intros H. apply andb_true_iff in H. destruct H as [A B]. apply Qle_bool_iff in A, B. auto. Qed.

(** The shape of the tests, on the vectors. *)
Lemma matches_cases d e p q : rep d p -> rep e q ->
  let pp := dot3 p p in let qq := dot3 q q in let pq := dot3 p q in
  let near n := - (1 # 100000000) <= n - 1 /\ n - 1 <= 1 # 100000000 in
  (near pp /\ near qq /\ (dir_matches d e = true <-> pp + qq - 2 * pq <= close_tol)) \/
  (near pp /\ (dir_matches d e = true <-> 0 <= pq /\ ((pp + 1 - close_tol) / 2) * ((pp + 1 - close_tol) / 2) * qq <= pq * pq)) \/
  (near qq /\ (dir_matches d e = true <-> 0 <= pq /\ ((qq + 1 - close_tol) / 2) * ((qq + 1 - close_tol) / 2) * pp <= pq * pq)) \/
  (dir_matches d e = true <-> 0 <= pq /\ (1 - close_tol / 2) * (1 - close_tol / 2) * (pp * qq) <= pq * pq).
Proof.
  intros Rp Rq. cbn zeta. destruct p as [[px py] pz], q as [[qx qy] qz].
  set (p := (px, py, pz)) in *. set (q := (qx, qy, qz)) in *.
  assert (AL : forall x t m, at_least x t m = true <-> 0 <= x /\ t * t * m <= x * x).
  { intros. split; [apply at_least_inv|]. intros [? ?]. now apply at_least_ok. }
  destruct Rp as [->|(-> & A1 & A2)], Rq as [->|(-> & B1 & B2)]; cbn [dir_matches]; fold p q.
  - right. right. right. apply AL.
  - right. right. left. split; [auto|]. rewrite AL. rewrite (dot_comm q p). reflexivity.
  - right. left. split; [auto|]. apply AL.
  - left. split; [auto|]. split; [auto|]. rewrite Qle_bool_iff, (dot_diff p q). reflexivity.
Qed.

Lemma sq_le a b : 0 <= a -> 0 <= b -> a * a <= b * b -> a <= b.
Proof. intros A B H. destruct (Qlt_le_dec b a) as [L|L]; [|exact L]. nra. Qed.

Lemma match_same d e p q : rep d p -> rep e q -> 0 <= dot3 p q -> par p q -> dir_matches d e = true.
Proof.
  intros Rp Rq P L. unfold par in L. pose proof (dot_pos p) as PP. pose proof (dot_pos q) as QQ.
  pose proof (matches_cases d e p q Rp Rq) as M. cbn zeta in M.
  set (pp := dot3 p p) in *. set (qq := dot3 q q) in *. set (pq := dot3 p q) in *. clearbody pp qq pq.
  destruct M as [([A1 A2] & [B1 B2] & M)|[([A1 A2] & M)|[([A1 A2] & M)|M]]]; apply M; clear M; unfold close_tol.
  - assert (H : (pp + qq - (30001 # 100000000000000000000)) * (1 # 2) <= pq).
    { apply sq_le; [lra|exact P|]. rewrite L.
      assert (K : (pp - qq) * (pp - qq) <= (1 # 2500000000000000)).
      { assert (0 <= ((1 # 50000000) - (pp - qq)) * ((1 # 50000000) + (pp - qq))) by (apply Qmult_le_0_compat; lra). lra. }
      lra. }
    lra.
  - split; [exact P|]. rewrite L.
    apply Qmult_le_compat_r; [|exact QQ].
    assert (K : (pp - 1) * (pp - 1) <= (1 # 10000000000000000)).
    { assert (0 <= ((1 # 100000000) - (pp - 1)) * ((1 # 100000000) + (pp - 1))) by (apply Qmult_le_0_compat; lra). lra. }
    unfold Qdiv. change (/ 2) with (1 # 2). lra.
  - split; [exact P|]. rewrite L, (Qmult_comm pp qq).
    apply Qmult_le_compat_r; [|exact PP].
    assert (K : (qq - 1) * (qq - 1) <= (1 # 10000000000000000)).
    { assert (0 <= ((1 # 100000000) - (qq - 1)) * ((1 # 100000000) + (qq - 1))) by (apply Qmult_le_0_compat; lra). lra. }
    unfold Qdiv. change (/ 2) with (1 # 2). lra.
  - split; [exact P|]. rewrite L.
    assert (0 <= pp * qq) by (apply Qmult_le_0_compat; auto).
    setoid_replace (pp * qq) with (1 * (pp * qq)) at 2 by ring. apply Qmult_le_compat_r; [|auto].
    unfold Qle; cbn; lia.
Qed.

Lemma match_par d e p q : rep d p -> rep e q -> par p q -> dir_matches d e || dir_matches d (flip e) = true.
Proof.
  intros Rp Rq L. apply orb_true_iff. destruct (Qlt_le_dec (dot3 p q) 0) as [N|N].
  - right. apply (match_same d (flip e) p (neg3 q)); auto using rep_flip.
    + rewrite dot_neg. lra.
    + unfold par in *. rewrite !(dot_neg p q), dot_neg2, <- L. ring.
  - left. now apply (match_same d e p q).
Qed.

(** ** Planes *)

Definition zero3 (p : point) : Prop := let '(x, y, z) := p in x == 0 /\ y == 0 /\ z == 0.

Lemma plane_nrm n d a b c : dot3 n a == d -> dot3 n b == d -> dot3 n c == d -> zero3 (cross n (nrm a b c)).
Proof.
  intros A B C. assert (U : dot3 n (sub3 b a) == 0) by
    (destruct n as [[? ?] ?], a as [[? ?] ?], b as [[? ?] ?]; cbn [dot3 sub3] in *; lra).
  assert (V : dot3 n (sub3 c a) == 0) by
    (destruct n as [[? ?] ?], a as [[? ?] ?], c as [[? ?] ?]; cbn [dot3 sub3] in *; lra).
  unfold nrm. destruct (sub3 b a) as [[ux uy] uz], (sub3 c a) as [[vx vy] vz], n as [[x y] z]. cbn [cross zero3 dot3] in *.
  split; [|split].
  - setoid_replace (y * (ux * vy - uy * vx) - z * (uz * vx - ux * vz)) with (ux * (x * vx + y * vy + z * vz) - vx * (x * ux + y * uy + z * uz)) by ring.
    rewrite U, V. ring.
  - setoid_replace (z * (uy * vz - uz * vy) - x * (ux * vy - uy * vx)) with (uy * (x * vx + y * vy + z * vz) - vy * (x * ux + y * uy + z * uz)) by ring.
    rewrite U, V. ring.
  - setoid_replace (x * (uz * vx - ux * vz) - y * (uy * vz - uz * vy)) with (uz * (x * vx + y * vy + z * vz) - vz * (x * ux + y * uy + z * uz)) by ring.
    rewrite U, V. ring.
Qed.

Lemma along_scale n p : zero3 (cross n p) ->
  let '(x, y, z) := n in let '(u, v, w) := p in
  dot3 n n * u == dot3 n p * x /\ dot3 n n * v == dot3 n p * y /\ dot3 n n * w == dot3 n p * z.
Proof.
  destruct n as [[x y] z], p as [[u v] w]. cbn [cross zero3 dot3]. intros (A & B & C). split; [|split].
  - setoid_replace ((x * x + y * y + z * z) * u) with ((x * u + y * v + z * w) * x + z * (z * u - x * w) - y * (x * v - y * u)) by ring.
    rewrite B, C. ring.
  - setoid_replace ((x * x + y * y + z * z) * v) with ((x * u + y * v + z * w) * y + x * (x * v - y * u) - z * (y * w - z * v)) by ring.
    rewrite A, C. ring.
  - setoid_replace ((x * x + y * y + z * z) * w) with ((x * u + y * v + z * w) * z + y * (y * w - z * v) - x * (z * u - x * w)) by ring.
    rewrite A, B. ring.
Qed.

Lemma along_par n p q : ~ dot3 n n == 0 -> zero3 (cross n p) -> zero3 (cross n q) -> par p q.
Proof.
  intros N P Q. pose proof (along_scale n p P) as A. pose proof (along_scale n q Q) as B. unfold par.
  destruct n as [[x y] z], p as [[u v] w], q as [[r s] t].
  set (N2 := dot3 (x, y, z) (x, y, z)) in *. set (a := dot3 (x, y, z) (u, v, w)) in *. set (b := dot3 (x, y, z) (r, s, t)) in *.
  assert (E : N2 == x * x + y * y + z * z) by reflexivity. clearbody N2 a b.
  destruct A as (A1 & A2 & A3), B as (B1 & B2 & B3). cbn [dot3].
  apply (Qmult_inj_l _ _ (N2 * N2 * (N2 * N2))).
  { intros Z. apply Qmult_integral in Z. destruct Z as [Z|Z]; apply Qmult_integral in Z; tauto. }
  setoid_replace (N2 * N2 * (N2 * N2) * ((u * r + v * s + w * t) * (u * r + v * s + w * t))) with
    ((N2 * u * (N2 * r) + N2 * v * (N2 * s) + N2 * w * (N2 * t)) * (N2 * u * (N2 * r) + N2 * v * (N2 * s) + N2 * w * (N2 * t))) by ring.
  setoid_replace (N2 * N2 * (N2 * N2) * ((u * u + v * v + w * w) * (r * r + s * s + t * t))) with
    ((N2 * u * (N2 * u) + N2 * v * (N2 * v) + N2 * w * (N2 * w)) * (N2 * r * (N2 * r) + N2 * s * (N2 * s) + N2 * t * (N2 * t))) by ring.
  rewrite A1, A2, A3, B1, B2, B3. ring.
Qed.

Lemma plane_matches n k : ~ dot3 n n == 0 -> forall l a b d p, rep d p -> zero3 (cross n p) ->
  in_plane n k (a :: b :: l) -> bends_everywhere (a :: b :: l) -> same_normals d a b l = true.
Proof.
  intros N. induction l as [|c l IH]; intros a b d p R Z F B; [reflexivity|]. cbn [same_normals].
  inversion F as [|? ? A F1]; subst. inversion F1 as [|? ? B1 F2]; subst. inversion F2 as [|? ? C F3]; subst.
  destruct B as [B0 B']. unfold bends in B0. rewrite area_nrm in B0.
  pose proof (check_rep _ B0) as RC. rewrite <- calc_nrm in RC.
  pose proof (plane_nrm n k a b c A B1 C) as ZC.
  apply andb_true_iff. split.
  - apply (match_par d (CalcNormal a b c) p (nrm a b c)); auto. apply (along_par n); auto.
  - eapply IH; eauto.
Qed.

Lemma planar_found pts n k : (3 <= length pts)%nat -> ~ dot3 n n == 0 -> in_plane n k pts -> bends_everywhere pts ->
  exists d, hasUniquePlane pts = (true, d) /\ along n d.
Proof.
  intros L N F B. destruct pts as [|a [|b [|c r]]]; cbn [length] in L; try lia.
  inversion F as [|? ? A F1]; subst. inversion F1 as [|? ? B1 F2]; subst. inversion F2 as [|? ? C F3]; subst.
  destruct B as [B0 B']. unfold bends in B0. rewrite area_nrm in B0.
  pose proof (check_rep _ B0) as RC. rewrite <- calc_nrm in RC.
  pose proof (plane_nrm n k a b c A B1 C) as ZC.
  unfold hasUniquePlane. rewrite (plane_matches n k N r b c _ _ RC ZC F1 B').
  eexists. split; [reflexivity|]. destruct (nrm a b c) as [[u v] w] eqn:EN. destruct n as [[x y] z].
  cbn [cross zero3] in ZC. destruct RC as [->|[-> _]]; cbn [along]; exact ZC.
Qed.

(** ** What is called planar keeps to its planes *)

Lemma gram p q e : dot3 q e == 0 -> dot3 p e * dot3 p e * dot3 q q <= (dot3 p p * dot3 q q - dot3 p q * dot3 p q) * dot3 e e.
Proof.
  intros H. set (t := dot3 p (cross q e)).
  assert (E : t * t == dot3 p p * dot3 q q * dot3 e e + 2 * dot3 p q * dot3 q e * dot3 p e
                        - dot3 p p * (dot3 q e * dot3 q e) - dot3 q q * (dot3 p e * dot3 p e) - dot3 e e * (dot3 p q * dot3 p q)).
  { unfold t. destruct p as [[? ?] ?], q as [[? ?] ?], e as [[? ?] ?]. cbn [dot3 cross]. ring. }
  rewrite H in E. assert (0 <= t * t) by (destruct (Qlt_le_dec t 0); nra). lra.
Qed.

Lemma cauchy p e : dot3 p e * dot3 p e <= dot3 p p * dot3 e e.
Proof.
  assert (E : dot3 p p * dot3 e e - dot3 p e * dot3 p e == dot3 (cross p e) (cross p e)).
  { destruct p as [[? ?] ?], e as [[? ?] ?]. cbn [dot3 cross]. ring. }
  pose proof (dot_pos (cross p e)). lra.
Qed.

Lemma nrm_perp b c d : dot3 (nrm b c d) (sub3 d c) == 0.
Proof.
  destruct b as [[? ?] ?], c as [[? ?] ?], d as [[? ?] ?]. unfold nrm. cbn [sub3 cross dot3]. ring.
Qed.

Lemma cancel_le a b m : 0 < m -> a * m <= b * m -> a <= b.
Proof. intros M H. destruct (Qlt_le_dec b a) as [L|L]; [|exact L]. assert (b * m < a * m) by (now apply Qmult_lt_compat_r). lra. Qed.

Lemma match_keeps d e p q s : rep d p -> rep e q -> 0 < dot3 p p -> 0 < dot3 q q -> dot3 q s == 0 -> dir_matches d e = true ->
  dot3 p s * dot3 p s <= (1 # 1000000000000000) * dot3 p p * dot3 s s.
Proof.
  intros Rp Rq PP QQ H E. pose proof (gram p q s H) as G. pose proof (dot_pos s) as SS.
  pose proof (matches_cases d e p q Rp Rq) as M. cbn zeta in M.
  assert (SD : dot3 p s == - dot3 (sub3 q p) s).
  { destruct p as [[? ?] ?], q as [[? ?] ?], s as [[? ?] ?]. cbn [dot3 sub3] in *. lra. }
  pose proof (cauchy (sub3 q p) s) as CS. rewrite (dot_diff p q) in CS.
  set (v := dot3 (sub3 q p) s) in *. set (x := dot3 p s) in *.
  set (pp := dot3 p p) in *. set (qq := dot3 q q) in *. set (pq := dot3 p q) in *. set (ss := dot3 s s) in *.
  clearbody v x pp qq pq ss.
  destruct M as [([A1 A2] & [B1 B2] & M)|[([A1 A2] & M)|[([A1 A2] & M)|M]]]; apply M in E; clear M; unfold close_tol in E.
  - assert (XV : x * x == v * v) by (rewrite SD; ring). rewrite XV.
    apply (Qle_trans _ _ _ CS). apply Qmult_le_compat_r; [|exact SS]. lra.
  - destruct E as [_ E]. unfold Qdiv in E. change (/ 2) with (1 # 2) in E.
    apply (cancel_le _ _ qq QQ). apply (Qle_trans _ _ _ G).
    setoid_replace ((1 # 1000000000000000) * pp * ss * qq) with ((1 # 1000000000000000) * pp * qq * ss) by ring.
    apply Qmult_le_compat_r; [|exact SS].
    assert (K : 0 <= ((1 # 1000000000000000) * pp - pp + ((pp + 1 - (30001 # 100000000000000000000)) * (1 # 2)) * ((pp + 1 - (30001 # 100000000000000000000)) * (1 # 2)))).
    { assert (0 <= (pp - 1) * (pp - 1)) by (destruct (Qlt_le_dec pp 1); nra). lra. }
    assert (0 <= ((1 # 1000000000000000) * pp - pp + ((pp + 1 - (30001 # 100000000000000000000)) * (1 # 2)) * ((pp + 1 - (30001 # 100000000000000000000)) * (1 # 2))) * qq)
      by (apply Qmult_le_0_compat; lra). lra.
  - destruct E as [_ E]. unfold Qdiv in E. change (/ 2) with (1 # 2) in E.
    apply (cancel_le _ _ qq QQ). apply (Qle_trans _ _ _ G).
    setoid_replace ((1 # 1000000000000000) * pp * ss * qq) with ((1 # 1000000000000000) * pp * qq * ss) by ring.
    apply Qmult_le_compat_r; [|exact SS].
    assert (K : 0 <= ((1 # 1000000000000000) * qq - qq + ((qq + 1 - (30001 # 100000000000000000000)) * (1 # 2)) * ((qq + 1 - (30001 # 100000000000000000000)) * (1 # 2)))).
    { assert (0 <= (qq - 1) * (qq - 1)) by (destruct (Qlt_le_dec qq 1); nra). lra. }
    assert (0 <= ((1 # 1000000000000000) * qq - qq + ((qq + 1 - (30001 # 100000000000000000000)) * (1 # 2)) * ((qq + 1 - (30001 # 100000000000000000000)) * (1 # 2))) * pp)
      by (apply Qmult_le_0_compat; lra). lra.
  - destruct E as [_ E]. unfold Qdiv in E. change (/ 2) with (1 # 2) in E.
    apply (cancel_le _ _ qq QQ). apply (Qle_trans _ _ _ G).
    setoid_replace ((1 # 1000000000000000) * pp * ss * qq) with ((1 # 1000000000000000) * pp * qq * ss) by ring.
    apply Qmult_le_compat_r; [|exact SS].
    assert (0 <= pp * qq) by (apply Qmult_le_0_compat; lra). 
    set (m := pp * qq) in *. setoid_replace ((1 # 1000000000000000) * pp * qq) with ((1 # 1000000000000000) * m) by (unfold m; ring).
    clearbody m. lra.
Qed.

Lemma rep_pos a b c : bends a b c -> rep (CalcNormal a b c) (nrm a b c) /\ 0 < dot3 (nrm a b c) (nrm a b c).
Proof.
  unfold bends. rewrite area_nrm. intros H. split; [rewrite calc_nrm; now apply check_rep|]. lra.
Qed.

Lemma planar_keeps_gen : forall l a b c, bends_everywhere (a :: b :: c :: l) -> same_normals (CalcNormal a b c) b c l = true ->
  keeps_to_planes (a :: b :: c :: l).
Proof.
  induction l as [|d l IH]; intros a b c B S; [exact Logic.I|]. cbn [same_normals] in S. apply andb_true_iff in S. destruct S as [M S].
  destruct B as [B0 B']. pose proof B' as [B1 _]. cbn [keeps_to_planes]. split; [|apply (IH b c d); auto].
  destruct (rep_pos _ _ _ B0) as [R0 P0]. destruct (rep_pos _ _ _ B1) as [R1 P1].
  rewrite volume_nrm, area_nrm. apply orb_true_iff in M. destruct M as [M|M].
  - apply (match_keeps _ _ _ (nrm b c d) _ R0 R1); auto. apply nrm_perp.
  - apply (match_keeps _ _ _ (neg3 (nrm b c d)) _ R0 (rep_flip _ _ R1)); auto.
    + now rewrite dot_neg2.
    + rewrite dot_comm, dot_neg, dot_comm, nrm_perp. reflexivity.
Qed.

Lemma planar_keeps pts n : bends_everywhere pts -> hasUniquePlane pts = (true, n) -> keeps_to_planes pts.
Proof.
  destruct pts as [|a [|b [|c r]]]; try discriminate. intros B. unfold hasUniquePlane.
  destruct (same_normals _ b c r) eqn:S; [|discriminate]. intros _. now apply planar_keeps_gen.
Qed.

Lemma not_planar pts n : hasUniquePlane pts = (false, n) -> n = Exact 0 0 1.
Proof.
  destruct pts as [|a [|b [|c r]]]; cbn [hasUniquePlane]; try (intros H; injection H as <-; reflexivity).
  destruct (same_normals _ b c r); [discriminate|]. intros H. injection H as <-. reflexivity.
Qed.

Lemma short_not_planar pts : (length pts < 3)%nat -> hasUniquePlane pts = (false, Exact 0 0 1).
Proof. intros H. destruct pts as [|a [|b [|c r]]]; try reflexivity. cbn in H. lia. Qed.

(** ** Where it goes wrong *)

(** Three points in a row and a corner, in the plane x = 0. *)
Definition corner : list point := [(0, 0, 0); (0, 1, 0); (0, 2, 0); (0, 2, 1)].

Lemma corner_missed : coplanar corner /\ NoDup corner /\ hasUniquePlane corner = (false, Exact 0 0 1).
Proof.
  split; [|split].
  - exists (1, 0, 0), 0. split; [discriminate|]. unfold in_plane, corner. repeat (constructor; [reflexivity|]). constructor.
  - unfold corner. repeat constructor; cbn; intros X; repeat (destruct X as [X|X]; [discriminate X|]); exact X.
  - reflexivity.
Qed.

(** A point above the plane of the rest, next to a point given twice. *)
Definition kink : list point := [(0, 0, 5); (1, 0, 0); (1, 0, 0); (1, 1, 0); (2, 3, 0)].

Lemma kink_taken : ~ coplanar kink /\ hasUniquePlane kink = (true, Exact 0 0 1).
Proof.
  split; [|reflexivity]. intros ([[x y] z] & d & N & F). unfold in_plane, kink in F.
  repeat match goal with H : Forall _ (_ :: _) |- _ => inversion H; clear H; subst end.
  cbn [dot3] in *. apply N. assert (y == 0) by lra. assert (x == 0) by lra. assert (z == 0) by lra. nra.
Qed.
