(** Squares which overlap: merging, cutting out, and a cut which goes wrong. *)

From Coq Require Import Reals List Bool Arith ZArith Lra Lia.
From Verif Require Import SegModel SegSpec SegTrig SegFacts SegBox SegSplit SegProps CutModel CutSpec CutCases OutModel OutSpec OutFacts OutBox OutArea OutDraw OutInside OutCases OutPoly OutCut OvlModel OvlSpec OvlFacts OvlJoin OvlOps OvlAdd.
Import ListNotations.
Open Scope R_scope.

(** ** Lines along the axes *)

Definition ln (a b c d : R) : seg := line_of (at2 a b) (at2 c d).
Definition small (x : R) : Prop := -100 <= x <= 100.
(* [c] well between [a] and [b], or well beyond both *)
Definition amid (a b c : R) : Prop := (a + 1/2 <= c <= b - 1/2) \/ (b + 1/2 <= c <= a - 1/2).
Definition beyond (a b c : R) : Prop := (c <= a - 1/2 /\ c <= b - 1/2) \/ (a + 1/2 <= c /\ b + 1/2 <= c).

Lemma pm_same p : point_matches p p e8 = true.
Proof. apply point_matches_spec, one_point_refl. Qed.
Lemma far_apart a b c d : small a -> small b -> small c -> small d -> (a <= c - 1/2 \/ c <= a - 1/2) \/ (b <= d - 1/2 \/ d <= b - 1/2) -> ~ one_point (at2 a b) (at2 c d) e8.
Proof.
  unfold small. intros A B C D [H|H]; [apply apart_x|apply apart_y]; try reflexivity; try (apply not_far; lra); cbn [px py at2]; destruct H; [rewrite Rabs_left1 by lra|rewrite Rabs_right by lra|rewrite Rabs_left1 by lra|rewrite Rabs_right by lra]; lra.
Qed.
Lemma pm_diff a b c d : small a -> small b -> small c -> small d -> (a <= c - 1/2 \/ c <= a - 1/2) \/ (b <= d - 1/2 \/ d <= b - 1/2) -> point_matches (at2 a b) (at2 c d) e8 = false.
Proof. intros A B C D H. apply point_matches_not. now apply far_apart. Qed.

Lemma amid_ratio a b c : small a -> small b -> amid a b c -> 1/400 <= (c - a) / (b - a) <= 399/400 /\ b - a <> 0 /\ 1 <= Rabs (b - a) <= 200.
Proof.
  unfold small, amid. intros A B H. assert (N : b - a <> 0) by lra. destruct H as [H|H].
  - assert (P : 0 < b - a) by lra. rewrite Rabs_right by lra. split; [|split; [exact N|lra]]. split; [apply Rmult_le_reg_r with (b - a); [exact P|]|apply Rmult_le_reg_r with (b - a); [exact P|]]; unfold Rdiv at 2; try (unfold Rdiv at 1); 
    replace ((c - a) * / (b - a) * (b - a)) with (c - a) by (field; exact N); lra.
  - assert (P : 0 < a - b) by lra. rewrite Rabs_left by lra. split; [|split; [exact N|lra]]. replace ((c - a) / (b - a)) with ((a - c) / (a - b)) by (field; lra).
    split; [apply Rmult_le_reg_r with (a - b); [exact P|]|apply Rmult_le_reg_r with (a - b); [exact P|]]; replace ((a - c) / (a - b) * (a - b)) with (a - c) by (field; lra); lra.
Qed.
Lemma beyond_ratio a b c : small a -> small b -> 1 <= Rabs (b - a) -> beyond a b c -> (c - a) / (b - a) <= - 1/400 \/ 401/400 <= (c - a) / (b - a).
Proof.
  unfold small, beyond. intros A B L H. assert (N : b - a <> 0) by (intros E; rewrite E, Rabs_R0 in L; lra).
  assert (K : b - a < 0 \/ 0 < b - a) by lra. assert (M : (c - a) / (b - a) * (b - a) = c - a) by (field; exact N).
  destruct H as [H|H]; destruct K as [K|K]; [right|left|left|right]; nra.
Qed.

(* a standing line with a lying one, and the other way round *)
Lemma stand_lie c y0 y1 x0 x1 d : small y0 -> small y1 -> small x0 -> small x1 -> amid x0 x1 c -> amid y0 y1 d -> intersections (ln c y0 c y1) (ln x0 d x1 d) = found [at2 c d] INone.
Proof.
  intros Y0 Y1 X0 X1 Ax Ay. destruct (amid_ratio _ _ _ X0 X1 Ax) as (Rx & Nx & Lx). destruct (amid_ratio _ _ _ Y0 Y1 Ay) as (Ry & Ny & Ly).
  unfold intersections, ln, line_of. cbn [s_ty]. unfold check_lines, get_start, get_end. cbv zeta. cbn [s_start s_end s_cw px py pz at2].
  replace (c - c) with 0 by ring. replace (d - d) with 0 by ring.
  assert (Dn : 1 <= Rabs ((x1 - x0) * (y1 - y0) - 0 * 0)) by (rewrite Rmult_0_l, Rminus_0_r, Rabs_mult; nra).
  rewrite (ltb_f (Rabs ((x1 - x0) * (y1 - y0) - 0 * 0)) e6) by (unfold e6; lra).
  replace ((0 * (d - y0) - (y1 - y0) * (x0 - c)) / ((x1 - x0) * (y1 - y0) - 0 * 0)) with ((c - x0) / (x1 - x0)) by (field; split; assumption).
  rewrite (ltb_t (Rabs 0) (Rabs (y1 - y0))) by (rewrite Rabs_R0; lra).
  replace (((c - x0) / (x1 - x0) * 0 + d - y0) / (y1 - y0)) with ((d - y0) / (y1 - y0)) by (field; split; assumption).
  set (t := (c - x0) / (x1 - x0)) in *. set (u := (d - y0) / (y1 - y0)) in *. unfold e8.
  rewrite !ltb_t by lra. cbn [andb]. assert (Q : forall r, 1/400 <= r <= 399/400 -> ltb (Rabs r) (1 / 10^8) = false /\ ltb (Rabs (r - 1)) (1 / 10^8) = false).
  { intros r Hr. split; apply ltb_f; [rewrite Rabs_right by lra|rewrite Rabs_left by lra]; lra. }
  destruct (Q t Rx) as (-> & ->). destruct (Q u Ry) as (-> & ->). cbn [orb]. unfold at2. do 2 f_equal.
  replace (t * (x1 - x0) + x0) with c by (unfold t; field; exact Nx). replace (t * 0 + d) with d by ring. reflexivity.
Qed.
Lemma lie_stand c y0 y1 x0 x1 d : small y0 -> small y1 -> small x0 -> small x1 -> amid x0 x1 c -> amid y0 y1 d -> intersections (ln x0 d x1 d) (ln c y0 c y1) = found [at2 c d] INone.
Proof.
  intros Y0 Y1 X0 X1 Ax Ay. destruct (amid_ratio _ _ _ X0 X1 Ax) as (Rx & Nx & Lx). destruct (amid_ratio _ _ _ Y0 Y1 Ay) as (Ry & Ny & Ly).
  unfold intersections, ln, line_of. cbn [s_ty]. unfold check_lines, get_start, get_end. cbv zeta. cbn [s_start s_end s_cw px py pz at2].
  replace (c - c) with 0 by ring. replace (d - d) with 0 by ring.
  assert (Dn : 1 <= Rabs (0 * 0 - (y1 - y0) * (x1 - x0))) by (rewrite Rmult_0_l, Rminus_0_l, Rabs_Ropp, Rabs_mult; nra).
  rewrite (ltb_f (Rabs (0 * 0 - (y1 - y0) * (x1 - x0))) e6) by (unfold e6; lra).
  replace (((x1 - x0) * (y0 - d) - 0 * (c - x0)) / (0 * 0 - (y1 - y0) * (x1 - x0))) with ((d - y0) / (y1 - y0)) by (field; split; assumption).
  rewrite (ltb_f (Rabs (x1 - x0)) (Rabs 0)) by (rewrite Rabs_R0; lra).
  replace (((d - y0) / (y1 - y0) * 0 + c - x0) / (x1 - x0)) with ((c - x0) / (x1 - x0)) by (field; split; assumption).
  set (t := (c - x0) / (x1 - x0)) in *. set (u := (d - y0) / (y1 - y0)) in *. unfold e8.
  rewrite !ltb_t by lra. cbn [andb]. assert (Q : forall r, 1/400 <= r <= 399/400 -> ltb (Rabs r) (1 / 10^8) = false /\ ltb (Rabs (r - 1)) (1 / 10^8) = false).
  { intros r Hr. split; apply ltb_f; [rewrite Rabs_right by lra|rewrite Rabs_left by lra]; lra. }
  destruct (Q t Rx) as (-> & ->). destruct (Q u Ry) as (-> & ->). cbn [orb]. unfold at2. do 2 f_equal.
  replace (u * (y1 - y0) + y0) with d by (unfold u; field; exact Ny). replace (u * 0 + c) with c by ring. reflexivity.
Qed.

(* they miss *)
Definition long (a b : R) : Prop := a <= b - 1 \/ b <= a - 1.
Lemma long_abs a b : long a b -> 1 <= Rabs (b - a).
Proof. intros [H|H]; [rewrite Rabs_right by lra|rewrite Rabs_left by lra]; lra. Qed.

Lemma stand_lie_miss c y0 y1 x0 x1 d : small y0 -> small y1 -> small x0 -> small x1 -> long x0 x1 -> long y0 y1 -> beyond x0 x1 c \/ beyond y0 y1 d -> intersections (ln c y0 c y1) (ln x0 d x1 d) = nothing INone.
Proof.
  intros Y0 Y1 X0 X1 Lx Ly H. apply long_abs in Lx, Ly.
  assert (Nx : x1 - x0 <> 0) by (intros E; rewrite E, Rabs_R0 in Lx; lra). assert (Ny : y1 - y0 <> 0) by (intros E; rewrite E, Rabs_R0 in Ly; lra).
  unfold intersections, ln, line_of. cbn [s_ty]. unfold check_lines, get_start, get_end. cbv zeta. cbn [s_start s_end s_cw px py pz at2].
  replace (c - c) with 0 by ring. replace (d - d) with 0 by ring.
  assert (Dn : 1 <= Rabs ((x1 - x0) * (y1 - y0) - 0 * 0)) by (rewrite Rmult_0_l, Rminus_0_r, Rabs_mult; nra).
  rewrite (ltb_f (Rabs ((x1 - x0) * (y1 - y0) - 0 * 0)) e6) by (unfold e6; lra).
  replace ((0 * (d - y0) - (y1 - y0) * (x0 - c)) / ((x1 - x0) * (y1 - y0) - 0 * 0)) with ((c - x0) / (x1 - x0)) by (field; split; assumption).
  rewrite (ltb_t (Rabs 0) (Rabs (y1 - y0))) by (rewrite Rabs_R0; lra).
  replace (((c - x0) / (x1 - x0) * 0 + d - y0) / (y1 - y0)) with ((d - y0) / (y1 - y0)) by (field; split; assumption).
  assert (Q : forall r, r <= - 1/400 \/ 401/400 <= r -> ltb (- e8) r && ltb r (1 + e8) = false).
  { intros r [K|K]; [rewrite (ltb_f (- e8) r)|rewrite (ltb_f r (1 + e8)), Bool.andb_false_r]; try reflexivity; unfold e8; lra. }
  destruct H as [H|H]; [pose proof (Q _ (beyond_ratio _ _ _ X0 X1 Lx H)) as E; rewrite E|pose proof (Q _ (beyond_ratio _ _ _ Y0 Y1 Ly H)) as E; rewrite <- (Bool.andb_assoc _ _ (ltb ((d - y0) / (y1 - y0)) (1 + e8))), E, Bool.andb_false_r]; reflexivity.
Qed.
Lemma lie_stand_miss c y0 y1 x0 x1 d : small y0 -> small y1 -> small x0 -> small x1 -> long x0 x1 -> long y0 y1 -> beyond x0 x1 c \/ beyond y0 y1 d -> intersections (ln x0 d x1 d) (ln c y0 c y1) = nothing INone.
Proof.
  intros Y0 Y1 X0 X1 Lx Ly H. apply long_abs in Lx, Ly.
  assert (Nx : x1 - x0 <> 0) by (intros E; rewrite E, Rabs_R0 in Lx; lra). assert (Ny : y1 - y0 <> 0) by (intros E; rewrite E, Rabs_R0 in Ly; lra).
  unfold intersections, ln, line_of. cbn [s_ty]. unfold check_lines, get_start, get_end. cbv zeta. cbn [s_start s_end s_cw px py pz at2].
  replace (c - c) with 0 by ring. replace (d - d) with 0 by ring.
  assert (Dn : 1 <= Rabs (0 * 0 - (y1 - y0) * (x1 - x0))) by (rewrite Rmult_0_l, Rminus_0_l, Rabs_Ropp, Rabs_mult; nra).
  rewrite (ltb_f (Rabs (0 * 0 - (y1 - y0) * (x1 - x0))) e6) by (unfold e6; lra).
  replace (((x1 - x0) * (y0 - d) - 0 * (c - x0)) / (0 * 0 - (y1 - y0) * (x1 - x0))) with ((d - y0) / (y1 - y0)) by (field; split; assumption).
  rewrite (ltb_f (Rabs (x1 - x0)) (Rabs 0)) by (rewrite Rabs_R0; lra).
  replace (((d - y0) / (y1 - y0) * 0 + c - x0) / (x1 - x0)) with ((c - x0) / (x1 - x0)) by (field; split; assumption).
  assert (Q : forall r, r <= - 1/400 \/ 401/400 <= r -> ltb (- e8) r && ltb r (1 + e8) = false).
  { intros r [K|K]; [rewrite (ltb_f (- e8) r)|rewrite (ltb_f r (1 + e8)), Bool.andb_false_r]; try reflexivity; unfold e8; lra. }
  destruct H as [H|H]; [pose proof (Q _ (beyond_ratio _ _ _ X0 X1 Lx H)) as E; rewrite <- (Bool.andb_assoc _ _ (ltb ((c - x0) / (x1 - x0)) (1 + e8))), E, Bool.andb_false_r|pose proof (Q _ (beyond_ratio _ _ _ Y0 Y1 Ly H)) as E; rewrite E]; reflexivity.
Qed.
Lemma two_lie x0 x1 d x2 x3 e : long x0 x1 -> d <= e - 1/2 \/ e <= d - 1/2 -> intersections (ln x0 d x1 d) (ln x2 e x3 e) = nothing INone.
Proof.
  intros L H. apply long_abs in L. unfold intersections, ln, line_of. cbn [s_ty]. unfold check_lines, get_start, get_end. cbv zeta. cbn [s_start s_end s_cw px py pz at2].
  replace (e - e) with 0 by ring. replace (d - d) with 0 by ring. rewrite (ltb_t (Rabs ((x3 - x2) * 0 - 0 * (x1 - x0))) e6) by (replace ((x3 - x2) * 0 - 0 * (x1 - x0)) with 0 by ring; rewrite Rabs_R0; unfold e6; lra).
  rewrite ltb_t; [reflexivity|]. replace ((x1 - x0) * (e - d) - 0 * (x2 - x0)) with ((x1 - x0) * (e - d)) by ring. rewrite Rabs_mult.
  assert (K : 1/2 <= Rabs (e - d)) by (destruct H; [rewrite Rabs_right by lra|rewrite Rabs_left by lra]; lra). unfold e6. nra.
Qed.
Lemma two_stand y0 y1 c y2 y3 e : long y0 y1 -> c <= e - 1/2 \/ e <= c - 1/2 -> intersections (ln c y0 c y1) (ln e y2 e y3) = nothing INone.
Proof.
  intros L H. apply long_abs in L. unfold intersections, ln, line_of. cbn [s_ty]. unfold check_lines, get_start, get_end. cbv zeta. cbn [s_start s_end s_cw px py pz at2].
  replace (e - e) with 0 by ring. replace (c - c) with 0 by ring. rewrite (ltb_t (Rabs (0 * (y1 - y0) - (y3 - y2) * 0)) e6) by (replace (0 * (y1 - y0) - (y3 - y2) * 0) with 0 by ring; rewrite Rabs_R0; unfold e6; lra).
  rewrite ltb_t; [reflexivity|]. replace (0 * (y2 - y0) - (y1 - y0) * (e - c)) with (- ((y1 - y0) * (e - c))) by ring. rewrite Rabs_Ropp, Rabs_mult.
  assert (K : 1/2 <= Rabs (e - c)) by (destruct H; [rewrite Rabs_right by lra|rewrite Rabs_left by lra]; lra). unfold e6. nra.
Qed.

(* cut in two *)
Lemma cut_stand c y0 y1 y : small c -> small y0 -> small y1 -> amid y0 y1 y -> split (ln c y0 c y1) [at2 c y] = (true, ([at2 c y], (ln c y0 c y, [ln c y c y1]))).
Proof.
  intros C Y0 Y1 A. destruct (amid_ratio _ _ _ Y0 Y1 A) as (Ry & Ny & Ly). assert (Y : small y) by (unfold small, amid in *; lra).
  unfold split, ln, line_of. cbn [s_ty length filter s_start s_end]. rewrite (pm_diff c y c y0), (pm_diff c y c y1) by (try assumption; unfold amid in A; lra). cbn [orb negb].
  unfold split_line, line_param, with_end, set_line. cbn [s_start s_end px py pz at2 s_ty s_rad s_sang s_eang s_cw s_cen]. replace (c - c) with 0 by ring.
  rewrite (ltb_t (Rabs 0) (Rabs (y1 - y0))) by (rewrite Rabs_R0; lra). replace ((- y0 + y) * (1 / (y1 - y0))) with ((y - y0) / (y1 - y0)) by (field; exact Ny).
  rewrite (ltb_f ((y - y0) / (y1 - y0)) 0), (ltb_f 1 ((y - y0) / (y1 - y0))) by lra. cbn [orb]. rewrite (ltb_f e8) by (replace ((y - y0) / (y1 - y0) * 0 + c - c) with 0 by ring; rewrite Rabs_R0; unfold e8; lra).
  fold (at2 c y). fold (at2 c y1). rewrite (pm_diff c y c y1) by (try assumption; unfold amid in A; lra).
  unfold eqb. destruct (Req_EM_T 0 0) as [_|N]; [|now elim N]. reflexivity.
Qed.
Lemma cut_lie d x0 x1 x : small d -> small x0 -> small x1 -> amid x0 x1 x -> split (ln x0 d x1 d) [at2 x d] = (true, ([at2 x d], (ln x0 d x d, [ln x d x1 d]))).
Proof.
  intros C X0 X1 A. destruct (amid_ratio _ _ _ X0 X1 A) as (Rx & Nx & Lx). assert (X : small x) by (unfold small, amid in *; lra).
  unfold split, ln, line_of. cbn [s_ty length filter s_start s_end]. rewrite (pm_diff x d x0 d), (pm_diff x d x1 d) by (try assumption; unfold amid in A; lra). cbn [orb negb].
  unfold split_line, line_param, with_end, set_line. cbn [s_start s_end px py pz at2 s_ty s_rad s_sang s_eang s_cw s_cen]. replace (d - d) with 0 by ring.
  rewrite (ltb_f (Rabs (x1 - x0)) (Rabs 0)) by (rewrite Rabs_R0; lra). replace ((- x0 + x) * (1 / (x1 - x0))) with ((x - x0) / (x1 - x0)) by (field; exact Nx).
  rewrite (ltb_f ((x - x0) / (x1 - x0)) 0), (ltb_f 1 ((x - x0) / (x1 - x0))) by lra. cbn [orb]. rewrite (ltb_f e8) by (replace ((x - x0) / (x1 - x0) * 0 + d - d) with 0 by ring; rewrite Rabs_R0; unfold e8; lra).
  fold (at2 x d). fold (at2 x1 d). rewrite (pm_diff x d x1 d) by (try assumption; unfold amid in A; lra).
  unfold eqb. destruct (Req_EM_T 0 0) as [_|N]; [|now elim N]. reflexivity.
Qed.

(* which side of a point they pass *)
Definition off (a b : R) : Prop := a <= b - 1/2 \/ b <= a - 1/2.
Lemma off_abs a b : off a b -> 1/2 <= Rabs (a - b).
Proof. intros [H|H]; [rewrite Rabs_left1 by lra|rewrite Rabs_right by lra]; lra. Qed.
Lemma clear_stand a b x c y0 y1 : 1 <= Rabs (x - a) <= 1000 -> small y0 -> small y1 -> long y0 y1 -> (y0 = b \/ off y0 b) -> (y1 = b \/ off y1 b) -> off c a -> clear_of (at2 a b) x (ln c y0 c y1).
Proof.
  intros X Y0 Y1 L E0 E1 C. apply long_abs in L. apply off_abs in C. unfold clear_of, ln, line_of. cbn [s_start s_end px py at2].
  assert (U : Rabs (y1 - y0) <= 200) by (unfold small in *; apply Rabs_le; lra). split; [|split].
  - intros v [->| ->]; cbn [py at2]; [destruct E0 as [->|O]|destruct E1 as [->|O]]; try (now left); right; apply off_abs in O; unfold e8; split; lra.
  - left. unfold e6. nra.
  - intros q (t & Ht & Q1 & Q2) _. cbn in Q1. assert (E : px q = c) by lra. rewrite E. split; [unfold e8; lra|]. intros K. rewrite K in C. replace (a - a) with 0 in C by ring. rewrite Rabs_R0 in C. lra.
Qed.
Lemma clear_lie a b x d x0 x1 : long x0 x1 -> off d b -> clear_of (at2 a b) x (ln x0 d x1 d).
Proof.
  intros L O. apply long_abs in L. apply off_abs in O. unfold clear_of, ln, line_of. cbn [s_start s_end px py at2]. split; [|split].
  - intros v [->| ->]; cbn [py at2]; right; unfold e8; replace (d - d) with 0 by ring; rewrite Rabs_R0; lra.
  - right. split; [reflexivity|]. unfold e6. nra.
  - intros q (t & Ht & Q1 & Q2) E. cbn in Q2, E. exfalso. assert (K : d - b = 0) by lra. rewrite K, Rabs_R0 in O. lra.
Qed.
Lemma right_stand a b c y0 y1 : (y0 < b <= y1 \/ y1 < b <= y0) -> a < c -> passes_right (at2 a b) (ln c y0 c y1).
Proof. intros H L. split; [exact H|]. intros q (t & _ & Q & _) _. cbn in *. lra. Qed.
Lemma not_right_side a b c y0 y1 : (exists t, 0 <= t <= 1 /\ b = y0 + t * (y1 - y0)) -> c < a -> ~ passes_right (at2 a b) (ln c y0 c y1).
Proof. intros (t & Ht & E) L (_ & H). specialize (H (at2 c b)). cbn [px py at2] in H. assert (a < c); [|lra]. apply H; [|reflexivity]. exists t. cbn. repeat split; lra. Qed.
Lemma not_right_level p s : ~ reaches (py p) s -> ~ passes_right p s.
Proof. intros N (H & _). contradiction. Qed.

(** ** Squares *)

Definition square (a b : R) : list seg := [ln a b (a + 10) b; ln (a + 10) b (a + 10) (b + 10); ln (a + 10) (b + 10) a (b + 10); ln a (b + 10) a b].

Lemma line_made a b c d : small a -> small b -> small c -> small d -> off a c \/ off b d -> line_in_order (ln a b c d).
Proof.
  intros A B C D H. unfold small in *. apply line_is_made; try lra. destruct H as [H|H]; [left|right]; apply off_abs in H; unfold e8; lra.
Qed.

Lemma square_drawn a b : -50 <= a <= 50 -> -50 <= b <= 50 -> exists o, draw (square a b) = Some (yes, o) /\ built made o /\ o_closed o = true /\ o_segs o = square a b /\
  a - 2 <= px (o_bl o) <= a + e8 /\ a + 10 - e8 <= px (o_tr o) <= a + 20.
Proof.
  intros A B. assert (Ord : forall s, In s (square a b) -> line_in_order s).
  { intros s [<-|[<-|[<-|[<-|[]]]]]; apply line_made; unfold small, off; try lra. }
  assert (In_box : forall s p, In s (square a b) -> covers s p -> a <= px p <= a + 10 /\ b <= py p <= b + 10).
  { intros s p [<-|[<-|[<-|[<-|[]]]]] (t & Ht & X & Y); cbn in X, Y; split; lra. }
  destruct (draw_ring [ln a b (a + 10) b; ln (a + 10) b (a + 10) (b + 10); ln (a + 10) (b + 10) a (b + 10)] (ln a (b + 10) a b)) as (bl & tr & D).
  - discriminate.
  - repeat (apply Forall_cons; [now left|]). apply Forall_nil.
  - split; [|apply one_point_refl]. cbn [app chain]. repeat split; apply one_point_refl.
  - intros f m s n E. injection E as <- E2. assert (X : In s [ln (a + 10) b (a + 10) (b + 10); ln (a + 10) (b + 10) a (b + 10)]) by (rewrite E2; apply in_or_app; right; now left).
    destruct X as [<-|[<-|[]]]; apply far_apart; unfold small; lra.
  - intros t I. left. now apply Ord.
  - intros t p I C. destruct (In_box t p I C). unfold near_home. lra.
  - change ([ln a b (a + 10) b; ln (a + 10) b (a + 10) (b + 10); ln (a + 10) (b + 10) a (b + 10)] ++ [ln a (b + 10) a b]) with (square a b) in D.
    assert (W : total wind_of (square a b) = - 200) by (unfold total, square, wind_of, ln, line_of; cbn; ring).
    unfold oriented in D. rewrite W, ltb_f in D by lra. eexists. split; [exact D|].
    assert (Bu : built made (mkOut (square a b) true (-200) true bl tr)) by (apply (draw_built made (square a b) yes); [intros s I; left; now apply Ord|exact D]).
    split; [exact Bu|]. split; [reflexivity|]. split; [reflexivity|]. cbn [o_bl o_tr].
    assert (C1 : covers (ln a b (a + 10) b) (at2 a b)) by (exists 0; cbn; lra). assert (C2 : covers (ln a b (a + 10) b) (at2 (a + 10) b)) by (exists 1; cbn; lra).
    destruct (built_in_box _ _ _ Bu (or_introl eq_refl : In (ln a b (a + 10) b) (o_segs (mkOut (square a b) true (-200) true bl tr))) C1) as (Q1 & _).
    destruct (built_in_box _ _ _ Bu (or_introl eq_refl : In (ln a b (a + 10) b) (o_segs (mkOut (square a b) true (-200) true bl tr))) C2) as (Q2 & _). cbn [o_bl o_tr px at2] in Q1, Q2.
    destruct (built_tight _ Bu eq_refl) as ((s & q & I & Cq & T) & _ & (w & (s1 & s2 & q1 & q2 & J1 & J2 & K1 & K2 & Wq) & Tw)). cbn [o_segs o_bl o_tr] in *.
    pose proof (In_box s q I Cq). pose proof (In_box s1 q1 J1 K1). pose proof (In_box s2 q2 J2 K2). pose proof e8_small. pose proof e8_pos. destruct Wq; lra.
Qed.

(* whether a point is inside an outline of lines, all well away from it *)
Lemma lines_in o a b n : (forall s, In s (o_segs o) -> line_in_order s) -> o_closed o = true -> exact_ring (o_segs o) -> 
  (forall s q, In s (o_segs o) -> covers s q -> px (o_bl o) - e8 <= px q <= px (o_tr o) + e8) ->
  (forall s, In s (o_segs o) -> small (px (s_start s)) /\ small (py (s_start s)) /\ small (px (s_end s)) /\ small (py (s_end s))) ->
  small a -> small b -> -100 <= px (o_bl o) <= 100 -> -100 <= px (o_tr o) <= 100 -> px (o_bl o) <= a + 4 -> a - 4 <= px (o_tr o) ->
  (forall x s, 1 <= Rabs (x - a) <= 1000 -> In s (o_segs o) -> clear_of (at2 a b) x s) ->
  counted (passes_right (at2 a b)) (o_segs o) n -> is_inside o (at2 a b) false = (Nat.odd n, false).
Proof.
  intros Mo Co Ro Bx Ho A B Hbl Htr La Lb Cl N. destruct (line_end_exists o (at2 a b)) as (x & X & _). unfold small in *.
  assert (Ax : 1 <= Rabs (x - a) <= 1000). { destruct X as [(_ & ->)|(_ & ->)]; [rewrite Rabs_left by lra|rewrite Rabs_right by lra]; lra. }
  destruct (lines_inside o (at2 a b) x false Mo Co Ro Bx) as (n' & m & N1 & _ & _ & E).
  - intros s I. destruct (Ho s I) as (H1 & H2 & H3 & H4). unfold at_home. repeat split; lra.
  - reflexivity.
  - unfold at_home. cbn [px py at2]. repeat split; lra.
  - exact X.
  - apply Ax.
  - cbn [px at2]. lra.
  - intros s I. now apply Cl.
  - rewrite E. f_equal. f_equal. clear - N N1. revert n' N1. induction N as [|s l n P N IH|s l n P N IH]; intros n' N1; inversion N1; subst; try reflexivity; try contradiction; auto.
Qed.

Ltac num := unfold small, amid, beyond, long, off; lra.
Ltac meet := match goal with |- context [intersections (ln ?a ?b ?c ?d) (ln ?e ?f ?g ?h)] =>
  first [rewrite (stand_lie a b d e g f) by num | rewrite (lie_stand e f h a c b) by num | rewrite (stand_lie_miss a b d e g f) by num
        | rewrite (lie_stand_miss e f h a c b) by num | rewrite (two_lie a c b e g f) by num | rewrite (two_stand b d a f h e) by num] end.
Ltac match_pts := match goal with
  | |- context [point_matches ?p ?p e8] => rewrite (pm_same p)
  | |- context [point_matches (at2 ?a ?b) (at2 ?c ?d) e8] => rewrite (pm_diff a b c d) by num
  end.

Definition board_at : list seg := [ln 0 0 10 0; ln 10 0 10 10; ln 10 10 0 10; ln 0 10 0 0].
Definition upper_at : list seg := [ln 5 5 15 5; ln 15 5 15 15; ln 15 15 5 15; ln 5 15 5 5].
Definition lower_at : list seg := [ln (-5) (-5) 5 (-5); ln 5 (-5) 5 5; ln 5 5 (-5) 5; ln (-5) 5 (-5) (-5)].
Lemma square_0 : square 0 0 = board_at.
Proof. unfold square, board_at. replace (0 + 10) with 10 by ring. reflexivity. Qed.
Lemma square_5 : square 5 5 = upper_at.
Proof. unfold square, upper_at. replace (5 + 10) with 15 by ring. reflexivity. Qed.
Lemma square_m5 : square (-5) (-5) = lower_at.
Proof. unfold square, lower_at. replace (-5 + 10) with 5 by ring. reflexivity. Qed.

(* the two meetings of each pair *)
Lemma upper_meets sub : meet_all 0 board_at upper_at sub = inr [(at2 10 5, (1%nat, 0%nat)); (at2 5 10, (2%nat, 3%nat))].
Proof. unfold board_at, upper_at. cbn [meet_all meet_one]. repeat (meet; cbn [found nothing app map]). reflexivity. Qed.
Lemma lower_meets sub : meet_all 0 board_at lower_at sub = inr [(at2 5 0, (0%nat, 1%nat)); (at2 0 5, (3%nat, 2%nat))].
Proof. unfold board_at, lower_at. cbn [meet_all meet_one]. repeat (meet; cbn [found nothing app map]). reflexivity. Qed.

Definition board_up : list seg := [ln 0 0 10 0; ln 10 0 10 5; ln 10 5 10 10; ln 10 10 5 10; ln 5 10 0 10; ln 0 10 0 0].
Definition upper_cut : list seg := [ln 5 5 10 5; ln 10 5 15 5; ln 15 5 15 15; ln 15 15 5 15; ln 5 15 5 10; ln 5 10 5 5].
Definition board_low : list seg := [ln 0 0 5 0; ln 5 0 10 0; ln 10 0 10 10; ln 10 10 0 10; ln 0 10 0 5; ln 0 5 0 0].
Definition lower_cut : list seg := [ln (-5) (-5) 5 (-5); ln 5 (-5) 5 0; ln 5 0 5 5; ln 5 5 0 5; ln 0 5 (-5) 5; ln (-5) 5 (-5) (-5)].

Ltac touch := unfold touches; cbn [nth ln line_of s_start s_end s_ty]; repeat match_pts; cbn [orb andb negb segty_eqb Nat.eqb].
Ltac halve := unfold split_at; cbn [nth firstn skipn app];
  match goal with |- context [split (ln ?a ?b ?c ?d) [at2 ?x ?y]] => first [rewrite (cut_stand a b d y) by num | rewrite (cut_lie b a c x) by num] end; cbn [firstn skipn app].
Lemma board_up_cut : split_both board_at (at2 10 5) 1 (at2 5 10) 2 = (true, (board_up, 1%nat)).
Proof.
  unfold split_both, board_at. cbn [Nat.eqb nth]. rewrite Bool.andb_false_r. unfold split_once. touch. halve. cbn [Nat.ltb Nat.leb]. touch. halve. cbn [Nat.ltb Nat.leb]. reflexivity.
Qed.
Lemma upper_is_cut : split_both upper_at (at2 10 5) 0 (at2 5 10) 3 = (true, (upper_cut, 0%nat)).
Proof.
  unfold split_both, upper_at. cbn [Nat.eqb nth]. rewrite Bool.andb_false_r. unfold split_once. touch. halve. cbn [Nat.ltb Nat.leb]. touch. halve. cbn [Nat.ltb Nat.leb]. reflexivity.
Qed.
Lemma board_low_cut : split_both board_at (at2 5 0) 0 (at2 0 5) 3 = (true, (board_low, 0%nat)).
Proof.
  unfold split_both, board_at. cbn [Nat.eqb nth]. rewrite Bool.andb_false_r. unfold split_once. touch. halve. cbn [Nat.ltb Nat.leb]. touch. halve. cbn [Nat.ltb Nat.leb]. reflexivity.
Qed.
Lemma lower_is_cut : split_both lower_at (at2 5 0) 1 (at2 0 5) 2 = (true, (lower_cut, 1%nat)).
Proof.
  unfold split_both, lower_at. cbn [Nat.eqb nth]. rewrite Bool.andb_false_r. unfold split_once. touch. halve. cbn [Nat.ltb Nat.leb]. touch. halve. cbn [Nat.ltb Nat.leb]. reflexivity.
Qed.

Ltac each_line I := cbn [In] in I; repeat match type of I with _ \/ _ => destruct I as [<-|I] end; [..|destruct I].
Ltac skip_lie := apply counted_no; [apply not_right_level; unfold reaches; cbn; lra|].
Ltac skip_left t := apply counted_no; [apply not_right_side; [exists t|]; lra|].
Ltac take_right := apply counted_yes; [apply right_stand; lra|].
Lemma upper_holds o : o_closed o = true -> o_segs o = upper_cut -> 5 - 2 <= px (o_bl o) <= 5 + e8 -> 5 + 10 - e8 <= px (o_tr o) <= 5 + 20 -> is_inside o (at2 10 (15/2)) false = (true, false).
Proof.
  intros C E B T. change true with (Nat.odd 1). apply lines_in; rewrite ?E; unfold upper_cut; pose proof e8_pos; pose proof e8_small.
  - intros s I. each_line I; apply line_made; num.
  - assumption.
  - cbn; repeat split; reflexivity.
  - intros s q I K. each_line I; destruct K as (? & ? & ? & ?); cbn in *; lra.
  - intros s I; each_line I; cbn; unfold small; repeat split; lra.
  - num.
  - num.
  - lra.
  - lra.
  - lra.
  - lra.
  - intros x s ? I; each_line I; first [apply clear_stand; [assumption|num..]|apply clear_lie; num].
  - skip_lie. skip_lie. take_right. skip_lie. skip_lie. skip_left (1/2). constructor.
Qed.
Ltac in_lines := pose proof e8_pos; pose proof e8_small; 
  lazymatch goal with
  | |- forall s, In s _ -> line_in_order s => let s := fresh "s" in let I := fresh "I" in intros s I; each_line I; apply line_made; num
  | |- exact_ring _ => cbn; repeat split; reflexivity
  | |- forall s q, In s _ -> covers s q -> _ => let s := fresh "s" in let q := fresh "q" in let I := fresh "I" in let K := fresh "K" in intros s q I K; each_line I; destruct K as (? & ? & ? & ?); cbn in *; lra
  | |- forall s, In s _ -> small _ /\ _ => let s := fresh "s" in let I := fresh "I" in intros s I; each_line I; cbn; unfold small; repeat split; lra
  | |- forall x s, _ -> In s _ -> clear_of _ _ _ => let x := fresh "x" in let s := fresh "s" in let I := fresh "I" in intros x s ? I; each_line I; first [apply clear_stand; [assumption|num..]|apply clear_lie; num]
  | |- counted _ _ _ => idtac
  | |- _ => first [assumption|num]
  end.
Lemma upper_out o : o_closed o = true -> o_segs o = board_up -> 0 - 2 <= px (o_bl o) <= 0 + e8 -> 0 + 10 - e8 <= px (o_tr o) <= 0 + 20 -> is_inside o (at2 (25/2) 5) false = (false, false).
Proof.
  intros C E B T. change false with (Nat.odd 0) at 2. apply lines_in; rewrite ?E; unfold board_up; in_lines.
  skip_lie. skip_left 1. skip_lie. skip_lie. skip_lie. skip_left (1/2). constructor.
Qed.
Lemma lower_out o : o_closed o = true -> o_segs o = lower_cut -> -5 - 2 <= px (o_bl o) <= -5 + e8 -> -5 + 10 - e8 <= px (o_tr o) <= -5 + 20 -> is_inside o (at2 (15/2) 0) false = (false, false).
Proof.
  intros C E B T. change false with (Nat.odd 0) at 2. apply lines_in; rewrite ?E; unfold lower_cut; in_lines.
  skip_lie. skip_left 1. skip_lie. skip_lie. skip_lie. skip_left (1/2). constructor.
Qed.
Lemma lower_holds o : o_closed o = true -> o_segs o = board_low -> 0 - 2 <= px (o_bl o) <= 0 + e8 -> 0 + 10 - e8 <= px (o_tr o) <= 0 + 20 -> is_inside o (at2 5 (5/2)) false = (true, false).
Proof.
  intros C E B T. change true with (Nat.odd 1). apply lines_in; rewrite ?E; unfold board_low; in_lines.
  skip_lie. skip_lie. take_right. skip_lie. skip_lie. skip_left (1/2). constructor.
Qed.

(* what comes of it *)
Definition wide : list seg := [ln 0 0 10 0; ln 10 0 10 5; ln 10 5 15 5; ln 15 5 15 15; ln 15 15 5 15; ln 5 15 5 10; ln 5 10 0 10; ln 0 10 0 0].
Definition notched : list seg := [ln 0 0 10 0; ln 10 0 10 5; ln 10 5 5 5; ln 5 5 5 10; ln 5 10 0 10; ln 0 10 0 0].
Definition jumbled : list seg := [ln 5 5 5 0; ln 0 5 5 5; ln 5 0 10 0; ln 10 0 10 10; ln 10 10 0 10; ln 0 10 0 5].

Ltac here := cbn [find_start nth next_place ln line_of s_start s_end length Nat.eqb]; unfold find_start, next_place; cbn [nth ln line_of s_start s_end length Nat.eqb]; repeat match_pts; reflexivity.
Ltac goes := unfold trim; cbn [firstn skipn pass_until ln line_of s_start s_end]; repeat match_pts; reflexivity.
Lemma mid_ln a b c d z : snd (get_midpoint (ln a b c d) z) = mkPt (1 / 2 * (c - a) + a) (1 / 2 * (d - b) + b) (pz z).
Proof. reflexivity. Qed.
Lemma pt_eq x y z x' y' z' : x = x' -> y = y' -> z = z' -> mkPt x y z = mkPt x' y' z'.
Proof. intros; now subst. Qed.

Lemma upper_parts o b sub : o_closed o = true -> o_closed b = true -> o_segs o = board_up -> o_segs b = upper_cut ->
  0 - 2 <= px (o_bl o) <= 0 + e8 -> 0 + 10 - e8 <= px (o_tr o) <= 0 + 20 -> 5 - 2 <= px (o_bl b) <= 5 + e8 -> 5 + 10 - e8 <= px (o_tr b) <= 5 + 20 ->
  op_parts o b (at2 10 5) (at2 5 10) 1 0 sub = Merged yes (with_segs o (if sub then notched else wide)) None.
Proof.
  intros Co Cb Eo Eb H1 H2 H3 H4. unfold op_parts. rewrite Eo, Eb.
  assert (F1 : find_start board_up 1 (at2 10 5) = Some 2%nat) by (unfold board_up; here). rewrite F1.
  assert (F2 : find_start upper_cut 0 (at2 10 5) = Some 1%nat) by (unfold upper_cut; here). rewrite F2.
  replace (nth 2 board_up seg_init) with (ln 10 5 10 10) by reflexivity. replace (nth 1 upper_cut seg_init) with (ln 10 5 15 5) by reflexivity. rewrite !mid_ln.
  replace (mkPt (1 / 2 * (10 - 10) + 10) (1 / 2 * (10 - 5) + 5) (pz origin)) with (at2 10 (15/2)) by (apply pt_eq; cbn; lra).
  replace (mkPt (1 / 2 * (15 - 10) + 10) (1 / 2 * (5 - 5) + 5) (pz (at2 10 (15 / 2)))) with (at2 (25/2) 5) by (apply pt_eq; cbn; lra).
  rewrite (upper_holds b Cb Eb H3 H4), (upper_out o Co Eo H1 H2). cbn [fst Bool.eqb].
  assert (T1 : trim board_up 2 (at2 5 10) = Some ([ln 10 5 10 10; ln 10 10 5 10], ([ln 0 0 10 0; ln 10 0 10 5; ln 5 10 0 10; ln 0 10 0 0], 2%nat))) by (unfold board_up; goes). rewrite T1.
  assert (T2 : trim upper_cut 1 (at2 5 10) = Some ([ln 10 5 15 5; ln 15 5 15 15; ln 15 15 5 15; ln 5 15 5 10], ([ln 5 5 10 5; ln 5 10 5 5], 1%nat))) by (unfold upper_cut; goes). rewrite T2.
  destruct sub; cbn [andb orb negb]; unfold stitch.
  - reflexivity.
  - cbn [Nat.eqb nth Nat.sub length]. assert (T3 : turn_to [ln 10 5 15 5; ln 15 5 15 15; ln 15 15 5 15; ln 5 15 5 10] 3 (get_end (ln 10 0 10 5)) = Some 0%nat).
    { unfold turn_to, get_end, get_start. cbn [ln line_of s_cw s_end firstn skipn place_of s_start]. unfold get_start. cbn [ln line_of s_cw s_start]. repeat match_pts. reflexivity. }
    rewrite T3. reflexivity.
Qed.
Lemma lower_parts o b : o_closed o = true -> o_closed b = true -> o_segs o = board_low -> o_segs b = lower_cut ->
  0 - 2 <= px (o_bl o) <= 0 + e8 -> 0 + 10 - e8 <= px (o_tr o) <= 0 + 20 -> -5 - 2 <= px (o_bl b) <= -5 + e8 -> -5 + 10 - e8 <= px (o_tr b) <= -5 + 20 ->
  op_parts o b (at2 5 0) (at2 0 5) 0 1 true = Merged yes (with_segs o jumbled) None.
Proof.
  intros Co Cb Eo Eb H1 H2 H3 H4. unfold op_parts. rewrite Eo, Eb.
  assert (F1 : find_start board_low 0 (at2 5 0) = Some 1%nat) by (unfold board_low; here). rewrite F1.
  assert (F2 : find_start lower_cut 1 (at2 5 0) = Some 2%nat) by (unfold lower_cut; here). rewrite F2.
  replace (nth 1 board_low seg_init) with (ln 5 0 10 0) by reflexivity. replace (nth 2 lower_cut seg_init) with (ln 5 0 5 5) by reflexivity. rewrite !mid_ln.
  replace (mkPt (1 / 2 * (10 - 5) + 5) (1 / 2 * (0 - 0) + 0) (pz origin)) with (at2 (15/2) 0) by (apply pt_eq; cbn; lra).
  replace (mkPt (1 / 2 * (5 - 5) + 5) (1 / 2 * (5 - 0) + 0) (pz (at2 (15 / 2) 0))) with (at2 5 (5/2)) by (apply pt_eq; cbn; lra).
  rewrite (lower_out b Cb Eb H3 H4), (lower_holds o Co Eo H1 H2). cbn [fst Bool.eqb].
  assert (T1 : trim board_low 1 (at2 0 5) = Some ([ln 5 0 10 0; ln 10 0 10 10; ln 10 10 0 10; ln 0 10 0 5], ([ln 0 0 5 0; ln 0 5 0 0], 1%nat))) by (unfold board_low; goes). rewrite T1.
  assert (T2 : trim lower_cut 2 (at2 0 5) = Some ([ln 5 0 5 5; ln 5 5 0 5], ([ln (-5) (-5) 5 (-5); ln 5 (-5) 5 0; ln 0 5 (-5) 5; ln (-5) 5 (-5) (-5)], 2%nat))) by (unfold lower_cut; goes). rewrite T2.
  reflexivity.
Qed.

Lemma op_upper o b sub : o_closed o = true -> o_closed b = true -> o_segs o = board_at -> o_segs b = upper_at ->
  0 - 2 <= px (o_bl o) <= 0 + e8 -> 0 + 10 - e8 <= px (o_tr o) <= 0 + 20 -> 5 - 2 <= px (o_bl b) <= 5 + e8 -> 5 + 10 - e8 <= px (o_tr b) <= 5 + 20 ->
  op_outline o (Some b) sub = Merged yes (mkOut (if sub then notched else wide) true (o_wind o) false (o_bl o) (o_tr o)) None.
Proof.
  intros Co Cb Eo Eb H1 H2 H3 H4. unfold op_outline. cbv zeta. cbn [o_closed o_segs]. rewrite Co, Cb, Eo, Eb. cbn [negb]. rewrite upper_meets. cbn [firsts existsb app fst]. match_pts. cbn [orb].
  rewrite board_up_cut, upper_is_cut. rewrite upper_parts; try reflexivity; try assumption.
Qed.
Lemma op_lower o b : o_closed o = true -> o_closed b = true -> o_segs o = board_at -> o_segs b = lower_at ->
  0 - 2 <= px (o_bl o) <= 0 + e8 -> 0 + 10 - e8 <= px (o_tr o) <= 0 + 20 -> -5 - 2 <= px (o_bl b) <= -5 + e8 -> -5 + 10 - e8 <= px (o_tr b) <= -5 + 20 ->
  op_outline o (Some b) true = Merged yes (mkOut jumbled true (o_wind o) false (o_bl o) (o_tr o)) None.
Proof.
  intros Co Cb Eo Eb H1 H2 H3 H4. unfold op_outline. cbv zeta. cbn [o_closed o_segs]. rewrite Co, Cb, Eo, Eb. cbn [negb]. rewrite lower_meets. cbn [firsts existsb app fst]. match_pts. cbn [orb].
  rewrite board_low_cut, lower_is_cut. rewrite lower_parts; try reflexivity; try assumption.
Qed.

(** ** What was asked for *)

Ltac meet_in H := match type of H with context [intersections (ln ?a ?b ?c ?d) (ln ?e ?f ?g ?h)] =>
  first [rewrite (stand_lie a b d e g f) in H by num | rewrite (lie_stand e f h a c b) in H by num | rewrite (stand_lie_miss a b d e g f) in H by num
        | rewrite (lie_stand_miss e f h a c b) in H by num | rewrite (two_lie a c b e g f) in H by num | rewrite (two_stand b d a f h e) in H by num] end.

Lemma upper_pairs s t p : In s board_at -> In t upper_at -> meets_on s t p -> (s = ln 10 0 10 10 /\ t = ln 5 5 15 5 /\ p = at2 10 5) \/ (s = ln 10 10 0 10 /\ t = ln 5 15 5 5 /\ p = at2 5 10).
Proof.
  intros I J (ps & f & E & K & _). unfold board_at, upper_at in I, J. each_line I; each_line J; meet_in E; try discriminate E; injection E as <- _; destruct K as [<-|[]]; [now left|now right].
Qed.
Lemma lower_pairs s t p : In s board_at -> In t lower_at -> meets_on s t p -> (s = ln 0 0 10 0 /\ t = ln 5 (-5) 5 5 /\ p = at2 5 0) \/ (s = ln 0 10 0 0 /\ t = ln 5 5 (-5) 5 /\ p = at2 0 5).
Proof.
  intros I J (ps & f & E & K & _). unfold board_at, lower_at in I, J. each_line I; each_line J; meet_in E; try discriminate E; injection E as <- _; destruct K as [<-|[]]; [now left|now right].
Qed.

Lemma upper_corners : exact_corners board_at upper_at.
Proof.
  intros p s (u & t & I & J & M) K _ O. exfalso. revert O. unfold board_at, upper_at in K; cbn [app] in K.
  destruct (upper_pairs u t p I J M) as [(_ & _ & ->)|(_ & _ & ->)]; each_line K; apply far_apart; num.
Qed.
Lemma lower_corners : exact_corners board_at lower_at.
Proof.
  intros p s (u & t & I & J & M) K _ O. exfalso. revert O. unfold board_at, lower_at in K; cbn [app] in K.
  destruct (lower_pairs u t p I J M) as [(_ & _ & ->)|(_ & _ & ->)]; each_line K; apply far_apart; num.
Qed.
Lemma upper_once : passes_once board_at upper_at.
Proof.
  split; [|split].
  - intros i j Li Lj O. cbn in Li, Lj. do 4 (destruct i as [|i]; [do 4 (destruct j as [|j]; [first [reflexivity|exfalso; revert O; apply far_apart; num]|]); lia|]); lia.
  - intros s t u p I J K M O. exfalso. revert O. unfold upper_at in K. destruct (upper_pairs s t p I J M) as [(_ & _ & ->)|(_ & _ & ->)]; each_line K; apply far_apart; num.
  - intros s s' t p q I I' J M M' O. exfalso. revert O. destruct (upper_pairs s' t q I' J M') as [(_ & -> & ->)|(_ & -> & ->)]; apply far_apart; num.
Qed.
Lemma plain_lines l : Forall (fun s => exists a b c d, s = ln a b c d) l -> Forall (fun s => s_cw s = false) l.
Proof. apply Forall_impl. now intros s (a & b & c & d & ->). Qed.
Lemma square_whole a b o : o_closed o = true -> o_segs o = square a b -> whole_exactly o /\ Forall (fun s => s_cw s = false) (o_segs o).
Proof.
  intros C E. rewrite E. split; [split; [exact C|right; rewrite E; split; [|split]]|].
  - repeat (apply Forall_cons; [now left|]). apply Forall_nil.
  - repeat (apply Forall_cons; [now split|]). apply Forall_nil.
  - cbn. repeat split; reflexivity.
  - repeat (apply Forall_cons; [reflexivity|]). apply Forall_nil.
Qed.

Theorem squares_meet : exists o b, draw (square 0 0) = Some (yes, o) /\ draw (square 5 5) = Some (yes, b) /\ whole_exactly o /\ whole_exactly b /\
  Forall (fun s => s_cw s = false) (o_segs o) /\ Forall (fun s => s_cw s = false) (o_segs b) /\ exact_corners (o_segs o) (o_segs b) /\ passes_once (o_segs o) (o_segs b) /\
  forall sub, op_outline o (Some b) sub = Merged yes (mkOut (if sub then notched else wide) true (o_wind o) false (o_bl o) (o_tr o)) None.
Proof.
  destruct (square_drawn 0 0) as (o & D & _ & Co & So & Bo & To); [lra|lra|]. destruct (square_drawn 5 5) as (b & D' & _ & Cb & Sb & Bb & Tb); [lra|lra|].
  exists o, b. split; [exact D|]. split; [exact D'|]. destruct (square_whole 0 0 o Co So) as (Wo & Fo). destruct (square_whole 5 5 b Cb Sb) as (Wb & Fb).
  split; [exact Wo|]. split; [exact Wb|]. split; [exact Fo|]. split; [exact Fb|]. rewrite square_0 in So. rewrite square_5 in Sb. rewrite So, Sb.
  split; [exact upper_corners|]. split; [exact upper_once|]. intros sub. now apply op_upper.
Qed.

(* a corner cut off *)
Theorem corner_jumbled : exists o b o', draw (square 0 0) = Some (yes, o) /\ draw (square (-5) (-5)) = Some (yes, b) /\ whole_exactly o /\ whole_exactly b /\
  exact_corners (o_segs o) (o_segs b) /\ op_outline o (Some b) true = Merged yes o' None /\ o_segs o' = jumbled /\ is_contiguous o' = false.
Proof.
  destruct (square_drawn 0 0) as (o & D & _ & Co & So & Bo & To); [lra|lra|]. destruct (square_drawn (-5) (-5)) as (b & D' & _ & Cb & Sb & Bb & Tb); [lra|lra|].
  destruct (square_whole 0 0 o Co So) as (Wo & Fo). destruct (square_whole (-5) (-5) b Cb Sb) as (Wb & Fb). rewrite square_0 in So. rewrite square_m5 in Sb.
  exists o, b. eexists. split; [exact D|]. split; [exact D'|]. split; [exact Wo|]. split; [exact Wb|]. split; [rewrite So, Sb; exact lower_corners|]. split; [now apply op_lower|]. split; [reflexivity|].
  apply Bool.not_true_iff_false. intros K. apply contiguous_spec in K. destruct K as (_ & [(c & l & E & T)|(Ch & _)]); [cbn in E; injection E as <- _; discriminate T|]. destruct Ch as (Ch & _). revert Ch. apply far_apart; num.
Qed.

(* beside the board *)
Lemma squares_apart : apart (square 0 0) (square 50 50).
Proof.
  rewrite square_0. unfold square, board_at. intros s t I J. each_line I; each_line J; meet; reflexivity.
Qed.

(* stored though it is not on the board *)
Theorem stored_outside : exists o b, draw (square 0 0) = Some (yes, o) /\ draw (square 50 50) = Some (yes, b) /\
  exists o', add_cut (mkPlate o [] []) (Some b) true = Added yes (mkPlate o' [b] []) None /\ same_but_box o o' /\
  (forall s v, In s (o_segs o) -> covers s v -> px v <= 10 /\ py v <= 10) /\ (forall s v, In s (o_segs b) -> covers s v -> 50 <= px v /\ 50 <= py v).
Proof.
  destruct (square_drawn 0 0) as (o & D & _ & Co & So & _); [lra|lra|]. destruct (square_drawn 50 50) as (b & D' & _ & Cb & Sb & _); [lra|lra|].
  exists o, b. split; [exact D|]. split; [exact D'|].
  destruct (cut_stored (mkPlate o [] []) b true Cb) as (o' & c & E & K & F).
  - right. cbn [p_out p_cuts]. split; [exact Co|]. split; [rewrite So, Sb; exact squares_apart|intros ? []].
  - exists o'. cbn [p_cuts p_holes p_out] in *. inversion F; subst c. split; [exact E|]. split; [exact K|]. rewrite So, Sb, square_0. unfold board_at, square.
    split; intros s v I C; each_line I; destruct C as (? & ? & ? & ?); cbn in *; lra.
Qed.

(* a hole beside the board as well; cut out of the board when it meets it *)
Theorem notch_taken : exists o b, draw (square 0 0) = Some (yes, o) /\ draw (square 5 5) = Some (yes, b) /\ forall cuts holes,
  add_cut (mkPlate o cuts holes) (Some b) true = Added yes (mkPlate (mkOut notched true (o_wind o) false (o_bl o) (o_tr o)) cuts holes) None.
Proof.
  destruct squares_meet as (o & b & D & D' & (Co & _) & (Cb & _) & _ & _ & _ & _ & E). exists o, b. split; [exact D|]. split; [exact D'|]. intros cuts holes.
  apply (cut_taken (mkPlate o cuts holes) b yes _ Cb (E true) eq_refl).
Qed.
(* merged with a cutout which is there already *)
Theorem cutouts_merged : exists o c x, draw (square (-50) (-50)) = Some (yes, o) /\ draw (square 0 0) = Some (yes, c) /\ draw (square 5 5) = Some (yes, x) /\ 
  exists o', add_cut (mkPlate o [c; c] []) (Some x) true = Added yes (mkPlate o' [mkOut wide true (o_wind c) false (o_bl c) (o_tr c); c] []) None.
Proof.
  destruct squares_meet as (c & x & D & D' & (Cc & _) & (Cx & _) & _ & _ & _ & _ & E). destruct (square_drawn (-50) (-50)) as (o & D0 & _ & Co & So & _); [lra|lra|].
  destruct (square_drawn 5 5) as (x' & D2 & _ & _ & Sx & _); [lra|lra|]. rewrite D' in D2. injection D2 as <-.
  exists o, c, x. split; [exact D0|]. split; [exact D|]. split; [exact D'|].
  destruct (cut_merged (mkPlate o [c; c] []) x [] c [c] None (mkOut wide true (o_wind c) false (o_bl c) (o_tr c)) Cx) as (o1 & c1 & R & _ & F).
  - exact Co.
  - cbn [p_out]. rewrite So, Sx, square_5. unfold square, upper_at. intros s t I J. each_line I; each_line J; meet; reflexivity.
  - reflexivity.
  - intros ? [].
  - apply (E false).
  - exists o1. inversion F; subst c1. exact R.
Qed.
Theorem squares_closed : exists o b, draw (square 0 0) = Some (yes, o) /\ draw (square 50 50) = Some (yes, b) /\ o_closed o = true /\ o_closed b = true /\ apart (o_segs o) (o_segs b).
Proof.
  destruct (square_drawn 0 0) as (o & D & _ & Co & So & _); [lra|lra|]. destruct (square_drawn 50 50) as (b & D' & _ & Cb & Sb & _); [lra|lra|].
  exists o, b. split; [exact D|]. split; [exact D'|]. split; [exact Co|]. split; [exact Cb|]. rewrite So, Sb. exact squares_apart.
Qed.

Lemma circles_inside : full_circle circle5 /\ full_circle circle3 /\ ~ alike circle5 circle3 /\ ~ touching circle5 circle3 /\
  dist (s_cen circle5) (s_cen circle3) <= s_rad circle5 - s_rad circle3.
Proof.
  destruct circles_case as (F5 & _ & F3 & _). split; [exact F5|]. split; [exact F3|].
  assert (D : dist (s_cen circle5) (s_cen circle3) = 1) by (apply dist_at2; lra).
  unfold alike, touching. rewrite D. cbn [s_rad circle5 circle3]. unfold e3. split; [|split].
  - intros [_ H]. rewrite Rabs_right in H by lra. lra.
  - rewrite Rabs_left by lra. lra.
  - lra.
Qed.
