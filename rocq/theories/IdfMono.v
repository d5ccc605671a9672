(** Of two arcs over one chord the one which turns further is longer and has the
    larger area between itself and the chord. *)

From Coquelicot Require Import Coquelicot.
From Coq Require Import Reals Lra Psatz.
Open Scope R_scope.

Lemma sin_above_chord x : 0 < x < PI -> 0 < sin x - x * cos x.
Proof.
  intros [P U]. destruct (MVT_cor2 (fun x => sin x - x * cos x) (fun x => x * sin x) 0 x P) as (c & E & C).
  - intros c _. apply is_derive_Reals. auto_derive; [exact I|ring].
  - cbv beta in E. rewrite sin_0 in E. assert (0 < sin c) by (apply sin_gt_0; lra). assert (0 < c * sin c * (x - 0)) by (apply Rmult_lt_0_compat; nra). lra.
Qed.

Lemma length_grows u v : 0 < u < v -> v < PI -> u / sin u < v / sin v.
Proof.
  intros [P L] V. destruct (MVT_cor2 (fun x => x / sin x) (fun x => (sin x - x * cos x) / (sin x * sin x)) u v L) as (c & E & C).
  - intros c C. assert (0 < sin c) by (apply sin_gt_0; lra). apply is_derive_Reals. auto_derive; [lra|field; lra].
  - cbv beta in E. assert (0 < sin c) by (apply sin_gt_0; lra). pose proof (sin_above_chord c ltac:(lra)).
    assert (0 < (sin c - c * cos c) / (sin c * sin c) * (v - u)); [|lra]. apply Rmult_lt_0_compat; [|lra]. apply Rdiv_lt_0_compat; [assumption|nra].
Qed.

Lemma area_grows u v : 0 < u < v -> v < PI -> (2 * u - sin (2 * u)) / (sin u * sin u) < (2 * v - sin (2 * v)) / (sin v * sin v).
Proof.
  intros [P L] V. rewrite !sin_2a.
  destruct (MVT_cor2 (fun x => (2 * x - 2 * sin x * cos x) / (sin x * sin x)) (fun x => 4 * (sin x - x * cos x) / (sin x * sin x * sin x)) u v L) as (c & E & C).
  - intros c C. assert (S : 0 < sin c) by (apply sin_gt_0; lra). apply is_derive_Reals. pose proof (sin2_cos2 c) as Q. unfold Rsqr in Q.
    assert (C2 : cos c * cos c = 1 - sin c * sin c) by lra.
    auto_derive; [nra|]. field_simplify_eq; [|lra]. ring [C2].
  - cbv beta in E. assert (0 < sin c) by (apply sin_gt_0; lra). pose proof (sin_above_chord c ltac:(lra)).
    assert (0 < 4 * (sin c - c * cos c) / (sin c * sin c * sin c) * (v - u)); [|lra].
    apply Rmult_lt_0_compat; [|lra]. apply Rdiv_lt_0_compat; [lra|]. apply Rmult_lt_0_compat; [nra|assumption].
Qed.

Lemma above_sin x : 0 < x -> sin x < x.
Proof. intro H. apply sin_lt_x. exact H. Qed.

Lemma one_less_cos d : 1 - cos d <= d * d / 2.
Proof.
  replace d with (2 * (d / 2)) at 1 by field. rewrite cos_2a_sin.
  assert (H : sin (d / 2) * sin (d / 2) <= d / 2 * (d / 2)); [|nra].
  assert (S : forall x, 0 <= x -> sin x * sin x <= x * x).
  { intros x P. destruct (Req_dec x 0) as [->|N]; [rewrite sin_0; lra|]. pose proof (sin_lt_x x ltac:(lra)).
    pose proof (SIN_bound x) as B. destruct (Rle_lt_dec 1 x); [nra|].
    assert (0 < sin x) by (apply sin_gt_0; [lra|]; pose proof PI2_3_2; pose proof PI_RGT_0; unfold PI2 in *; lra). nra. }
  destruct (Rle_lt_dec 0 (d / 2)) as [P|N]; [apply S; exact P|].
  specialize (S (- (d / 2)) ltac:(lra)). rewrite sin_neg in S. lra.
Qed.
