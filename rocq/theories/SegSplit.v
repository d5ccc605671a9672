(** Splitting lines, arcs and circles. *)

From Coq Require Import Reals Lra Psatz List Bool ZArith Lia.
From Verif Require Import SegModel SegSpec SegTrig SegFacts.
Import ListNotations.
Open Scope R_scope.

(** ** The points which are left *)

Definition at_end (s : seg) (p : pt) : Prop := one_point p (s_start s) e8 \/ one_point p (s_end s) e8.

Lemma keep_spec s p : negb (point_matches p (s_start s) e8 || point_matches p (s_end s) e8) = true <-> ~ at_end s p.
Proof.
  rewrite negb_true_iff, orb_false_iff, !point_matches_not. unfold at_end. tauto.
Qed.

Lemma split_keeps s ps ok ps' s' n : split s ps = (ok, (ps', (s', n))) -> ok = false -> s' = s /\ n = [].
Proof.
  unfold split. intros H ->.
  assert (G : forall (r : bool * (seg * list seg)), (r = split_line s ps' \/ r = split_arc s ps' \/ r = split_circle s ps') -> fst r = false -> snd r = (s, [])).
  { intros r [-> |[-> | ->]].
    - unfold split_line. destruct ps' as [|p [|q [|]]]; try reflexivity.
      + destruct (line_param s p); [discriminate|reflexivity].
      + destruct (line_param s p); [destruct (line_param s q)|]; try discriminate; reflexivity.
    - unfold split_arc. destruct ps' as [|p [|q [|]]]; try reflexivity.
      + destruct (arc_angle s p); [discriminate|reflexivity].
      + destruct (arc_angle s p); [destruct (arc_angle s q)|]; try discriminate; reflexivity.
    - unfold split_circle. destruct ps' as [|p [|q [|]]]; try reflexivity.
      destruct (_ && _); [reflexivity|]. cbv zeta. destruct (_ || _); [reflexivity|]. discriminate. }
  destruct (s_ty s); destruct (length ps) as [|[|[|]]]; inversion H; subst; clear H;
    try (split; reflexivity);
    match goal with |- _ => idtac end;
    (match goal with E : fst ?r = false, F : snd ?r = _ |- _ => pose proof (G r) as Q; rewrite F in Q; injection (Q ltac:(tauto) E); intros; subst; split; reflexivity end).
Qed.

Lemma filter_length_le {A} (f : A -> bool) l : (length (filter f l) <= length l)%nat.
Proof. induction l as [|a l IH]; cbn; [lia|]. destruct (f a); cbn; lia. Qed.

(** ** Lines *)

Definition line_in_order (s : seg) : Prop :=
  s_ty s = SLine /\ s_cw s = false /\ in_plane (s_start s) /\ in_plane (s_end s) /\ ~ one_point (s_start s) (s_end s) e8.

(* the place at [t], and [p] not further off than 1e-8 along either axis *)
Definition near_course (s : seg) (t : R) (p : pt) : Prop :=
  Rabs (px (s_start s) + t * (px (s_end s) - px (s_start s)) - px p) <= e8 /\
  Rabs (py (s_start s) + t * (py (s_end s) - py (s_start s)) - py p) <= e8.

Lemma line_steep s : line_in_order s -> px (s_end s) - px (s_start s) <> 0 \/ py (s_end s) - py (s_start s) <> 0.
Proof.
  intros (_ & _ & A & B & N). destruct (Req_EM_T (px (s_end s) - px (s_start s)) 0) as [E|E]; [|now left].
  destruct (Req_EM_T (py (s_end s) - py (s_start s)) 0) as [F|F]; [|now right]. exfalso. apply N. left.
  rewrite gap2_flat by assumption. unfold dist2. replace (px (s_start s) - px (s_end s)) with 0 by lra.
  replace (py (s_start s) - py (s_end s)) with 0 by lra. unfold e8. lra.
Qed.

Lemma line_param_spec s p : line_in_order s ->
  (forall t, line_param s p = Some t -> 0 <= t <= 1 /\ near_course s t p) /\
  (forall t, 0 <= t <= 1 -> px p = px (s_start s) + t * (px (s_end s) - px (s_start s)) ->
     py p = py (s_start s) + t * (py (s_end s) - py (s_start s)) -> line_param s p = Some t).
Proof.
  intros O. pose proof (line_steep s O) as N. pose proof e8_pos as E. unfold line_param.
  set (a := s_start s) in *. set (b := s_end s) in *.
  destruct (ltb (Rabs (px b - px a)) (Rabs (py b - py a))) eqn:S.
  - apply ltb_true in S. assert (Y : py b - py a <> 0).
    { intro Z. rewrite Z, Rabs_R0 in S. pose proof (Rabs_pos (px b - px a)). lra. }
    set (t0 := (- py a + py p) * (1 / (py b - py a))).
    assert (T0 : t0 * (py b - py a) = py p - py a) by (unfold t0; field; exact Y).
    split.
    + intros t. destruct (ltb t0 0 || ltb 1 t0) eqn:R; [discriminate|]. apply orb_false_iff in R. rewrite !ltb_false in R.
      destruct (ltb e8 _) eqn:U; [discriminate|]. apply ltb_false in U. intro Q. injection Q as <-. split; [lra|].
      unfold near_course. fold a b. split.
      * replace (px a + t0 * (px b - px a) - px p) with (t0 * (px b - px a) + px a - px p) by ring. exact U.
      * replace (py a + t0 * (py b - py a) - py p) with 0 by lra. rewrite Rabs_R0. lra.
    + intros t T X Yp. assert (t0 = t). { apply (Rmult_eq_reg_r (py b - py a)); [|exact Y]. rewrite T0, Yp. ring. }
      rewrite H. rewrite ltb_f, ltb_f by lra. cbn [orb]. rewrite ltb_f; [reflexivity|]. rewrite X.
      replace (t * (px b - px a) + px a - (px a + t * (px b - px a))) with 0 by ring. rewrite Rabs_R0. lra.
  - apply ltb_false in S. assert (X : px b - px a <> 0).
    { intro Z. rewrite Z, Rabs_R0 in S. pose proof (Rabs_pos (py b - py a)). destruct N as [N|N]; [now apply N|].
      apply Rabs_pos_lt in N. lra. }
    set (t0 := (- px a + px p) * (1 / (px b - px a))).
    assert (T0 : t0 * (px b - px a) = px p - px a) by (unfold t0; field; exact X).
    split.
    + intros t. destruct (ltb t0 0 || ltb 1 t0) eqn:R; [discriminate|]. apply orb_false_iff in R. rewrite !ltb_false in R.
      destruct (ltb e8 _) eqn:U; [discriminate|]. apply ltb_false in U. intro Q. injection Q as <-. split; [lra|].
      unfold near_course. fold a b. split.
      * replace (px a + t0 * (px b - px a) - px p) with 0 by lra. rewrite Rabs_R0. lra.
      * replace (py a + t0 * (py b - py a) - py p) with (t0 * (py b - py a) + py a - py p) by ring. exact U.
    + intros t T Xp Yp. assert (t0 = t). { apply (Rmult_eq_reg_r (px b - px a)); [|exact X]. rewrite T0, Xp. ring. }
      rewrite H. rewrite ltb_f, ltb_f by lra. cbn [orb]. rewrite ltb_f; [reflexivity|]. rewrite Yp.
      replace (t * (py b - py a) + py a - (py a + t * (py b - py a))) with 0 by ring. rewrite Rabs_R0. lra.
Qed.

Lemma set_line_good a b : in_plane a -> in_plane b -> ~ one_point a b e8 -> snd (set_line a b) = mkSeg SLine 0 0 0 false origin a b.
Proof. intros A B N. destruct (set_line_spec a b) as [E ->]. now rewrite (proj2 E (conj A (conj B N))). Qed.

Lemma set_line_bad a b : one_point a b e8 -> snd (set_line a b) = seg_init.
Proof.
  intros N. destruct (set_line_spec a b) as [E ->]. destruct (fst (set_line a b)) eqn:F; [|reflexivity].
  exfalso. destruct E as [E _]. now apply (E eq_refl).
Qed.

Lemma filter_sub {A} (f : A -> bool) l x : In x (filter f l) -> In x l /\ f x = true.
Proof. apply filter_In. Qed.

(* what splitting a line does, given that the points left are in the plane and apart *)
Lemma split_line_pieces s ps ps' s' n :
  line_in_order s -> (forall p, In p ps -> in_plane p) ->
  split s ps = (true, (ps', (s', n))) ->
  (forall p q, ps' = [p; q] -> ~ one_point p q e8) ->
  ps' = filter (fun p => negb (point_matches p (s_start s) e8 || point_matches p (s_end s) e8)) ps /\
  (1 <= length ps' <= 2)%nat /\ length n = length ps' /\
  chained (s_start s) (s' :: n) (s_end s) /\
  (forall x, In x (s' :: n) -> line_in_order x) /\
  exists ts, length ts = length ps' /\ (forall t, In t ts -> 0 <= t <= 1) /\
    (forall i j, (i < j < length ts)%nat -> nth i ts 0 <= nth j ts 0) /\
    (forall i, (i < length ts)%nat -> near_course s (nth i ts 0) (s_end (nth i (s' :: n) seg_init))) /\
    (forall p, In p ps' <-> exists i, (i < length ts)%nat /\ p = s_end (nth i (s' :: n) seg_init)).
Proof.
  intros O Z H Ap. pose proof O as (T & W & PA & PB & NAB). unfold split in H. rewrite T in H.
  set (f := fun p => negb (point_matches p (s_start s) e8 || point_matches p (s_end s) e8)) in *.
  assert (H' : split_line s (filter f ps) = (true, (s', n)) /\ ps' = filter f ps).
  { destruct (length ps) as [|[|[|]]]; inversion H; subst; (split; [|reflexivity]).
    all: destruct (split_line s (filter f ps)) as [o [x y]]; cbn [fst snd] in *; congruence. }
  destruct H' as [L ->]. split; [reflexivity|].
  assert (K : forall p, In p (filter f ps) -> in_plane p /\ ~ at_end s p).
  { intros p I. apply filter_sub in I. destruct I as [I F]. split; [now apply Z|]. now apply keep_spec. }
  unfold split_line in L. destruct (filter f ps) as [|p [|q [|]]] eqn:F; try discriminate.
  - destruct (line_param s p) as [t|] eqn:P; [|discriminate]. injection L as <- <-.
    destruct (K p ltac:(now left)) as [Kp Ke]. unfold at_end in Ke.
    rewrite set_line_good by (try assumption; intro Q; tauto).
    destruct (proj1 (line_param_spec s p O) t P) as [R C].
    split; [cbn; lia|]. split; [reflexivity|]. split; [cbn; auto|]. split.
    + intros x [<-|[<-|[]]]; unfold line_in_order, with_end; cbn [s_ty s_cw s_start s_end].
      * repeat split; auto. intro Q. apply Ke. left. now apply one_point_sym.
      * repeat split; auto.
    + exists [t]. split; [reflexivity|]. split; [intros x [<-|[]]; exact R|]. split; [cbn; intros; lia|]. split.
      * intros [|i] I; [|cbn in I; lia]. exact C.
      * intro x. split.
        -- intros [<-|[]]. exists 0%nat. cbn. auto.
        -- intros ([|i] & I & E); [|cbn in I; lia]. left. symmetry. exact E.
  - destruct (line_param s p) as [t|] eqn:P; [|discriminate]. destruct (line_param s q) as [u|] eqn:Qq; [|discriminate].
    injection L as <- <-.
    destruct (K p ltac:(now left)) as [Kp Ke]. destruct (K q ltac:(right; now left)) as [Kq Kf]. unfold at_end in Ke, Kf.
    destruct (proj1 (line_param_spec s p O) t P) as [R C]. destruct (proj1 (line_param_spec s q O) u Qq) as [R2 C2].
    pose proof (Ap p q eq_refl) as PQ.
    assert (PQ' : ~ one_point q p e8) by (intro Y; apply PQ; now apply one_point_sym).
    set (p0 := if ltb t u then p else q). set (p1 := if ltb t u then q else p).
    set (t0 := if ltb t u then t else u). set (t1 := if ltb t u then u else t).
    assert (Both : in_plane p0 /\ in_plane p1 /\ ~ at_end s p0 /\ ~ at_end s p1 /\ ~ one_point p0 p1 e8 /\ t0 <= t1 /\
       0 <= t0 <= 1 /\ 0 <= t1 <= 1 /\ near_course s t0 p0 /\ near_course s t1 p1 /\ (forall x, In x [p; q] <-> x = p0 \/ x = p1)).
    { unfold p0, p1, t0, t1, at_end. destruct (ltb t u) eqn:LT; [apply ltb_true in LT|apply ltb_false in LT];
      (split; [assumption|]; split; [assumption|]; split; [assumption|]; split; [assumption|]; split; [assumption|];
       split; [lra|]; split; [assumption|]; split; [assumption|]; split; [assumption|]; split; [assumption|];
       intro x; cbn [In]; split; [intros [A|[A|[]]]|intros [A|A]]; subst x; tauto). }
    destruct Both as (B1 & B2 & B3 & B4 & B5 & B6 & B7 & B8 & B9 & B10 & B11). clearbody p0 p1 t0 t1. unfold at_end in B3, B4.
    rewrite (set_line_good p0 p1), (set_line_good p1 (s_end s)) by (try assumption; intro Y; tauto).
    split; [cbn; lia|]. split; [reflexivity|]. split; [cbn; auto|]. split.
    + intros x [<-|[<-|[<-|[]]]]; unfold line_in_order, with_end; cbn [s_ty s_cw s_start s_end]; repeat split; auto.
      intro Y. apply B3. left. now apply one_point_sym.
    + exists [t0; t1]. split; [reflexivity|]. split; [intros x [<-|[<-|[]]]; assumption|]. split.
      * intros [|[|i]] [|[|j]] I; cbn in I; try lia. exact B6.
      * split.
        -- intros [|[|i]] I; cbn in I; try lia; assumption.
        -- intro x. rewrite B11. split.
           ++ intros [-> | ->]; [exists 0%nat|exists 1%nat]; cbn; auto.
           ++ intros ([|[|i]] & I & E); cbn in I; try lia; cbn in E; auto.
Qed.

(* points of the line itself are accepted *)
Lemma split_line_accepts s ps : line_in_order s -> (length ps = 1 \/ length ps = 2)%nat ->
  (forall p, In p ps -> covers s p) -> (exists p, In p ps /\ ~ at_end s p) -> fst (split s ps) = true.
Proof.
  intros O L C (p & I & E). pose proof O as (T & _). unfold split. rewrite T.
  set (f := fun p => negb (point_matches p (s_start s) e8 || point_matches p (s_end s) e8)).
  assert (P : forall x, In x (filter f ps) -> exists t, line_param s x = Some t).
  { intros x X. apply filter_sub in X. destruct X as [X _]. apply C in X. unfold covers in X. rewrite T in X.
    destruct X as (t & A & B & D). exists t. now apply (proj2 (line_param_spec s x O)). }
  assert (M : In p (filter f ps)) by (apply filter_In; split; [exact I|now apply keep_spec]).
  pose proof (filter_length_le f ps) as LL.
  assert (G : fst (split_line s (filter f ps)) = true).
  { unfold split_line. destruct (filter f ps) as [|x [|y [|z l]]] eqn:F.
    - destruct M.
    - destruct (P x ltac:(now left)) as [t ->]. reflexivity.
    - destruct (P x ltac:(now left)) as [t ->]. destruct (P y ltac:(right; now left)) as [u ->]. reflexivity.
    - cbn [length] in LL. lia. }
  destruct L as [-> | ->]; exact G.
Qed.

(* two points left which count as one: the piece between them is empty *)
Lemma split_line_hollow s ps p q s' n : line_in_order s ->
  split s ps = (true, ([p; q], (s', n))) -> one_point p q e8 -> nth 0 n (mkSeg SLine 0 0 0 false origin origin origin) = seg_init.
Proof.
  intros (T & _) H N. unfold split in H. rewrite T in H.
  set (f := fun p => negb (point_matches p (s_start s) e8 || point_matches p (s_end s) e8)) in *.
  assert (H' : split_line s [p; q] = (true, (s', n))).
  { destruct (length ps) as [|[|[|]]]; inversion H; subst.
    all: destruct (split_line s (filter f ps)) as [o [x y]]; cbn [fst snd] in *; congruence. }
  unfold split_line in H'. destruct (line_param s p) as [t|]; [|discriminate]. destruct (line_param s q) as [u|]; [|discriminate].
  injection H' as _ <-. cbn [nth]. apply set_line_bad. destruct (ltb t u); [exact N|now apply one_point_sym].
Qed.
