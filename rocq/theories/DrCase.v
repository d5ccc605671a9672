(** Drills which are lost, and drills which bring the program down. *)
From Coq Require Import Reals Lra List Bool Arith Lia Sorting.Permutation Sorting.Permutation Sorting.Sorted.
From Verif Require Import SegModel SegSpec SegFacts SegTrig SegProps CutModel CutSpec CutCircle CutCases CutArc OutModel OutSpec OutDisc OutInside OutOps OvlModel DrModel DrSpec DrFacts DrBoard DrCircle.
Import ListNotations.
Open Scope R_scope.

Definition ring (x y r : R) : seg := mkSeg SCircle r 0 (2 * PI) false (at2 x y) (at2 (x + r) y) (at2 (x + r) y).

Lemma ring_full x y r : 0 < r -> full_circle (ring x y r).
Proof. intros H. unfold full_circle, ring. cbn. repeat split; lra. Qed.

Lemma ring_drill x y r : 15 / 100 <= r <= 10 ^ 5 -> Rabs x <= 10 ^ 6 -> Rabs y <= 10 ^ 6 -> drill_circle x y (2 * r) = ring x y r.
Proof.
  intros H X Y. destruct (drill_made x y (2 * r)) as (F & C & R); [lra|exact X|exact Y|]. unfold drill_circle in *. cbv zeta in *.
  destruct (set_arc_spec (mkPt x y 0) (mkPt (x + 1 / 2 * (2 * r)) y 0) (mkPt (x + 1 / 2 * (2 * r)) y 0) false) as (_ & I & J & _).
  destruct (fst (set_arc (mkPt x y 0) (mkPt (x + 1 / 2 * (2 * r)) y 0) (mkPt (x + 1 / 2 * (2 * r)) y 0) false)) eqn:E.
  - rewrite (J eq_refl (one_point_refl _ _)) in *. unfold circle_of, ring in *. cbn [s_rad px py pz] in *. rewrite R. replace (2 * r / 2) with r by field. reflexivity.
  - rewrite (I eq_refl) in F. destruct F as (F & _). discriminate.
Qed.

Definition dA : drill := (0%nat, circle5).
Definition dB : drill := (1%nat, circle8).
Definition dC : drill := (2%nat, ring 8 12 8).
Definition dD : drill := (3%nat, ring 0 8 2).
Definition dE : drill := (4%nat, ring 100 0 1).
Definition dF : drill := (5%nat, ring 100 0 1).

Lemma full_all : Forall (fun d => full_circle (snd d)) [dA; dB; dC; dD; dE; dF].
Proof. repeat constructor; cbn [snd]; try (now split); try (cbn; lra). Qed.

Lemma full_of d : In d [dA; dB; dC; dD; dE; dF] -> full_circle (snd d).
Proof. exact (proj1 (Forall_forall _ _) full_all d). Qed.

Lemma dist_lo x y u v k : 0 <= k -> k ^ 2 < (x - u) ^ 2 + (y - v) ^ 2 -> k < dist (at2 x y) (at2 u v).
Proof. intros K H. pose proof (dist_sq (at2 x y) (at2 u v)) as Q. unfold dist2 in Q. cbn [px py at2] in Q. pose proof (dist_pos (at2 x y) (at2 u v)). nra. Qed.
Lemma dist_hi x y u v k : 0 <= k -> (x - u) ^ 2 + (y - v) ^ 2 < k ^ 2 -> dist (at2 x y) (at2 u v) < k.
Proof. intros K H. pose proof (dist_sq (at2 x y) (at2 u v)) as Q. unfold dist2 in Q. cbn [px py at2] in Q. pose proof (dist_pos (at2 x y) (at2 u v)). nra. Qed.

Lemma clear_if a b : In a [dA; dB; dC; dD; dE; dF] -> In b [dA; dB; dC; dD; dE; dF] -> apart a b -> circle_meet a b = Clear.
Proof. intros Ia Ib H. apply (meet_answers a b (full_of a Ia) (full_of b Ib)). exact H. Qed.
Lemma hit_if a b : In a [dA; dB; dC; dD; dE; dF] -> In b [dA; dB; dC; dD; dE; dF] -> crossing a b -> circle_meet a b = Hit.
Proof. intros Ia Ib H. apply (meet_answers a b (full_of a Ia) (full_of b Ib)). exact H. Qed.

Ltac isin := cbn; tauto.
Ltac far_off := apply clear_if; [isin|isin|]; unfold apart; cbn [snd s_cen s_rad dA dB dC dD dE dF circle5 circle8 ring]; apply dist_lo; lra.

Lemma AC : circle_meet dA dC = Clear. Proof. far_off. Qed.
Lemma AD : circle_meet dA dD = Clear. Proof. far_off. Qed.
Lemma AE : circle_meet dA dE = Clear. Proof. far_off. Qed.
Lemma AF : circle_meet dA dF = Clear. Proof. far_off. Qed.
Lemma BD : circle_meet dB dD = Clear. Proof. far_off. Qed.
Lemma BE : circle_meet dB dE = Clear. Proof. far_off. Qed.
Lemma BF : circle_meet dB dF = Clear. Proof. far_off. Qed.

Lemma crosses a b (lo hi : R) : lo < dist (s_cen (snd a)) (s_cen (snd b)) < hi -> 0 <= lo -> Rabs (s_rad (snd a) - s_rad (snd b)) <= lo -> hi <= s_rad (snd a) + s_rad (snd b) - e3 -> 1 <= lo ->
  ~ far (s_cen (snd a)) -> ~ far (s_cen (snd b)) -> pz (s_cen (snd a)) = 0 -> pz (s_cen (snd b)) = 0 -> crossing a b.
Proof.
  intros D L A H O Fa Fb Za Zb. unfold crossing. cbv zeta. set (d := dist (s_cen (snd a)) (s_cen (snd b))) in *. assert (E3 : 0 < e3) by (unfold e3; lra).
  split; [|split; [|lra]].
  - intros (P & _). assert (G : gap2 (s_cen (snd a)) (s_cen (snd b)) = d * d) by (rewrite gap2_flat by assumption; unfold d; now rewrite dist_sq).
    destruct P as [P|[(_ & _ & P)|([P|P] & _)]]; [| |tauto|tauto]; rewrite G in P; unfold e3 in P; nra.
  - unfold touching. fold d. intros T. apply Rabs_def2 in T. lra.
Qed.

Ltac cross lo hi := apply hit_if; [isin|isin|]; apply (crosses _ _ lo hi); cbn [snd s_cen s_rad dA dB dC dD dE dF circle5 circle8 ring]; [split; [apply dist_lo|apply dist_hi]; lra|lra|apply Rabs_le; lra|unfold e3; lra|lra|apply not_far; lra|apply not_far; lra|reflexivity|reflexivity].

Lemma AB : circle_meet dA dB = Hit. Proof. cross 7 9. Qed.
Lemma BC : circle_meet dB dC = Hit. Proof. cross 11 (125/10). Qed.
Lemma CD : circle_meet dC dD = Hit. Proof. cross 8 9. Qed.

Lemma EF : circle_meet dE dF = Flagged.
Proof.
  destruct (circles_spec (snd dE) (snd dF)) as (_ & K & _); [apply full_of; isin|apply full_of; isin|]. cbv zeta in K.
  unfold circle_meet. rewrite K; [reflexivity| |].
  - cbn [snd dE dF ring s_cen s_rad]. rewrite (dist_at2 100 0 100 0 0) by lra. lra.
  - split; [apply one_point_refl|]. cbn [snd dE dF ring s_rad]. replace (1 - 1) with 0 by ring. rewrite Rabs_R0. unfold e3; lra.
Qed.

Ltac run := repeat (cbn [scan sweep grow walk app length Nat.add]; rewrite ?AB, ?AC, ?AD, ?AE, ?AF, ?BC, ?BD, ?BE, ?BF, ?CD, ?EF).

Lemma lost_merge : DrModel.merge circle_meet [dA; dB; dE; dF] = DrModel.Merged [dE; dF] [[dA; dB]] true.
Proof. unfold DrModel.merge. run. reflexivity. Qed.

Lemma chain_merge : DrModel.merge circle_meet [dA; dB; dC; dD] = DrModel.Merged [] [[dA; dB; dC; dD]] false.
Proof. unfold DrModel.merge. run. reflexivity. Qed.

Lemma lost_list : drill_list [dA; dB; dE; dF].
Proof. split; [repeat constructor; cbn; intuition discriminate|]. intros d I. apply full_of. cbn in *; tauto. Qed.

Lemma chain_list : drill_list [dA; dB; dC; dD].
Proof. split; [repeat constructor; cbn; intuition discriminate|]. intros d I. apply full_of. cbn in *; tauto. Qed.

(** Two drills which overlap, and one which is entered twice: the first two are gone. *)
Theorem two_lost {O B} (begin : drill -> O) add (sub : B -> drill -> reply B) put_cutout put_hole edge :
  (forall o d, exists o', sub o d = Left o') ->
  exists b, make_board circle_closer begin add sub put_cutout put_hole circle_meet edge [] [dA; dB; dE; dF] = Makes b /\
    vanished b = [dA; dB] /\ (put_hole = (fun o d => Took o) -> as_holes b = [dE; dF]) /\ in_cutouts b = [] /\ on_edge b = [].
Proof.
  intros S. unfold make_board, merge_drills. rewrite lost_merge. cbn [map all_alive concat app cut_edge].
  destruct (S edge dE) as (o1 & ->). destruct (S o1 dF) as (o2 & ->). cbn [give_all put_cutouts].
  destruct (put_holes put_hole o2 [dE; dF]) as ((o3 & h) & x) eqn:E. eexists. split; [reflexivity|]. cbn [vanished as_holes in_cutouts on_edge].
  split; [reflexivity|]. split; [|split; reflexivity]. intros ->. cbn in E. injection E as _ <- _. reflexivity.
Qed.

(** Four drills in a chain which comes back: the last is nearer to the first than the third
    is, so it is added before what joins it to the others. *)
Lemma gaps : gap dA dB < gap dA dD /\ gap dA dD < gap dA dC.
Proof.
  unfold gap. cbn [snd s_cen s_rad dA dB dC dD circle5 circle8 ring]. rewrite (dist_at2 8 0 0 0 8) by lra. rewrite (dist_at2 0 8 0 0 8) by lra.
  pose proof (dist_lo 8 12 0 0 (144 / 10)). lra.
Qed.

Lemma chain_order : in_order circle_closer dA [dB; dC; dD] = [dB; dD; dC].
Proof.
  destruct gaps as (G1 & G2). unfold in_order. cbn [length sorted exchange]. unfold circle_closer.
  rewrite (ltb_f (gap dA dC) (gap dA dB)) by lra. rewrite (ltb_f (gap dA dD) (gap dA dB)) by lra. cbn [sorted exchange].
  unfold circle_closer. rewrite (ltb_t (gap dA dD) (gap dA dC)) by lra. reflexivity.
Qed.

Lemma begin_A : circle_begin dA = out5.
Proof. unfold circle_begin. cbn [snd dA]. pose proof circle5_drawn as H. unfold draw in H. cbn [fold_left] in H. rewrite H. reflexivity. Qed.

(** The union of the first two consists of an arc of each. *)
Lemma union_58 : exists o' s' sp, op_circle out5 (Some circle8) false = (yes, o') /\ o_segs o' = [s'; sp] /\ o_closed o' = true /\
  arc_ok s' /\ s_ty s' = SArc /\ s_cen s' = at2 0 0 /\ s_rad s' = 5 /\ arc_ok sp /\ s_ty sp = SArc /\ s_cen sp = at2 8 0 /\ s_rad sp = 5.
Proof.
  destruct (discs_run out5 circle5 circle8 false out5_built eq_refl eq_refl circle8_full out5_clear _ _ circles_58 points_58) as (f0 & f1 & Hf & E & _).
  destruct (op_58 false) as (o' & D). exists o'. 
  rewrite D in E. destruct (set_arc (s_cen circle8) f0 f1 false) as ([|] & sp) eqn:Sa; [|discriminate].
  destruct (split circle5 [f0; f1]) as ([|] & ps & s' & n) eqn:Sl; [|discriminate]. injection E as ->. exists s', sp. split; [exact D|]. split; [reflexivity|]. split; [reflexivity|].
  assert (N01 : ~ one_point f0 f1 e8 /\ ~ one_point f1 f0 e8 /\ in_plane f0 /\ in_plane f1 /\ dist f0 (at2 0 0) = 5 /\ dist f1 (at2 0 0) = 5 /\ dist f0 (at2 8 0) = 5).
  { assert (N : ~ one_point (at2 4 (-3)) (at2 4 3) e8) by (intros O; apply points_58; now apply one_point_sym).
    destruct Hf as [(-> & ->)|(-> & ->)]; (split; [first [exact points_58|exact N]|]); (split; [first [exact points_58|exact N]|]); (split; [reflexivity|]); (split; [reflexivity|]);
      (split; [apply dist_at2; lra|]); (split; [apply dist_at2; lra|]); apply dist_at2; lra. }
  destruct N01 as (N0 & N1 & Z0 & Z1 & D0 & D1 & D8).
  destruct (arc_made _ _ _ _ _ Sa N0) as (T & Cc & _ & _ & _ & Rr & O & Sg & _).
  assert (Oa : arc_ok sp). { split; [now exists e8|]. split; [exact Sg|]. rewrite Cc. reflexivity. }
  assert (Sa' : set_arc (s_cen circle5) f1 f0 false = (true, s')).
  { assert (Q : fst (set_arc (s_cen circle5) f1 f0 false) = true).
    { apply set_arc_spec. change (s_cen circle5) with (at2 0 0).
      assert (Nc : forall f, in_plane f -> dist f (at2 0 0) = 5 -> ~ one_point (at2 0 0) f e8).
      { intros f Zf Df O1. assert (G : gap2 (at2 0 0) f = 25). { rewrite gap2_flat by (assumption || reflexivity). pose proof (dist_sq f (at2 0 0)) as W. rewrite Df in W. unfold dist2 in *. cbn [px py at2] in *. nra. }
        unfold one_point in O1. rewrite G in O1. assert (Nf : ~ far (at2 0 0) /\ ~ far f).
        { split; [apply not_far; lra|]. rewrite (at2_eta f Zf). pose proof (dist_sq f (at2 0 0)) as W. rewrite Df in W. unfold dist2 in W. cbn [px py at2] in W. apply not_far; nra. }
        destruct O1 as [O1|[O1|O1]]; [unfold e8 in O1; lra|lra|tauto]. }
      repeat split; try assumption; try (apply Nc; assumption). right. rewrite D0, D1. replace (5 - 5) with 0 by ring. rewrite Rabs_R0. unfold e8. lra. }
    destruct (set_arc (s_cen circle5) f1 f0 false) as (ok & s0) eqn:Q0. cbn in Q. subst ok. f_equal.
    destruct (set_arc_spec (s_cen circle5) f1 f0 false) as (_ & _ & _ & J). rewrite Q0 in J. cbn [fst snd] in J. rewrite (J eq_refl N1).
    unfold split in Sl. change (s_ty circle5) with SCircle in Sl. cbn [length] in Sl. unfold split_circle in Sl. cbv zeta in Sl.
    repeat match type of Sl with context [if ?b then (false, _) else _] => destruct b; [discriminate|] end. cbn [fst snd] in Sl. injection Sl as _ <- _.
    unfold arc_of, ccw_arc. change (s_cen circle5) with (at2 0 0). rewrite D1. cbv zeta.
    rewrite norm_no_loop; [reflexivity|left; apply atan2_range|left; apply atan2_range]. }
  destruct (arc_made _ _ _ _ _ Sa' N1) as (T' & Cc' & _ & _ & _ & Rr' & O' & Sg' & _).
  assert (Oa' : arc_ok s'). { split; [now exists e8|]. split; [exact Sg'|]. rewrite Cc'. reflexivity. }
  change (s_cen circle5) with (at2 0 0) in *. change (s_cen circle8) with (at2 8 0) in *. rewrite D1 in Rr'. rewrite D8 in Rr.
  repeat (split; [assumption|]). assumption.
Qed.

Theorem chain_freed : bundle_outline circle_closer circle_begin circle_add [dA; dB; dC; dD] = (false, Freed).
Proof.
  unfold bundle_outline. rewrite chain_order, begin_A. cbn [add_all]. unfold circle_add at 1. cbn [snd dB].
  destruct union_58 as (o' & s' & sp & E & So & Cl & A1 & T1 & C1 & R1 & A2 & T2 & C2 & R2). rewrite E. cbn [told yes add_all]. unfold circle_add at 1. cbn [snd dD].
  rewrite (op_misses o' (ring 0 8 2) false Cl eq_refl); [reflexivity|]. rewrite So.
  assert (Fd : full_circle (ring 0 8 2)) by (apply ring_full; lra).
  intros s [<-|[<-|[]]].
  - apply (arcs_apart s' (ring 0 8 2)); [right; exact A1|left; exact Fd|left; exact T1|]. left. rewrite C1, R1. cbn [ring s_cen s_rad]. apply dist_lo; lra.
  - apply (arcs_apart sp (ring 0 8 2)); [right; exact A2|left; exact Fd|left; exact T2|]. left. rewrite C2, R2. cbn [ring s_cen s_rad]. apply dist_lo; lra.
Qed.

Theorem chain_dies {B} (sub : B -> drill -> reply B) put_cutout put_hole edge cutouts :
  make_board circle_closer circle_begin circle_add sub put_cutout put_hole circle_meet edge cutouts [dA; dB; dC; dD] = Dies.
Proof.
  apply board_dies. exists [], [[dA; dB; dC; dD]], [dA; dB; dC; dD]. split; [exact chain_merge|]. split; [left; reflexivity|]. unfold makes. rewrite chain_freed. discriminate.
Qed.

Lemma chain_clean : flag_free circle_meet [dA; dB; dC; dD].
Proof.
  intros a b P E. destruct (pair_in _ _ _ P) as (Ia & Ib).
  assert (Sy := drills_symmetric _ chain_list).
  assert (K : forall x y, In x [dA; dB; dC; dD] -> In y [dA; dB; dC; dD] -> circle_meet x y = Clear -> circle_meet y x = Clear).
  { intros x y Ix Iy H. apply (meet_answers y x); [apply (proj2 chain_list); assumption|apply (proj2 chain_list); assumption|]. apply (meet_answers x y) in H; [|apply (proj2 chain_list); assumption|apply (proj2 chain_list); assumption].
    unfold apart in *. rewrite dist_sym. lra. }
  assert (BA : circle_meet dB dA = Hit) by (apply Sy; [isin|isin|exact AB]). assert (CB : circle_meet dC dB = Hit) by (apply Sy; [isin|isin|exact BC]). assert (DC : circle_meet dD dC = Hit) by (apply Sy; [isin|isin|exact CD]).
  assert (CA : circle_meet dC dA = Clear) by (apply K; [isin|isin|exact AC]). assert (DA : circle_meet dD dA = Clear) by (apply K; [isin|isin|exact AD]). assert (DB : circle_meet dD dB = Clear) by (apply K; [isin|isin|exact BD]).
  assert (N : a <> b).
  { intros <-. destruct P as (o & P). destruct (addresses _ (proj1 chain_list)) as (Nd & _). apply (Permutation_NoDup P) in Nd. inversion Nd as [|? ? X]. apply X; left; reflexivity. }
  cbn in Ia, Ib. destruct Ia as [<-|[<-|[<-|[<-|[]]]]], Ib as [<-|[<-|[<-|[<-|[]]]]]; try contradiction; first [rewrite AB in E|rewrite AC in E|rewrite AD in E|rewrite BA in E|rewrite BC in E|rewrite BD in E|rewrite CA in E|rewrite CB in E|rewrite CD in E|rewrite DA in E|rewrite DB in E|rewrite DC in E]; discriminate.
Qed.

Lemma drills_of_case : snd dC = drill_circle 8 12 16 /\ snd dD = drill_circle 0 8 4 /\ snd dE = drill_circle 100 0 2.
Proof.
  cbn [snd dC dD dE]. replace 16 with (2 * 8) by ring. replace (drill_circle 0 8 4) with (drill_circle 0 8 (2 * 2)) by (f_equal; ring). replace (drill_circle 100 0 2) with (drill_circle 100 0 (2 * 1)) by (f_equal; ring).
  rewrite !ring_drill; try (split; lra); try (apply Rabs_le; lra). auto.
Qed.

Lemma circle_order f l : Permutation l (in_order circle_closer f l) /\
  StronglySorted (fun a b => dist (s_cen (snd a)) (s_cen (snd f)) - s_rad (snd a) <= dist (s_cen (snd b)) (s_cen (snd f)) - s_rad (snd b)) (in_order circle_closer f l).
Proof.
  split; [exact (in_order_perm circle_closer f l)|].
  pose proof (in_order_sorted circle_closer closer_weak closer_asym f l) as H.
  induction H as [|a m S IH F]; constructor; [exact IH|]. revert F. apply Forall_impl. intros b H.
  unfold circle_closer in H. apply ltb_false in H. unfold gap in H. lra.
Qed.
