(** Facts about walls: what they cover and which way they face. *)

From Coquelicot Require Import Coquelicot.
From Coq Require Import Reals List Bool ZArith Lra Lia Psatz.
From Verif Require Import SegModel SegSpec SegTrig SegFacts OutModel PcbModel PcbSpec PcbCurve PcbCyl.
Import ListNotations.
Open Scope R_scope.

Lemma all_some_forall {A B} (f : A -> option B) l : forall l', all_some (map f l) = Some l' -> Forall2 (fun x y => f x = Some y) l l'.
Proof.
  induction l as [|x l IH]; cbn [map all_some]; intros l' E; [injection E; intros <-; constructor|].
  destruct (f x) as [y|] eqn:F; [|discriminate]. destruct (all_some (map f l)) as [r|]; [|discriminate].
  injection E. intros <-. constructor; [exact F|]. now apply IH.
Qed.
Lemma all_some_none {A B} (f : A -> option B) l : all_some (map f l) = None <-> Exists (fun x => f x = None) l.
Proof.
  induction l as [|x l IH]; cbn [map all_some]; [split; [discriminate|intro H; inversion H]|]. rewrite Exists_cons, <- IH.
  destruct (f x) as [y|] eqn:F; [|tauto]. destruct (all_some (map f l)); split; intro H; try tauto; try discriminate.
  destruct H; discriminate.
Qed.

(** ** [SetParams] of a cylinder *)

Lemma cyl_rad c p : sqrt ((px c - px p) * (px c - px p) + (py c - py p) * (py c - py p)) = dist p c.
Proof. rewrite dist_sym. unfold dist, dist2. f_equal. ring. Qed.

Lemma set_cyl_accepts c a b : fst (set_cyl c a b) = true <->
  in_plane c /\ in_plane a /\ in_plane b /\ ~ one_point c a e8 /\ ~ one_point c b e8 /\ Rabs (dist a c - dist b c) <= e8.
Proof.
  unfold set_cyl. rewrite !cyl_rad. unfold in_plane, eqb.
  destruct (Req_EM_T (pz c) 0) as [C|C]; cbn [negb orb]; [|split; [discriminate|tauto]].
  destruct (Req_EM_T (pz a) 0) as [A|A]; cbn [negb orb]; [|split; [discriminate|tauto]].
  destruct (Req_EM_T (pz b) 0) as [B|B]; cbn [negb orb]; [|split; [discriminate|tauto]].
  destruct (point_matches c a e8) eqn:CA; [apply point_matches_spec in CA; cbn [orb]; split; [discriminate|tauto]|].
  destruct (point_matches c b e8) eqn:CB; [apply point_matches_spec in CB; cbn [orb]; split; [discriminate|tauto]|].
  apply point_matches_not in CA, CB. cbn [orb].
  destruct (Rlt_dec e8 (Rabs (dist a c - dist b c))) as [L|L]; [rewrite (ltb_t _ _ L)|rewrite (ltb_f e8) by lra].
  - split; [discriminate|]. intros (_ & _ & _ & _ & _ & Q). lra.
  - split; [intros _; repeat split; try assumption; lra|]. intros _. now destruct (point_matches a b e8).
Qed.

Lemma set_cyl_refused c a b : fst (set_cyl c a b) = false -> snd (set_cyl c a b) = cyl_clear.
Proof.
  unfold set_cyl. destruct (_ || _ || _); [reflexivity|]. destruct (_ || _); [reflexivity|]. destruct (ltb _ _); [reflexivity|].
  destruct (point_matches a b e8); discriminate.
Qed.

Definition cyl_parts (k : cyl) := combine (pairs (c_pts k)) (c_angs k).

(** The cylinder over a segment. *)
Definition cyl_for (s : seg) (k : cyl) : Prop :=
  c_cen k = s_cen s /\ c_rad k = s_rad s /\ c_angs k <> [] /\
  parts (s_cen s) (s_rad s) (start_angle s) (end_angle s) (start_angle s) (cyl_parts k) (end_angle s).

Lemma round_dist o r w p : 0 < r -> on_round o r w p -> dist p o = r.
Proof.
  intros P [A B]. unfold dist, dist2. pose proof (sin2_cos2 w) as Q. unfold Rsqr in Q.
  replace ((px p - px o)^2 + (py p - py o)^2) with (r * r); [apply sqrt_square; lra|].
  rewrite A, B. transitivity (r * r * (sin w * sin w + cos w * cos w)); [rewrite Q; ring|ring].
Qed.

Lemma cyl_for_arc c a b r u d : in_plane c -> in_plane a -> in_plane b -> ~ one_point c a e8 -> ~ one_point c b e8 -> ~ one_point a b e8 ->
  0 < r -> - PI < u <= PI -> 0 < d < 2 * PI -> on_round c r u a -> on_round c r (u + d) b ->
  let k := snd (set_cyl c a b) in
  fst (set_cyl c a b) = true /\ c_cen k = c /\ c_rad k = r /\ c_angs k <> [] /\ parts c r u (u + d) u (cyl_parts k) (u + d).
Proof.
  intros C A B CA CB AB P U D RA RB. pose proof (round_dist _ _ _ _ P RA) as DA. pose proof (round_dist _ _ _ _ P RB) as DB.
  assert (OK : fst (set_cyl c a b) = true).
  { apply set_cyl_accepts. repeat split; try assumption. rewrite DA, DB. unfold Rminus. rewrite Rplus_opp_r, Rabs_R0. unfold e8. lra. }
  unfold set_cyl in *. rewrite !cyl_rad in *. rewrite DA, DB in *.
  destruct (_ || _ || _) in *; [discriminate|]. destruct (_ || _) in *; [discriminate|]. destruct (ltb _ _) in *; [discriminate|].
  apply point_matches_not in AB. rewrite AB in *. cbv zeta. cbn [fst snd]. clear OK.
  destruct (rel_angle c r u a P RA) as (u' & E1 & R1 & C1 & S1 & _).
  rewrite (angle_unique u' u C1 S1 ltac:(lra)) in E1. rewrite E1.
  destruct (rel_angle c r (u + d) b P RB) as (v & E2 & R2 & C2 & S2 & _). rewrite E2.
  rewrite (cyl_angles_counted u v U R2), (counted_on u v d U R2 D C2 S2).
  unfold cyl_parts. cbn [c_cen c_rad c_pts c_angs].
  pose proof (cyl_angles_parts c r u (u + d) a b U ltac:(lra) RA RB B) as PT. cbv zeta in PT.
  repeat (split; [reflexivity|]). split; [|exact PT]. intro N. rewrite N in PT. cbn in PT. inversion PT. lra.
Qed.

Lemma cyl_for_seg s : sharp s -> s_ty s = SArc \/ s_ty s = SCircle -> fst (set_cyl (s_cen s) (get_start s) (get_end s)) = true /\
  cyl_for s (snd (set_cyl (s_cen s) (get_start s) (get_end s))).
Proof.
  intros H [T|T]; unfold sharp in H; rewrite T in H.
  - destruct H as (C & A & B & P & R & L & RA & RB & AB & CA & CB). unfold course in RA, RB. rewrite T in RA, RB.
    replace (s_sang s + 0 * (s_eang s - s_sang s)) with (s_sang s) in RA by ring.
    replace (s_sang s + 1 * (s_eang s - s_sang s)) with (s_eang s) in RB by ring.
    unfold cyl_for, get_start, get_end, start_angle, end_angle in *. destruct (s_cw s).
    + pose proof (cyl_for_arc (s_cen s) (s_end s) (s_start s) (s_rad s) (s_eang s) (s_sang s - s_eang s) C B A CB CA
        (fun X => AB (one_point_sym _ _ _ X)) P R ltac:(lra) RB) as K.
      replace (s_eang s + (s_sang s - s_eang s)) with (s_sang s) in K by ring. exact (K RA).
    + pose proof (cyl_for_arc (s_cen s) (s_start s) (s_end s) (s_rad s) (s_sang s) (s_eang s - s_sang s) C A B CA CB AB P R ltac:(lra) RA) as K.
      replace (s_sang s + (s_eang s - s_sang s)) with (s_eang s) in K by ring. exact (K RB).
  - destruct H as (C & P & SA & EA & CW & ST & EN & CA). pose proof PI_RGT_0 as PP.
    assert (E : get_start s = s_start s /\ get_end s = s_start s) by (unfold get_start, get_end; rewrite CW, EN; tauto). destruct E as [E1 E2].
    rewrite E1, E2. assert (ZS : pz (s_start s) = 0) by now rewrite ST.
    assert (OK : fst (set_cyl (s_cen s) (s_start s) (s_start s)) = true).
    { apply set_cyl_accepts. repeat split; try assumption. unfold Rminus. rewrite Rplus_opp_r, Rabs_R0. unfold e8. lra. }
    split; [exact OK|]. assert (RS : on_round (s_cen s) (s_rad s) 0 (s_start s)) by (rewrite ST; apply round_right).
    pose proof (round_dist _ _ _ _ P RS) as DS. unfold set_cyl in *. rewrite !cyl_rad in *. rewrite DS in *.
    destruct (_ || _ || _) in *; [discriminate|]. destruct (_ || _) in *; [discriminate|]. destruct (ltb _ _) in *; [discriminate|].
    assert (M : point_matches (s_start s) (s_start s) e8 = true) by (apply point_matches_spec, one_point_refl). rewrite M in *.
    unfold cyl_for, cyl_parts, start_angle, end_angle. cbn [snd c_cen c_rad c_angs c_pts pairs combine]. rewrite CW, SA, EA, C. 
    repeat (split; [reflexivity|]). split; [discriminate|].
    assert (LF : on_round (s_cen s) (s_rad s) PI (mkPt (px (s_cen s) - s_rad s) (py (s_cen s)) 0)) by apply round_left.
    assert (RT : on_round (s_cen s) (s_rad s) 0 (mkPt (px (s_cen s) + s_rad s) (py (s_cen s)) 0)) by apply round_right.
    assert (RT2 : on_round (s_cen s) (s_rad s) (2 * PI) (mkPt (px (s_cen s) + s_rad s) (py (s_cen s)) 0)) by apply round_right2.
    pst PI. pst (2 * PI). constructor.
Qed.

(** ** What a part covers *)

Section Rect.
Variables (rev : bool) (g h : R).
Hypothesis GH : g <= h.
Lemma on_rect q : on_curves (cyl_par rev (g, h)) q -> 0 <= px q <= 1 /\ exists w, g <= w <= h /\ py q = vpar rev w.
Proof.
  intros (c & t & I & T & G). unfold cyl_par in I. cbn [fst snd] in I. fold (vpar rev g) (vpar rev h) in I.
  assert (V : forall x y t, vpar rev x + t * (vpar rev y - vpar rev x) = vpar rev (x + t * (y - x))) by (intros; unfold vpar; destruct rev; ring).
  destruct I as [<-|[<-|[<-|[<-|[]]]]]; destruct G as (X & Y & _); cbn [px py pz] in X, Y; rewrite V in Y; (split; [lra|]); eexists; (split; [|exact Y]); nra.
Qed.

Lemma rect_enclosed u v : enclosed (cyl_par rev (g, h)) u v <-> 0 <= u <= 1 /\ exists w, g <= w <= h /\ v = vpar rev w.
Proof.
  split.
  - intros (a & b & c & d & A & B & C & D & U & V). apply on_rect in A, B, C, D.
    split; [lra|]. destruct C as (_ & w1 & W1 & E1). destruct D as (_ & w2 & W2 & E2). rewrite E1, E2 in V.
    exists (vpar rev v). unfold vpar in *. destruct rev; split; try lra; ring.
  - intros (U & w & W & ->).
    assert (A : on_curves (cyl_par rev (g, h)) (mkPt 0 (vpar rev g) 0)).
    { eexists. exists 0. split; [left; reflexivity|]. split; [lra|]. unfold goes, straight, vpar. cbn [px py pz fst snd]. repeat split; ring. }
    assert (B : on_curves (cyl_par rev (g, h)) (mkPt 1 (vpar rev h) 0)).
    { eexists. exists 0. split; [right; right; left; reflexivity|]. split; [lra|]. unfold goes, straight, vpar. cbn [px py pz fst snd]. repeat split; ring. }
    destruct rev eqn:RV.
    + exists (mkPt 0 (vpar true g) 0), (mkPt 1 (vpar true h) 0), (mkPt 1 (vpar true h) 0), (mkPt 0 (vpar true g) 0). unfold vpar in *. cbn [px py pz]. repeat split; try assumption; lra.
    + exists (mkPt 0 (vpar false g) 0), (mkPt 1 (vpar false h) 0), (mkPt 0 (vpar false g) 0), (mkPt 1 (vpar false h) 0). unfold vpar in *. cbn [px py pz]. repeat split; try assumption; lra.
Qed.
End Rect.

Lemma part_patch k top bot rev g h G I x : bot < top -> g <= h ->
  (patch (mkTrim (cyl_surf k top bot rev) (mkBound (cyl_par rev (g, h)) G) I) x <->
   exists w, g <= w <= h /\ on_round (c_cen k) (c_rad k) w x /\ bot <= pz x <= top).
Proof.
  intros L GH. unfold patch. cbn [t_out t_surf b_par]. split.
  - intros (u & v & E & ->). apply rect_enclosed in E; [|exact GH]. destruct E as (U & w & W & ->). exists w. split; [exact W|].
    rewrite cyl_surf_at by exact L. unfold on_round. cbn [px py pz]. repeat split; nra.
  - intros (w & W & [X Y] & Z). exists ((top - pz x) / (top - bot)), (vpar rev w). split.
    + apply rect_enclosed; [exact GH|]. split; [|exists w; tauto].
      assert (0 < / (top - bot)) by (apply Rinv_0_lt_compat; lra). unfold Rdiv. split; [nra|].
      apply (Rmult_le_reg_r (top - bot)); [lra|]. rewrite Rmult_assoc, Rinv_l by lra. lra.
    + rewrite cyl_surf_at by exact L. apply pt_eq; cbn [px py pz]; try assumption. field. lra.
Qed.

Lemma parts_angle o r a b w l v p q g h : parts o r a b w l v -> In ((p, q), (g, h)) l ->
  exists x y, w <= x /\ x < y /\ y <= v /\ y <= x + PI /\ on_round o r x p /\ on_round o r y q /\ on_round o r g p /\ on_round o r h q /\
    0 <= g /\ h <= 2 * PI /\ h - g = y - x /\ (forall t, cos (g + t) = cos (x + t) /\ sin (g + t) = sin (x + t)) /\
    (x = a \/ sin x = 0) /\ (y = b \/ sin y = 0) /\ (h <= PI \/ PI <= g).
Proof.
  induction 1 as [w|w w' v p0 q0 g0 h0 l L A B G H HG E S1 S2 LB ZQ REST IH]; [easy|].
  assert (MON : w' <= v). { clear - REST. induction REST; lra. }
  intros [I|I].
  - inversion I. subst p0 q0 g0 h0. exists w, w'.
    assert (TR : forall t, cos (g + t) = cos (w + t) /\ sin (g + t) = sin (w + t)).
    { intro t. destruct E as [[-> ->]|[[-> ->]|[-> ->]]]; [tauto| |].
      - replace (w + 2 * PI + t) with (w + t + 2 * PI) by ring. rewrite cos_turn, sin_turn. tauto.
      - rewrite <- (cos_turn (w - 2 * PI + t)), <- (sin_turn (w - 2 * PI + t)). replace (w - 2 * PI + t + 2 * PI) with (w + t) by ring. tauto. }
    assert (D : h - g = w' - w) by (destruct E as [[-> ->]|[[-> ->]|[-> ->]]]; lra).
    pose proof (TR 0) as T0. rewrite !Rplus_0_r in T0. pose proof (TR (h - g)) as T1. replace (g + (h - g)) with h in T1 by ring.
    replace (w + (h - g)) with w' in T1 by lra.
    unfold on_round. rewrite (proj1 T0), (proj2 T0), (proj1 T1), (proj2 T1). fold (on_round o r w p) (on_round o r w' q).
    repeat (split; [first [assumption|lra]|]). tauto.
  - destruct (IH I) as (x & y & X & REST'). exists x, y. split; [lra|exact REST'].
Qed.

Lemma parts_cover o r a b w l v x : parts o r a b w l v -> l <> [] -> 
  ((exists p q g h t, In ((p, q), (g, h)) l /\ g <= t <= h /\ on_round o r t x) <-> exists t, w <= t <= v /\ on_round o r t x).
Proof.
  intros H N. split.
  - intros (p & q & g & h & t & I & T & X). destruct (parts_angle _ _ _ _ _ _ _ _ _ _ _ H I) as (y & z & Y & YZ & Z & _ & _ & _ & _ & _ & _ & _ & D & TR & _).
    exists (y + (t - g)). split; [lra|]. pose proof (TR (t - g)) as K. replace (g + (t - g)) with t in K by ring.
    unfold on_round in *. now rewrite <- (proj1 K), <- (proj2 K).
  - intros (t & T & X). revert t T X N. 
    induction H as [w|w w' v p0 q0 g0 h0 l L A B G HH HG E S1 S2 LB ZQ REST IH]; [easy|]. intros t T X _.
      destruct (Rle_dec t w') as [LE|GT].
      - exists p0, q0, g0, h0. destruct E as [[-> ->]|[[-> ->]|[-> ->]]].
        + exists t. split; [left; reflexivity|]. split; [lra|exact X].
        + exists (t + 2 * PI). split; [left; reflexivity|]. split; [lra|now apply round_turn].
        + exists (t - 2 * PI). split; [left; reflexivity|]. split; [lra|now apply round_back].
      - assert (NE : l <> []) by (intro Z; subst l; inversion REST; lra).
        destruct (IH t ltac:(lra) X NE) as (p & q & g & h & t' & I & R). exists p, q, g, h, t'. split; [now right|exact R].
Qed.
