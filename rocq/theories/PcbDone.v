(** When walls are made. *)

From Coquelicot Require Import Coquelicot.
From Coq Require Import Reals List Bool ZArith Lra Lia Psatz.
From Verif Require Import SegModel SegSpec SegTrig SegFacts OutModel OutSpec PcbModel PcbSpec PcbCurve PcbCyl PcbWall PcbFace.
Import ListNotations.
Open Scope R_scope.

Lemma taken_one res c : taken_closed res [c] <-> (exists z o a b m, c = CArc z o a b m) /\ one_point (crv_start c) (crv_end c) res.
Proof.
  split.
  - intros (f & r & E & O & [N|K]); inversion E; subst; [now destruct N|]. tauto.
  - intros [K O]. exists c, []. tauto.
Qed.
Lemma taken_more res c d l : taken_closed res (c :: d :: l) <-> one_point (crv_start c) (crv_end (last (d :: l) c)) res.
Proof.
  split.
  - intros (f & r & E & O & _). inversion E. now subst.
  - intro O. exists c, (d :: l). split; [reflexivity|]. split; [exact O|]. left. discriminate.
Qed.

Lemma compose_four res a b c d : compose res [a; b; c; d] = Some [a; b; c; d] <->
  ~ taken_closed res [a] /\ ~ one_point (crv_start a) (crv_end b) res /\ ~ one_point (crv_start a) (crv_end c) res.
Proof.
  rewrite compose_spec. split.
  - intro H. split; [|split].
    + apply (H [a] [b; c; d]); [reflexivity|discriminate].
    + rewrite <- (taken_more res a b []). apply (H [a; b] [c; d]); [reflexivity|discriminate].
    + rewrite <- (taken_more res a b [c]). apply (H [a; b; c] [d]); [reflexivity|discriminate].
  - intros (A & B & C) l1 l2 E N. destruct l1 as [|x1 l1]; [intros (f & r & Z & _); discriminate|]. injection E as E1 E. subst x1.
    destruct l1 as [|x1 l1]; [exact A|]. injection E as E1 E. subst x1.
    destruct l1 as [|x1 l1]; [now rewrite taken_more|]. injection E as E1 E. subst x1.
    destruct l1 as [|x1 l1]; [now rewrite taken_more|]. injection E as E1 E. subst x1.
    destruct l1; [|discriminate]. now destruct l2.
Qed.

Lemma none_or {A} (x : option A) : x <> None <-> exists y, x = Some y.
Proof. destruct x; split; intro H; [eauto|discriminate|now destruct H|destruct H; discriminate]. Qed.

Lemma compose_some res l : compose res l <> None <-> compose res l = Some l.
Proof.
  rewrite none_or. split; [|eauto]. intros [l' H]. rewrite H. f_equal. exact (compose_keeps _ _ _ H).
Qed.

(** ** Distances *)

Lemma apart_points p q res : ~ far p -> ~ far q -> 30001 / 10000 * res^2 < gap2 p q -> 3 / 10^30 < gap2 p q -> ~ one_point p q res.
Proof. intros A B C D [E|[(_ & _ & E)|([E|E] & _)]]; try lra; tauto. Qed.

Lemma one_point_finer p q res res' : 0 <= res <= res' -> one_point p q res -> one_point p q res'.
Proof. intros R [A|B]; [left; nra|now right]. Qed.

Lemma home_not_far p z : at_home p -> - 10^6 <= z <= 10^6 -> ~ far (at_z p z).
Proof. intros [[A A'] [B B']] C. unfold far, gap2, at_z, origin. cbn [px py pz]. nra. Qed.

Lemma far_enough res x : 0 <= res <= e8 -> 1 / 10^12 <= x -> 30001 / 10000 * res^2 < x /\ 3 / 10^30 < x.
Proof. intros R X. unfold e8 in R. split; [nra|lra]. Qed.

Lemma square_ok res : 0 <= res <= e8 -> compose res square = Some square.
Proof.
  intro R. apply compose_four. split; [rewrite taken_one; intros [(z & o & a & b & m & K) _]; discriminate K|].
  assert (NF : forall x y, 0 <= x <= 1 -> 0 <= y <= 1 -> ~ far (mkPt x y 0)) by (intros x y X Y; unfold far, gap2, origin; cbn [px py pz]; nra).
  split; cbn [crv_start crv_end]; (apply apart_points; [apply NF; lra|apply NF; lra| |]); unfold gap2; cbn [px py pz]; unfold e8 in R; nra.
Qed.

Lemma par_ok res rev g h : 0 <= res <= e8 -> 0 <= g -> g < h -> h <= 2 * PI -> compose res (cyl_par rev (g, h)) = Some (cyl_par rev (g, h)).
Proof.
  intros R G GH H. unfold cyl_par. apply compose_four. split; [rewrite taken_one; intros [(z & o & a & b & m & K) _]; discriminate K|].
  pose proof PI_4 as P4. cbn [fst snd].
  assert (NF : forall x y, 0 <= x <= 1 -> 0 <= y <= 2 * PI -> ~ far (mkPt x y 0)) by (intros x y X Y; unfold far, gap2, origin; cbn [px py pz]; nra).
  split; cbn [crv_start crv_end]; (apply apart_points; [apply NF; destruct rev; lra|apply NF; destruct rev; lra| |]); unfold gap2; cbn [px py pz]; unfold e8 in R;
    destruct rev; match goal with |- context [(?a - ?b) ^ 2 + (?c - ?d) ^ 2] => pose proof (pow2_ge_0 (c - d)) end; nra.
Qed.

Lemma height_gap (p : pt) top bot : e6 <= Rabs (top - bot) -> 1 / 10^12 <= (top - bot)^2.
Proof. intro H. unfold e6 in H. assert (E : (top - bot)^2 = (Rabs (top - bot))^2) by (unfold Rabs; destruct (Rcase_abs _); ring). rewrite E. nra. Qed.

(** ** Lines *)

Lemma wall_made_line res top bot s rev : s_ty s = SLine -> at_home (s_start s) -> at_home (s_end s) ->
  - 10^6 <= top <= 10^6 -> - 10^6 <= bot <= 10^6 -> 0 <= res <= e8 ->
  (segment_wall res top bot s rev <> None <-> e6 <= Rabs (top - bot)).
Proof.
  intros T A B HT HB R. unfold segment_wall. rewrite T.
  destruct (Rlt_dec (Rabs (top - bot)) e6) as [K|K]; [rewrite (ltb_t _ _ K)|rewrite (ltb_f (Rabs (top - bot))) by lra].
  - split; [now intro X|intro; lra].
  - split; [intros _; lra|]. intros D. pose proof (height_gap (s_start s) top bot D) as HG.
    assert (W : forall a b, - 10^6 <= a <= 10^6 -> - 10^6 <= b <= 10^6 -> 1 / 10^12 <= (a - b)^2 ->
        exists t, wall_make res (at_z (s_start s) a) (at_z (s_end s) a) (at_z (s_end s) b) (at_z (s_start s) b) = Some t).
    { intros a b HA HB' G. unfold wall_make. fold square. rewrite (square_ok res R).
      assert (C : compose res [CLine (at_z (s_start s) a) (at_z (s_end s) a); CLine (at_z (s_end s) a) (at_z (s_end s) b); CLine (at_z (s_end s) b) (at_z (s_start s) b); CLine (at_z (s_start s) b) (at_z (s_start s) a)] <> None).
      { apply compose_some, compose_four. split; [rewrite taken_one; intros [(z & o & p & q & m & X) _]; discriminate X|].
        cbn [crv_start crv_end]. split; (apply apart_points; [now apply home_not_far|now apply home_not_far| |]); unfold gap2, at_z; cbn [px py pz];
          match goal with |- context [?a ^ 2 + ?b ^ 2 + _] => pose proof (pow2_ge_0 a); pose proof (pow2_ge_0 b) end; apply (far_enough res); try exact R; lra. }
      apply none_or in C. destruct C as [y Y]. rewrite Y. eauto. }
    destruct rev.
    + destruct (W top bot HT HB HG) as [t ->]. discriminate.
    + destruct (W bot top HB HT) as [t ->]; [replace ((bot - top)^2) with ((top - bot)^2) by ring; exact HG|discriminate].
Qed.

(** ** Arcs *)

Lemma sin_zeros x y : sin x = 0 -> sin y = 0 -> x < y <= x + PI -> y = x + PI.
Proof.
  intros X Y L. destruct (Req_dec y (x + PI)) as [E|N]; [exact E|]. exfalso.
  assert (sin (y - x) = 0) by (rewrite sin_minus, X, Y; ring). pose proof (sin_gt_0 (y - x) ltac:(lra) ltac:(lra)). lra.
Qed.

Lemma opposite o r w p q z res : 0 <= res <= e8 -> 30001 / 10000 * e8^2 < r^2 -> on_round o r w p -> on_round o r (w + PI) q ->
  ~ far (at_z p z) -> ~ far (at_z q z) -> ~ one_point (at_z p z) (at_z q z) res.
Proof.
  intros R RR [A B] [C D] F1 F2. rewrite neg_cos in C. rewrite neg_sin in D.
  assert (G : gap2 (at_z p z) (at_z q z) = 4 * r^2).
  { unfold gap2, at_z. cbn [px py pz]. rewrite A, B, C, D. pose proof (sin2_cos2 w) as Q. unfold Rsqr in Q.
    transitivity (4 * r^2 * (sin w * sin w + cos w * cos w)); [ring|rewrite Q; ring]. }
  unfold e8 in *. apply apart_points; try assumption; rewrite G; nra.
Qed.

Lemma geo_ok res k top bot p q : 0 <= res <= e8 -> at_home p -> at_home q -> - 10^6 <= top <= 10^6 -> - 10^6 <= bot <= 10^6 -> 1 / 10^12 <= (top - bot)^2 ->
  (compose res (cyl_geo (c_cen k) top bot p q) <> None <-> ~ one_point (at_z p top) (at_z q top) res).
Proof.
  intros R HP HQ HT HB G. rewrite compose_some. unfold cyl_geo. rewrite compose_four, taken_one. cbn [crv_start crv_end moved].
  assert (E : xf_apply (flip (px (c_cen k)) bot) (mkPt (px (mkPt (px (c_cen k) - px p) (py p) 0)) (py (mkPt (px (c_cen k) - px p) (py p) 0)) bot) = at_z p bot).
  { unfold xf_apply, dot, flip, at_z. cbn [px py pz xf_x xf_y xf_z xf_t]. apply pt_eq; cbn [px py pz]; ring. }
  rewrite E. fold (at_z p top) (at_z q top).
  assert (N1 : ~ one_point (at_z p top) (at_z q bot) res).
  { apply apart_points; [now apply home_not_far|now apply home_not_far| |]; unfold gap2, at_z; cbn [px py pz];
      match goal with |- context [?a ^ 2 + ?b ^ 2 + _] => pose proof (pow2_ge_0 a); pose proof (pow2_ge_0 b) end; apply (far_enough res); try exact R; lra. }
  assert (N2 : ~ one_point (at_z p top) (at_z p bot) res).
  { apply apart_points; [now apply home_not_far|now apply home_not_far| |]; unfold gap2, at_z; cbn [px py pz];
      match goal with |- context [?a ^ 2 + ?b ^ 2 + _] => pose proof (pow2_ge_0 a); pose proof (pow2_ge_0 b) end; apply (far_enough res); try exact R; lra. }
  split; [|tauto]. intros (A & _) O. apply A. split; [eauto 8|exact O].
Qed.

Lemma parts_in_range o r a b w l v : parts o r a b w l v -> w <= v.
Proof. induction 1; lra. Qed.

Lemma cyl_made res k top bot rev o r a b : 0 <= res <= e8 -> c_cen k = o -> c_rad k = r -> c_angs k <> [] ->
  parts o r a b a (cyl_parts k) b -> (forall w p, a <= w <= b -> on_round o r w p -> at_home p) ->
  - 10^6 <= top <= 10^6 -> - 10^6 <= bot <= 10^6 ->
  (cyl_make res k top bot rev = None <->
   Rabs (top - bot) < 1 / 1000 \/ exists p q g h, In ((p, q), (g, h)) (cyl_parts k) /\ one_point (at_z p (Rmax top bot)) (at_z q (Rmax top bot)) res).
Proof.
  intros R CC CR AN PT HM HT HB. unfold cyl_make. destruct (c_angs k) as [|g0 angs] eqn:E; [now destruct AN|]. rewrite <- E. clear AN.
  destruct (Rlt_dec (Rabs (top - bot)) (1 / 1000)) as [K|K]; [rewrite (ltb_t _ _ K)|rewrite (ltb_f (Rabs (top - bot))) by lra]; [tauto|].
  assert (MX : (if ltb top bot then bot else top) = Rmax top bot /\ (if ltb top bot then top else bot) = Rmin top bot).
  { unfold Rmax, Rmin. destruct (Rle_dec top bot) as [A|A].
    - destruct (Req_dec top bot) as [B|B]; [subst; now destruct (ltb bot bot)|rewrite (ltb_t top bot) by lra; tauto].
    - rewrite (ltb_f top bot) by lra. tauto. }
  destruct MX as [-> ->]. fold (cyl_parts k). rewrite all_some_none, Exists_exists.
  assert (HT' : - 10^6 <= Rmax top bot <= 10^6) by (unfold Rmax; destruct (Rle_dec top bot); lra).
  assert (HB' : - 10^6 <= Rmin top bot <= 10^6) by (unfold Rmin; destruct (Rle_dec top bot); lra).
  assert (HG : 1 / 10^12 <= (Rmax top bot - Rmin top bot)^2).
  { replace ((Rmax top bot - Rmin top bot)^2) with ((top - bot)^2) by (unfold Rmax, Rmin; destruct (Rle_dec top bot); ring).
    apply (height_gap o). unfold e6. lra. }
  assert (X : forall p q g h, In ((p, q), (g, h)) (cyl_parts k) -> (cyl_part res k (Rmax top bot) (Rmin top bot) rev ((p, q), (g, h)) = None <->
      one_point (at_z p (Rmax top bot)) (at_z q (Rmax top bot)) res)).
  { intros p q g h I. destruct (parts_angle _ _ _ _ _ _ _ _ _ _ _ PT I) as (x & y & X & XY & Y & _ & RX & RY & _ & _ & G & H & D & _).
    pose proof (geo_ok res k (Rmax top bot) (Rmin top bot) p q R (HM x p ltac:(lra) RX) (HM y q ltac:(lra) RY) HT' HB' HG) as GO.
    unfold cyl_part. cbn [fst snd]. rewrite (par_ok res rev g h R) by lra.
    destruct (compose res (cyl_geo (c_cen k) (Rmax top bot) (Rmin top bot) p q)) as [geo|].
    - split; [discriminate|]. intro O. exfalso. exact (proj1 GO ltac:(discriminate) O).
    - split; [|reflexivity]. intros _. apply Classical_Prop.NNPP. intro N. now apply (proj2 GO N). }
  split.
  - intros (((p, q), (g, h)) & I & N). right. exists p, q, g, h. split; [exact I|]. now apply X in N.
  - intros [L|(p & q & g & h & I & O)]; [contradiction|]. exists ((p, q), (g, h)). split; [exact I|]. now apply X.
Qed.

Lemma same_round o r w p p' z : on_round o r w p -> on_round o r w p' -> at_z p z = at_z p' z.
Proof. intros [A B] [C D]. unfold at_z. now rewrite A, B, C, D. Qed.

Lemma radius_big s : ~ one_point (s_cen s) (s_start s) e8 -> in_plane (s_cen s) -> in_plane (s_start s) -> 0 < s_rad s ->
  (exists w, on_round (s_cen s) (s_rad s) w (s_start s)) -> 30001 / 10000 * e8^2 < (s_rad s)^2.
Proof.
  intros N C S P [w [A B]]. apply Rnot_le_lt. intro H. apply N. left. unfold gap2. rewrite C, S, A, B.
  pose proof (sin2_cos2 w) as Q. unfold Rsqr in Q.
  replace ((px (s_cen s) - (px (s_cen s) + s_rad s * cos w)) ^ 2 + (py (s_cen s) - (py (s_cen s) + s_rad s * sin w)) ^ 2 + (0 - 0)^2) with (s_rad s ^ 2); [exact H|].
  transitivity (s_rad s ^ 2 * (sin w * sin w + cos w * cos w)); [rewrite Q; ring|ring].
Qed.

Lemma flat_z p z : in_plane p -> gap2 (at_z p z) (at_z p z) = 0.
Proof. intros _. unfold gap2. ring. Qed.

Lemma raised p q z res : in_plane p -> in_plane q -> ~ far (at_z p z) -> ~ far (at_z q z) -> ~ far p -> ~ far q -> one_point (at_z p z) (at_z q z) res -> one_point p q res.
Proof.
  intros P Q F1 F2 F3 F4 O. assert (E : gap2 (at_z p z) (at_z q z) = gap2 p q).
  { unfold gap2, at_z. cbn [px py pz]. rewrite P, Q. ring. }
  unfold one_point in *. rewrite E in O. tauto.
Qed.

Lemma inside_part g h x y w : 0 <= g -> h <= 2 * PI -> (h <= PI \/ PI <= g) -> (g = x /\ h = y \/ g = x + 2 * PI /\ h = y + 2 * PI \/ g = x - 2 * PI /\ h = y - 2 * PI) ->
  x < w < y -> sin w <> 0.
Proof.
  intros G H HG E W. assert (K : exists w', sin w' = sin w /\ g < w' < h).
  { destruct E as [[-> ->]|[[-> ->]|[-> ->]]]; [exists w|exists (w + 2 * PI)|exists (w - 2 * PI)]; (split; [|lra]); [reflexivity|apply sin_turn|].
    rewrite <- sin_turn. f_equal. ring. }
  destruct K as (w' & <- & K). destruct HG as [HG|HG].
  - pose proof (sin_gt_0 w' ltac:(lra) ltac:(lra)). lra.
  - pose proof (sin_lt_0 w' ltac:(lra) ltac:(lra)). lra.
Qed.

Lemma first_part o r a b w l v : parts o r a b w l v -> w < v -> exists p q g h y, In ((p, q), (g, h)) l /\ on_round o r w p /\ on_round o r y q /\
  w < y <= w + PI /\ (y = b \/ sin y = 0) /\ (forall x, w < x < y -> sin x <> 0).
Proof.
  intros H L. destruct H as [w|w w' v p q g h l LL A B G HH HG E S1 S2 LB ZQ REST]; [lra|].
  exists p, q, g, h, w'. split; [now left|]. split; [exact A|]. split; [exact B|]. split; [exact LL|]. split; [exact S2|].
  intros x X. exact (inside_part g h w w' x G HH HG E X).
Qed.

Lemma last_part o r a b w l v : parts o r a b w l v -> w < v -> exists p q g h x, In ((p, q), (g, h)) l /\ on_round o r x p /\ on_round o r v q /\
  x < v <= x + PI /\ (x = a \/ sin x = 0) /\ (forall y, x < y < v -> sin y <> 0).
Proof.
  intros H. induction H as [w|w w' v p q g h l LL A B G HH HG E S1 S2 LB ZQ REST IH]; intro L; [lra|].
  destruct (Rlt_dec w' v) as [K|K].
  - destruct (IH K) as (p1 & q1 & g1 & h1 & x & I & R). exists p1, q1, g1, h1, x. split; [now right|exact R].
  - assert (w' = v) by (pose proof (parts_in_range _ _ _ _ _ _ _ REST); lra). subst w'.
    exists p, q, g, h, w. split; [now left|]. split; [exact A|]. split; [exact B|]. split; [exact LL|]. split; [exact S1|].
    intros x X. exact (inside_part g h w v x G HH HG E X).
Qed.

Lemma wall_made_round res top bot s rev : sharp s -> s_ty s = SArc \/ s_ty s = SCircle -> (forall p, covers s p -> at_home p) ->
  - 10^6 <= top <= 10^6 -> - 10^6 <= bot <= 10^6 -> 0 <= res <= e8 ->
  (segment_wall res top bot s rev = None <-> Rabs (top - bot) < 1 / 1000 \/ (s_ty s = SArc /\ crosses_next res (Rmax top bot) s)).
Proof.
  intros SH T HM HT HB R. destruct (cyl_for_seg s SH T) as (_ & CC & CR & AN & PT).
  assert (HM' : forall w p, start_angle s <= w <= end_angle s -> on_round (s_cen s) (s_rad s) w p -> at_home p).
  { intros w p W RW. apply HM. apply (covers_round s p SH T). eauto. }
  assert (P : 0 < s_rad s) by (unfold sharp in SH; destruct T as [T|T]; rewrite T in SH; tauto).
  assert (HZ : - 10^6 <= Rmax top bot <= 10^6) by (unfold Rmax; destruct (Rle_dec top bot); lra).
  assert (BIG : 30001 / 10000 * e8^2 < (s_rad s)^2).
  { unfold sharp in SH. destruct T as [T|T]; rewrite T in SH.
    - destruct SH as (C & A & B & _ & _ & _ & RA & _ & _ & CA & _). apply radius_big; try assumption. unfold course in RA. rewrite T in RA. eauto.
    - destruct SH as (C & _ & _ & _ & _ & ST & _ & CA). apply radius_big; try assumption; [now rewrite ST|]. exists 0. rewrite ST. apply round_right. }
  set (k := snd (set_cyl (s_cen s) (get_start s) (get_end s))) in *.
  pose proof (cyl_made res k top bot (if s_cw s then negb rev else rev) (s_cen s) (s_rad s) (start_angle s) (end_angle s) R CC CR AN PT HM' HT HB) as CM.
  set (Z := Rmax top bot) in *.
  assert (SW : segment_wall res top bot s rev = None <-> Rabs (top - bot) < 1 / 1000 \/ exists p q g h, In ((p, q), (g, h)) (cyl_parts k) /\ one_point (at_z p Z) (at_z q Z) res).
  { rewrite <- CM. unfold segment_wall.
    destruct (Rlt_dec (Rabs (top - bot)) e6) as [K|K]; [rewrite (ltb_t _ _ K)|rewrite (ltb_f (Rabs (top - bot))) by lra].
    - split; [intros _|reflexivity]. apply CM. left. unfold e6 in K. lra.
    - destruct T as [T|T]; rewrite T; reflexivity. }
  rewrite SW. clear SW CM.
  assert (NF : forall w p, start_angle s <= w <= end_angle s -> on_round (s_cen s) (s_rad s) w p -> ~ far (at_z p Z)).
  { intros w p W RW. apply home_not_far; [exact (HM' w p W RW)|exact HZ]. }
  destruct T as [T|T].
  - unfold sharp in SH. rewrite T in SH. destruct SH as (C & A & B & _ & AR & AL & RA & RB & AB & _).
    unfold course in RA, RB. rewrite T in RA, RB.
    replace (s_sang s + 0 * (s_eang s - s_sang s)) with (s_sang s) in RA by ring.
    replace (s_sang s + 1 * (s_eang s - s_sang s)) with (s_eang s) in RB by ring.
    assert (GS : on_round (s_cen s) (s_rad s) (start_angle s) (get_start s) /\ on_round (s_cen s) (s_rad s) (end_angle s) (get_end s)).
    { unfold start_angle, end_angle, get_start, get_end. destruct (s_cw s); tauto. }
    destruct GS as [GS GE].
    assert (IP : in_plane (get_start s) /\ in_plane (get_end s) /\ ~ one_point (get_start s) (get_end s) e8).
    { unfold get_start, get_end. destruct (s_cw s); repeat split; try assumption. intro Q. now apply one_point_sym in Q. }
    destruct IP as (IS & IE & ISE).
    assert (NSE : ~ one_point (at_z (get_start s) Z) (at_z (get_end s) Z) res).
    { intro O. apply ISE. apply (one_point_finer _ _ res e8); [lra|].
      assert (NF0 : forall w p, start_angle s <= w <= end_angle s -> on_round (s_cen s) (s_rad s) w p -> in_plane p -> ~ far p).
      { intros w p0 W RW IPP. pose proof (HM' w p0 W RW) as [[H1 H2] [H3 H4]]. unfold far, gap2, origin. cbn [px py pz]. rewrite IPP. nra. }
      apply (raised _ _ Z); try assumption; [apply (NF (start_angle s)); [lra|exact GS]|apply (NF (end_angle s)); [lra|exact GE]|apply (NF0 (start_angle s)); [lra|exact GS|exact IS]|apply (NF0 (end_angle s)); [lra|exact GE|exact IE]]. }
    split; intros [L|H]; try tauto; right.
    + destruct H as (p & q & g & h & I & O). split; [exact T|].
      destruct (parts_angle _ _ _ _ _ _ _ _ _ _ _ PT I) as (x & y & X & XY & Y & YP & RX & RY & _ & _ & _ & _ & _ & _ & SX & SY & _).
      assert (NOPP : y <> x + PI).
      { intro E. subst y. apply (opposite (s_cen s) (s_rad s) x p q Z res R BIG RX RY); [apply (NF x); [lra|exact RX]|apply (NF (x + PI)); [lra|exact RY]|exact O]. }
      destruct (Req_dec x (start_angle s)) as [EX|EX], (Req_dec y (end_angle s)) as [EY|EY].
      * exfalso. subst x y. apply NSE. now rewrite <- (same_round _ _ _ _ _ Z RX GS), <- (same_round _ _ _ _ _ Z RY GE).
      * subst x. destruct SY as [SY|SY]; [contradiction|].
        exists y, (at_z q Z). split; [exact SY|]. split; [lra|]. split; [exact RY|]. split; [reflexivity|]. left. split; [lra|].
        now rewrite <- (same_round _ _ _ _ _ Z RX GS).
      * subst y. destruct SX as [SX|SX]; [contradiction|].
        exists x, (at_z p Z). split; [exact SX|]. split; [lra|]. split; [exact RX|]. split; [reflexivity|]. right. split; [lra|].
        now rewrite <- (same_round _ _ _ _ _ Z RY GE).
      * destruct SX as [SX|SX]; [contradiction|]. destruct SY as [SY|SY]; [contradiction|]. exfalso. exact (NOPP (sin_zeros x y SX SY (conj XY YP))).
    + destruct H as (_ & w & p & SW & W & RW & PZ & H).
      assert (PE : p = at_z p Z) by (destruct p; unfold at_z; cbn in *; now rewrite PZ).
      destruct H as [[H O]|[H O]].
      * destruct (first_part _ _ _ _ _ _ _ PT ltac:(lra)) as (p1 & q1 & g & h & y & I & PA & PB & LL & SY & NI).
        assert (y = w). { destruct (Rtotal_order w y) as [LW|[EW|GW]]; [now destruct (NI w ltac:(lra))|now symmetry|].
          destruct SY as [SY|SY]; [lra|]. pose proof (sin_zeros y w SY SW ltac:(lra)). lra. }
        subst y. exists p1, q1, g, h. split; [exact I|]. rewrite (same_round _ _ _ _ _ Z PA GS), (same_round _ _ _ _ _ Z PB RW), <- PE. exact O.
      * destruct (last_part _ _ _ _ _ _ _ PT ltac:(lra)) as (p1 & q1 & g & h & x & I & PA & PB & LL & SX & NI).
        assert (x = w). { destruct (Rtotal_order x w) as [LW|[EW|GW]]; [now destruct (NI w ltac:(lra))|exact EW|].
          destruct SX as [SX|SX]; [lra|]. pose proof (sin_zeros w x SW SX ltac:(lra)). lra. }
        subst x. exists p1, q1, g, h. split; [exact I|]. rewrite (same_round _ _ _ _ _ Z PA RW), (same_round _ _ _ _ _ Z PB GE), <- PE. exact O.
  - split; intros [L|H]; try tauto; [|rewrite T in H; destruct H; discriminate]. exfalso.
    destruct H as (p & q & g & h & I & O).
    destruct (parts_angle _ _ _ _ _ _ _ _ _ _ _ PT I) as (x & y & X & XY & Y & YP & RX & RY & _ & _ & _ & _ & _ & _ & SX & SY & _).
    assert (E : y = x + PI).
    { unfold sharp in SH. rewrite T in SH. destruct SH as (_ & _ & SA & EA & CW & _).
      unfold start_angle, end_angle in SX, SY. rewrite CW, SA, EA in *. apply sin_zeros; [|destruct SY as [->|SY]; [apply sin_2PI|exact SY]|lra].
      destruct SX as [->|SX]; [apply sin_0|exact SX]. }
    subst y. apply (opposite (s_cen s) (s_rad s) x p q Z res R BIG RX RY); [apply (NF x); [lra|exact RX]|apply (NF (x + PI)); [lra|exact RY]|exact O].
Qed.
