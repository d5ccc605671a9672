(** Facts about walls over segments: bounds, the points covered, the side they face. *)

From Coquelicot Require Import Coquelicot.
From Coq Require Import Reals List Bool ZArith Lra Lia Psatz.
From Verif Require Import SegModel SegSpec SegTrig SegFacts OutModel PcbModel PcbSpec PcbCurve PcbCyl PcbWall.
Import ListNotations.
Open Scope R_scope.

(** ** Cylinders *)

Definition sgn (b : bool) : R := if b then -1 else 1.

Lemma vpar_twice rev w : vpar rev (vpar rev w) = w.
Proof. unfold vpar. destruct rev; ring. Qed.

Lemma cyl_normal k top bot rev u w : bot < top ->
  normal (cyl_surf k top bot rev) u (vpar rev w)
    (mkPt (sgn rev * ((top - bot) * (c_rad k * cos w))) (sgn rev * ((top - bot) * (c_rad k * sin w))) 0).
Proof.
  intro L. set (c := c_cen k). set (r := c_rad k).
  exists (mkPt 0 0 (bot - top)), (mkPt (sgn rev * (- r * sin w)) (sgn rev * (r * cos w)) 0). split; [|split].
  - unfold has_slope. cbn [px py pz]. split; [|split].
    + apply (is_derive_ext (fun _ => px c + r * cos w)); [intro x; now rewrite cyl_surf_at|]. auto_derive; [trivial|ring].
    + apply (is_derive_ext (fun _ => py c + r * sin w)); [intro x; now rewrite cyl_surf_at|]. auto_derive; [trivial|ring].
    + apply (is_derive_ext (fun x => top + x * (bot - top))); [intro x; now rewrite cyl_surf_at|]. auto_derive; [trivial|ring].
  - assert (E : forall y, surf_at (cyl_surf k top bot rev) u y = mkPt (px c + r * cos (vpar rev y)) (py c + r * sin (vpar rev y)) (top + u * (bot - top))).
    { intro y. rewrite <- (vpar_twice rev y) at 1. now apply cyl_surf_at. }
    unfold has_slope. cbn [px py pz]. split; [|split].
    + apply (is_derive_ext (fun y => px c + r * cos (vpar rev y))); [intro y; now rewrite E|]. unfold vpar, sgn. destruct rev; auto_derive; try trivial.
      * replace (2 * PI + - (2 * PI - w)) with w by ring. ring.
      * ring.
    + apply (is_derive_ext (fun y => py c + r * sin (vpar rev y))); [intro y; now rewrite E|]. unfold vpar, sgn. destruct rev; auto_derive; try trivial.
      * replace (2 * PI + - (2 * PI - w)) with w by ring. ring.
      * ring.
    + apply (is_derive_ext (fun _ => top + u * (bot - top))); [intro y; now rewrite E|]. auto_derive; [trivial|ring].
  - unfold cross. cbn [px py pz]. apply pt_eq; cbn [px py pz]; ring.
Qed.

Lemma arc_right s t w h (left : bool) : s_ty s = SArc \/ s_ty s = SCircle -> 0 <= t <= 1 ->
  cos w = cos (s_sang s + t * (s_eang s - s_sang s)) -> sin w = sin (s_sang s + t * (s_eang s - s_sang s)) ->
  (if s_cw s then s_eang s < s_sang s else s_sang s < s_eang s) -> 0 < h ->
  forall p, px p = px (s_cen s) + s_rad s * cos w -> py p = py (s_cen s) + s_rad s * sin w ->
  to_right s p (mkPt (sgn (s_cw s) * (h * (s_rad s * cos w))) (sgn (s_cw s) * (h * (s_rad s * sin w))) 0).
Proof.
  intros T Ht C S D H p X Y. set (d := s_eang s - s_sang s).
  exists (fun t => px (s_cen s) + s_rad s * cos (s_sang s + t * d)), (fun t => py (s_cen s) + s_rad s * sin (s_sang s + t * d)), t,
    (- s_rad s * sin w * d), (s_rad s * cos w * d), (h * (sgn (s_cw s) / d)).
  assert (DN : d <> 0) by (unfold d; destruct (s_cw s); intro; lra).
  split; [|split; [exact Ht|split; [|split; [|split; [|split; [|split]]]]]].
  - intro t'. unfold course, on_round. destruct T as [->| ->]; cbn [px py]; split; reflexivity.
  - rewrite X, C. reflexivity.
  - rewrite Y, S. reflexivity.
  - rewrite S. unfold d. auto_derive; [trivial|ring].
  - rewrite C. unfold d. auto_derive; [trivial|ring].
  - apply Rmult_lt_0_compat; [exact H|]. unfold sgn, d. destruct (s_cw s).
    + replace (-1 / (s_eang s - s_sang s)) with (/ (s_sang s - s_eang s)) by (field; lra). apply Rinv_0_lt_compat. lra.
    + unfold Rdiv. rewrite Rmult_1_l. apply Rinv_0_lt_compat. lra.
  - apply pt_eq; cbn [px py pz]; [field; exact DN|field; exact DN|reflexivity].
Qed.

Lemma cyl_faces s k top bot G I left p q g h : sharp s -> s_ty s = SArc \/ s_ty s = SCircle -> cyl_for s k -> bot < top ->
  In ((p, q), (g, h)) (cyl_parts k) ->
  let rev := if s_cw s then negb left else left in
  faces left s (mkTrim (cyl_surf k top bot rev) (mkBound (cyl_par rev (g, h)) G) I).
Proof.
  intros SH T (CC & CR & _ & PT) L IN rev u v E. cbn [t_out t_surf b_par] in *.
  destruct (parts_angle _ _ _ _ _ _ _ _ _ _ _ PT IN) as (x & y & X & XY & Y & _ & _ & _ & _ & _ & _ & _ & D & TR & _).
  apply rect_enclosed in E; [|lra]. destruct E as (U & w & W & ->).
  eexists. split; [apply cyl_normal; exact L|]. rewrite cyl_surf_at by exact L. rewrite CC, CR.
  pose proof (TR (w - g)) as K. replace (g + (w - g)) with w in K by ring. set (w' := x + (w - g)) in *.
  assert (W' : start_angle s <= w' <= end_angle s) by (unfold w'; lra).
  assert (OR : if s_cw s then s_eang s < s_sang s else s_sang s < s_eang s).
  { assert (start_angle s < end_angle s) by lra. unfold start_angle, end_angle in *. destruct (s_cw s); lra. }
  set (t := (w' - s_sang s) / (s_eang s - s_sang s)).
  assert (DN : s_eang s - s_sang s <> 0) by (destruct (s_cw s); intro; lra).
  assert (TE : s_sang s + t * (s_eang s - s_sang s) = w') by (unfold t; field; exact DN).
  assert (TT : 0 <= t <= 1).
  { unfold start_angle, end_angle in W'. unfold t. destruct (s_cw s).
    - replace ((w' - s_sang s) / (s_eang s - s_sang s)) with ((s_sang s - w') * / (s_sang s - s_eang s)) by (field; lra).
      assert (0 < / (s_sang s - s_eang s)) by (apply Rinv_0_lt_compat; lra). split; [nra|]. apply (Rmult_le_reg_r (s_sang s - s_eang s)); [lra|]. rewrite Rmult_assoc, Rinv_l by lra. lra.
    - assert (0 < / (s_eang s - s_sang s)) by (apply Rinv_0_lt_compat; lra). unfold Rdiv. split; [nra|]. apply (Rmult_le_reg_r (s_eang s - s_sang s)); [lra|]. rewrite Rmult_assoc, Rinv_l by lra. lra. }
  pose proof (fun p => arc_right s t w (top - bot) left T TT ltac:(rewrite TE; apply K) ltac:(rewrite TE; apply K) OR ltac:(lra) p) as AR.
  destruct left.
  - unfold to_left. cbn [px py pz].
    match goal with |- to_right s ?P ?N => replace N with (mkPt (sgn (s_cw s) * ((top - bot) * (s_rad s * cos w))) (sgn (s_cw s) * ((top - bot) * (s_rad s * sin w))) 0) end.
    + apply AR; reflexivity.
    + unfold rev, sgn. destruct (s_cw s); cbn [negb]; apply pt_eq; cbn [px py pz]; ring.
  - replace (sgn rev) with (sgn (s_cw s)) by (unfold rev; now destruct (s_cw s)). apply AR; reflexivity.
Qed.

Lemma forall2_weaken {A B} (P Q : A -> B -> Prop) l l' : (forall x y, P x y -> Q x y) -> Forall2 P l l' -> Forall2 Q l l'.
Proof. intros H. induction 1; constructor; auto. Qed.

Lemma cyl_make_parts res k top bot rev l : cyl_make res k top bot rev = Some l ->
  c_angs k <> [] /\ 1 / 1000 <= Rabs (top - bot) /\
  Forall2 (fun x y => y = mkTrim (cyl_surf k (Rmax top bot) (Rmin top bot) rev) (mkBound (cyl_par rev (snd x)) (cyl_geo (c_cen k) (Rmax top bot) (Rmin top bot) (fst (fst x)) (snd (fst x)))) [])
    (cyl_parts k) l.
Proof.
  unfold cyl_make. intro H. destruct (c_angs k) as [|g angs] eqn:E; [discriminate|]. rewrite <- E in H.
  destruct (Rlt_dec (Rabs (top - bot)) (1 / 1000)) as [K|K]; [rewrite (ltb_t _ _ K) in H; discriminate|rewrite (ltb_f (Rabs (top - bot))) in H by lra].
  split; [discriminate|]. split; [lra|].
  assert (MX : (if ltb top bot then bot else top) = Rmax top bot /\ (if ltb top bot then top else bot) = Rmin top bot).
  { unfold Rmax, Rmin. destruct (Rle_dec top bot) as [A|A].
    - destruct (Req_dec top bot) as [B|B]; [subst; now destruct (ltb bot bot)|rewrite (ltb_t top bot) by lra; tauto].
    - rewrite (ltb_f top bot) by lra. tauto. }
  destruct MX as [M1 M2]. rewrite M1, M2 in H. apply all_some_forall in H.
  eapply forall2_weaken; [|exact H]. cbn beta. intros x y F. unfold cyl_part in F.
  destruct (compose res (cyl_geo _ _ _ _ _)) as [geo|] eqn:C1; [|discriminate]. destruct (compose res (cyl_par _ _)) as [par|] eqn:C2; [|discriminate].
  apply compose_keeps in C1, C2. subst geo par. now injection F.
Qed.

Lemma forall2_in {A B} (P : A -> B -> Prop) l l' y : Forall2 P l l' -> In y l' -> exists x, In x l /\ P x y.
Proof. induction 1 as [|a b l l' H _ IH]; [easy|]. intros [<-|I]; [exists a; split; [now left|exact H]|]. destruct (IH I) as (x & X & Q). exists x. split; [now right|exact Q]. Qed.
Lemma forall2_in' {A B} (P : A -> B -> Prop) l l' x : Forall2 P l l' -> In x l -> exists y, In y l' /\ P x y.
Proof. induction 1 as [|a b l l' H _ IH]; [easy|]. intros [<-|I]; [exists b; split; [now left|exact H]|]. destruct (IH I) as (y & X & Q). exists y. split; [now right|exact Q]. Qed.

Lemma minmax_lt a b : a <> b -> Rmin a b < Rmax a b.
Proof. intro H. unfold Rmin, Rmax. destruct (Rle_dec a b); lra. Qed.

Lemma covers_round s p : sharp s -> s_ty s = SArc \/ s_ty s = SCircle ->
  (covers s p <-> exists w, start_angle s <= w <= end_angle s /\ on_round (s_cen s) (s_rad s) w p).
Proof.
  intros SH [T|T]; unfold covers; rewrite T; [tauto|]. unfold sharp in SH. rewrite T in SH. destruct SH as (C & P & SA & EA & CW & _).
  unfold start_angle, end_angle. rewrite CW, SA, EA. pose proof PI_RGT_0 as PP. split.
  - intro D. assert (NZ : px p - px (s_cen s) <> 0 \/ py p - py (s_cen s) <> 0).
    { unfold dist2 in D. destruct (Req_dec (px p - px (s_cen s)) 0) as [X|X]; [|now left]. right. intro Y. rewrite X, Y in D. nra. }
    destruct (atan2_point _ _ NZ) as [A B]. pose proof (atan2_range (py p - py (s_cen s)) (px p - px (s_cen s))) as R.
    set (a := atan2 (py p - py (s_cen s)) (px p - px (s_cen s))) in *.
    assert (E : sqrt ((px p - px (s_cen s)) * (px p - px (s_cen s)) + (py p - py (s_cen s)) * (py p - py (s_cen s))) = s_rad s).
    { apply sqrt_lem_1; [nra|lra|]. unfold dist2 in D. nra. }
    rewrite E in A, B. destruct (Rle_dec 0 a) as [K|K].
    + exists a. split; [lra|]. split; lra.
    + exists (a + 2 * PI). split; [lra|]. apply round_turn. split; lra.
  - intros (w & _ & A & B). unfold dist2. rewrite A, B. pose proof (sin2_cos2 w) as Q. unfold Rsqr in Q.
    transitivity (s_rad s ^ 2 * (sin w * sin w + cos w * cos w)); [ring|rewrite Q; ring].
Qed.

(** ** Walls *)

Definition square : list crv :=
  [NLine (mkPt 0 0 0) (mkPt 1 0 0); NLine (mkPt 1 0 0) (mkPt 1 1 0); NLine (mkPt 1 1 0) (mkPt 0 1 0); NLine (mkPt 0 1 0) (mkPt 0 0 0)].

Lemma square_enclosed u v : enclosed square u v <-> 0 <= u <= 1 /\ 0 <= v <= 1.
Proof.
  split.
  - assert (K : forall q, on_curves square q -> 0 <= px q <= 1 /\ 0 <= py q <= 1).
    { intros q (c & t & [<-|[<-|[<-|[<-|[]]]]] & T & X & Y & _); cbn [px py pz] in X, Y; split; lra. }
    intros (a & b & c & d & A & B & C & D & U & V). apply K in A, B, C, D. lra.
  - intros [U V]. assert (A : on_curves square (mkPt 0 0 0)).
    { eexists. exists 0. split; [left; reflexivity|]. split; [lra|]. unfold goes, straight. cbn. repeat split; ring. }
    assert (B : on_curves square (mkPt 1 1 0)).
    { eexists. exists 1. split; [right; left; reflexivity|]. split; [lra|]. unfold goes, straight. cbn. repeat split; ring. }
    exists (mkPt 0 0 0), (mkPt 1 1 0), (mkPt 0 0 0), (mkPt 1 1 0). cbn [px py]. repeat split; try assumption; lra.
Qed.

Lemma wall_is res p0 p1 p2 p3 t : wall_make res p0 p1 p2 p3 = Some t ->
  t = mkTrim (Bil p0 p1 p3 p2) (mkBound square [CLine p0 p1; CLine p1 p2; CLine p2 p3; CLine p3 p0]) [].
Proof.
  unfold wall_make. fold square.
  destruct (compose res square) as [par|] eqn:C1; [|discriminate]. destruct (compose res [_; _; _; _]) as [geo|] eqn:C2; [|discriminate].
  apply compose_keeps in C1, C2. subst. intro H. now injection H.
Qed.

Lemma wall_bound_agrees p0 p1 p2 p3 : bound_agrees (Bil p0 p1 p3 p2) (mkBound square [CLine p0 p1; CLine p1 p2; CLine p2 p3; CLine p3 p0]).
Proof.
  assert (F : Forall2 (agrees (Bil p0 p1 p3 p2)) square [CLine p0 p1; CLine p1 p2; CLine p2 p3; CLine p3 p0]).
  { assert (K : forall a b p q, (forall t, surf_at (Bil p0 p1 p3 p2) (px a + t * (px b - px a)) (py a + t * (py b - py a)) = along p q t) ->
      0 <= px a <= 1 -> 0 <= px b <= 1 -> 0 <= py a <= 1 -> 0 <= py b <= 1 -> agrees (Bil p0 p1 p3 p2) (NLine a b) (CLine p q)).
    { intros a b p q E A1 A2 A3 A4. split.
      - intros t x T. unfold lifted. cbn [goes]. unfold straight. split.
        + intros (y & (X & Y & _) & ->). rewrite X, Y, E. unfold along. cbn [px py pz]. tauto.
        + intros (X & Y & Z). exists (along a b t). unfold along at 1 2 3. cbn [px py pz]. split; [tauto|].
          unfold along at 1 2. cbn [px py pz]. rewrite E. apply pt_eq; unfold along; cbn [px py pz]; assumption.
      - intros t y T (X & Y & _). unfold in_domain. rewrite X, Y. split; nra. }
    unfold square. apply Forall2_cons; [|apply Forall2_cons; [|apply Forall2_cons; [|apply Forall2_cons; [|apply Forall2_nil]]]];
      (apply K; cbn [px py]; try lra; intro t; unfold surf_at, along; apply pt_eq; cbn [px py pz]; ring). }
  split; [exact F|]. cbn [b_par b_geo]. assert (L : loop square) by apply four_loop. split; [exact L|]. exact (agrees_loop _ _ _ F L).
Qed.

Lemma bil_normal p00 p10 p01 p11 u v : normal (Bil p00 p10 p01 p11) u v
  (cross (along (minus p10 p00) (minus p11 p01) v) (along (minus p01 p00) (minus p11 p10) u)).
Proof.
  exists (along (minus p10 p00) (minus p11 p01) v), (along (minus p01 p00) (minus p11 p10) u). split; [|split; [|reflexivity]].
  - unfold has_slope, surf_at, along, minus. cbn [px py pz]. split; [|split]; (auto_derive; [trivial|ring]).
  - unfold has_slope, surf_at, along, minus. cbn [px py pz]. split; [|split]; (auto_derive; [trivial|ring]).
Qed.

Lemma line_right s t h : s_ty s = SLine -> 0 <= t <= 1 -> 0 < h ->
  forall p, px p = px (s_start s) + t * (px (s_end s) - px (s_start s)) -> py p = py (s_start s) + t * (py (s_end s) - py (s_start s)) ->
  to_right s p (mkPt (h * (py (s_end s) - py (s_start s))) (- h * (px (s_end s) - px (s_start s))) 0).
Proof.
  intros T Ht H p X Y. exists (fun t => px (s_start s) + t * (px (s_end s) - px (s_start s))), (fun t => py (s_start s) + t * (py (s_end s) - py (s_start s))), t.
  eexists. eexists. exists h. split; [intro t'; unfold course; rewrite T; cbn [px py]; tauto|].
  split; [exact Ht|]. split; [exact X|]. split; [exact Y|]. split; [auto_derive; [trivial|reflexivity]|]. split; [auto_derive; [trivial|reflexivity]|].
  split; [exact H|]. apply pt_eq; cbn [px py pz]; ring.
Qed.

(** ** [GetSegmentWall] *)

Lemma segment_wall_cases res top bot s rev l : segment_wall res top bot s rev = Some l ->
  e6 <= Rabs (top - bot) /\
  ((s_ty s = SLine /\ exists t, l = [t] /\ 
     (if rev then wall_make res (at_z (s_start s) top) (at_z (s_end s) top) (at_z (s_end s) bot) (at_z (s_start s) bot)
      else wall_make res (at_z (s_start s) bot) (at_z (s_end s) bot) (at_z (s_end s) top) (at_z (s_start s) top)) = Some t) \/
   ((s_ty s = SArc \/ s_ty s = SCircle) /\
     cyl_make res (snd (set_cyl (s_cen s) (get_start s) (get_end s))) top bot (if s_cw s then negb rev else rev) = Some l)).
Proof.
  unfold segment_wall. destruct (Rlt_dec (Rabs (top - bot)) e6) as [K|K]; [rewrite (ltb_t _ _ K); discriminate|rewrite (ltb_f (Rabs (top - bot))) by lra].
  intro H. split; [lra|]. destruct (s_ty s); [discriminate| | |]; [left; split; [reflexivity|]|right; tauto|right; tauto].
  destruct rev.
  - destruct (wall_make res _ _ _ _) as [t|]; [|discriminate]. exists t. injection H. intros <-. tauto.
  - destruct (wall_make res _ _ _ _) as [t|]; [|discriminate]. exists t. injection H. intros <-. tauto.
Qed.

Theorem wall_agrees res top bot s rev l : sharp s -> segment_wall res top bot s rev = Some l ->
  Forall (fun t => bound_agrees (t_surf t) (t_out t) /\ t_in t = []) l.
Proof.
  intros SH H. apply segment_wall_cases in H. destruct H as (_ & [(T & t & -> & H)|(T & H)]).
  - constructor; [|constructor]. destruct rev; apply wall_is in H; subst t; (split; [apply wall_bound_agrees|reflexivity]).
  - destruct (cyl_for_seg s SH T) as (_ & CC & CR & _ & PT). destruct (cyl_make_parts _ _ _ _ _ _ H) as (_ & D & F).
    set (k := snd (set_cyl (s_cen s) (get_start s) (get_end s))) in *.
    assert (P : 0 < c_rad k) by (rewrite CR; unfold sharp in SH; destruct T as [T|T]; rewrite T in SH; tauto).
    apply Forall_forall. intros t I. destruct (forall2_in _ _ _ _ F I) as ([[p q] [g h]] & IN & ->). cbn [fst snd t_surf t_out t_in].
    split; [|reflexivity].
    destruct (parts_angle _ _ _ _ _ _ _ _ _ _ _ PT IN) as (x & y & X & XY & Y & _ & _ & _ & A & B & G & HH & DD & _).
    assert (NE : top <> bot) by (intro E; subst; rewrite Rminus_diag_eq, Rabs_R0 in D; lra).
    apply part_bound_agrees; [rewrite Rmin_comm, Rmax_comm; apply minmax_lt; congruence|exact P|now rewrite CC, CR|now rewrite CC, CR|lra].
Qed.

Theorem wall_covers res top bot s rev l p : sharp s -> segment_wall res top bot s rev = Some l ->
  ((exists t, In t l /\ patch t p) <-> covers s p /\ Rmin top bot <= pz p <= Rmax top bot).
Proof.
  intros SH H. apply segment_wall_cases in H. destruct H as (D6 & [(T & t & -> & H)|(T & H)]).
  - assert (NE : top - bot <> 0) by (intro E; rewrite E, Rabs_R0 in D6; unfold e6 in D6; lra).
    assert (X : forall a b, a - b <> 0 -> (exists u v, (0 <= u <= 1 /\ 0 <= v <= 1) /\ p = surf_at (Bil (at_z (s_start s) a) (at_z (s_end s) a) (at_z (s_start s) b) (at_z (s_end s) b)) u v) <->
        covers s p /\ Rmin a b <= pz p <= Rmax a b).
    { intros a b N. unfold covers. rewrite T. unfold surf_at, along, at_z. cbn [px py pz]. split.
      - intros (u & v & [U V] & ->). cbn [px py pz]. split; [exists u; repeat split; try lra; ring|].
        unfold Rmin, Rmax. destruct (Rle_dec a b); nra.
      - intros [(u & U & X & Y) Z]. exists u, ((pz p - a) / (b - a)).
        assert (0 <= (pz p - a) / (b - a) <= 1).
        { unfold Rmin, Rmax in Z. destruct (Rle_dec a b).
          - assert (0 < / (b - a)) by (apply Rinv_0_lt_compat; lra). unfold Rdiv. split; [nra|]. apply (Rmult_le_reg_r (b - a)); [lra|]. rewrite Rmult_assoc, Rinv_l by lra. lra.
          - replace ((pz p - a) / (b - a)) with ((a - pz p) * / (a - b)) by (field; lra).
            assert (0 < / (a - b)) by (apply Rinv_0_lt_compat; lra). split; [nra|]. apply (Rmult_le_reg_r (a - b)); [lra|]. rewrite Rmult_assoc, Rinv_l by lra. lra. }
        split; [split; [lra|assumption]|]. apply pt_eq; cbn [px py pz]; [rewrite X; ring|rewrite Y; ring|field; lra]. }
    assert (Y : forall a b p1 p2, (exists t, In t [mkTrim (Bil (at_z (s_start s) a) (at_z (s_end s) a) (at_z (s_start s) b) (at_z (s_end s) b)) (mkBound square p1) p2] /\ patch t p) <->
       (exists u v, (0 <= u <= 1 /\ 0 <= v <= 1) /\ p = surf_at (Bil (at_z (s_start s) a) (at_z (s_end s) a) (at_z (s_start s) b) (at_z (s_end s) b)) u v)).
    { intros a b p1 p2. split.
      - intros (t' & [<-|[]] & u & v & E & ->). cbn [t_out t_surf b_par] in *. apply square_enclosed in E. eauto.
      - intros (u & v & E & ->). eexists. split; [left; reflexivity|]. exists u, v. cbn [t_out t_surf b_par]. rewrite square_enclosed. tauto. }
    destruct rev; apply wall_is in H; subst t; rewrite Y, X by lra; [reflexivity|]. now rewrite Rmin_comm, Rmax_comm.
  - destruct (cyl_for_seg s SH T) as (_ & CC & CR & AN & PT). destruct (cyl_make_parts _ _ _ _ _ _ H) as (_ & D & F).
    set (k := snd (set_cyl (s_cen s) (get_start s) (get_end s))) in *.
    assert (NE : top <> bot) by (intro E; subst; rewrite Rminus_diag_eq, Rabs_R0 in D; lra).
    assert (LT : Rmin top bot < Rmax top bot) by now apply minmax_lt.
    assert (NP : cyl_parts k <> []).
    { assert (LA : start_angle s < end_angle s).
      { unfold sharp in SH. pose proof PI_RGT_0. destruct T as [T|T]; rewrite T in SH; [lra|].
        destruct SH as (_ & _ & SA & EA & CW & _). unfold start_angle, end_angle. rewrite CW. lra. }
      intro Z. rewrite Z in PT. inversion PT. lra. }
    rewrite (covers_round s p SH T). pose proof (parts_cover _ _ _ _ _ _ _ p PT NP) as PC.
    assert (GH : forall p q g h, In ((p, q), (g, h)) (cyl_parts k) -> g <= h).
    { intros p0 q g h IN. destruct (parts_angle _ _ _ _ _ _ _ _ _ _ _ PT IN) as (x & y & _ & XY & _ & _ & _ & _ & _ & _ & _ & _ & DD & _). lra. }
    split.
    + intros (t & I & PA). destruct (forall2_in _ _ _ _ F I) as ([[p1 q] [g h]] & IN & ->). cbn [fst snd] in PA.
      apply part_patch in PA; [|exact LT|exact (GH _ _ _ _ IN)]. destruct PA as (w & W & RW & Z). split; [|exact Z]. apply PC. rewrite CC, CR in RW. exists p1, q, g, h, w. tauto.
    + intros [CV Z]. apply PC in CV. destruct CV as (p1 & q & g & h & w & IN & W & RW). destruct (forall2_in' _ _ _ _ F IN) as (t & I & ->). cbn [fst snd] in I.
      eexists. split; [exact I|]. apply part_patch; [exact LT|exact (GH _ _ _ _ IN)|]. exists w. rewrite CC, CR. tauto.
Qed.

Theorem wall_faces res top bot s rev l : sharp s -> bot < top -> segment_wall res top bot s rev = Some l -> Forall (faces rev s) l.
Proof.
  intros SH L H. apply segment_wall_cases in H. destruct H as (_ & [(T & t & -> & H)|(T & H)]).
  - constructor; [|constructor]. destruct rev; apply wall_is in H; subst t; intros u v E; cbn [t_surf t_out b_par] in *; apply square_enclosed in E;
      (eexists; split; [apply bil_normal|]).
    + unfold to_left. match goal with |- to_right s ?P ?N => replace N with (mkPt ((top - bot) * (py (s_end s) - py (s_start s))) (- (top - bot) * (px (s_end s) - px (s_start s))) 0) end.
      * apply (line_right s u (top - bot) T); try lra; unfold surf_at, along, at_z; cbn [px py pz]; ring.
      * unfold cross, along, minus, at_z. apply pt_eq; cbn [px py pz]; ring.
    + match goal with |- to_right s ?P ?N => replace N with (mkPt ((top - bot) * (py (s_end s) - py (s_start s))) (- (top - bot) * (px (s_end s) - px (s_start s))) 0) end.
      * apply (line_right s u (top - bot) T); try lra; unfold surf_at, along, at_z; cbn [px py pz]; ring.
      * unfold cross, along, minus, at_z. apply pt_eq; cbn [px py pz]; ring.
  - destruct (cyl_for_seg s SH T) as (_ & CF). destruct (cyl_make_parts _ _ _ _ _ _ H) as (_ & _ & F).
    rewrite Rmax_left, Rmin_right in F by lra. apply Forall_forall. intros t I. destruct (forall2_in _ _ _ _ F I) as ([[p q] [g h]] & IN & ->). cbn [fst snd].
    exact (cyl_faces s _ top bot _ [] rev p q g h SH T CF L IN).
Qed.
