(** Facts about cylinders: the parts, and that their two bounds agree. *)

From Coq Require Import Reals List Bool ZArith Lra Lia Psatz.
From Verif Require Import SegModel SegSpec SegTrig SegFacts OutModel PcbModel PcbSpec PcbCurve.
Import ListNotations.
Open Scope R_scope.

(** ** Loops *)

Lemma agrees_joined S a b a' b' : agrees S a a' -> agrees S b b' -> joined a b -> joined a' b'.
Proof.
  intros [A _] [B _] (q & G1 & G2). exists (surf_at S (px q) (py q)).
  split; [apply A|apply B]; try lra; exists q; tauto.
Qed.

Lemma agrees_linked S f f' l l' : agrees S f f' -> Forall2 (agrees S) l l' -> linked f l -> linked f' l'.
Proof.
  intros F H. induction H as [|a b l l' A H IH]; [easy|]. destruct H as [|a2 b2 l l' A2 H].
  - cbn. now apply (agrees_joined S).
  - cbn [linked]. intros [J K]. split; [now apply (agrees_joined S a a2)|]. now apply IH.
Qed.

Lemma agrees_loop S l l' : Forall2 (agrees S) l l' -> loop l -> loop l'.
Proof. intros H. destruct H as [|a b l l' A H]; [easy|]. cbn [loop]. apply (agrees_linked S); [exact A|now constructor]. Qed.

Lemma nline_joined a b c : joined (NLine a b) (NLine b c).
Proof. exists b. cbn [goes]. unfold straight. repeat split; ring. Qed.

Lemma four_loop a b c d : loop [NLine a b; NLine b c; NLine c d; NLine d a].
Proof. cbn [loop linked]. repeat split; apply nline_joined. Qed.

(** ** The surface *)

Definition vpar (rev : bool) (w : R) : R := if rev then 2 * PI - w else w.

Lemma up_axis c z0 z1 w p : z0 < z1 -> turn_about (at_z c z0) (at_z c z1) w p =
  mkPt (px c + cos w * (px p - px c) - sin w * (py p - py c)) (py c + sin w * (px p - px c) + cos w * (py p - py c)) (pz p).
Proof.
  intro L. unfold turn_about, at_z, minus, dot, comb, cross. cbn [px py pz].
  replace ((px c - px c) * (px c - px c) + (py c - py c) * (py c - py c) + (z1 - z0) * (z1 - z0)) with ((z1 - z0) * (z1 - z0)) by ring.
  rewrite sqrt_square by lra. f_equal; field; lra.
Qed.
Lemma down_axis c z0 z1 w p : z0 < z1 -> turn_about (at_z c z1) (at_z c z0) w p =
  mkPt (px c + cos w * (px p - px c) + sin w * (py p - py c)) (py c - sin w * (px p - px c) + cos w * (py p - py c)) (pz p).
Proof.
  intro L. unfold turn_about, at_z, minus, dot, comb, cross. cbn [px py pz].
  replace ((px c - px c) * (px c - px c) + (py c - py c) * (py c - py c) + (z0 - z1) * (z0 - z1)) with ((z1 - z0) * (z1 - z0)) by ring.
  rewrite sqrt_square by lra. f_equal; field; lra.
Qed.

Lemma cyl_surf_at k top bot rev u w : bot < top -> surf_at (cyl_surf k top bot rev) u (vpar rev w) =
  mkPt (px (c_cen k) + c_rad k * cos w) (py (c_cen k) + c_rad k * sin w) (top + u * (bot - top)).
Proof.
  intro L. unfold cyl_surf, vpar, surf_at. destruct rev.
  - rewrite down_axis by exact L. unfold along, at_z. cbn [px py pz].
    replace (cos (2 * PI - w)) with (cos w) by (rewrite cos_minus, cos_2PI, sin_2PI; ring).
    replace (sin (2 * PI - w)) with (- sin w) by (rewrite sin_minus, cos_2PI, sin_2PI; ring). f_equal; ring.
  - rewrite up_axis by exact L. unfold along, at_z. cbn [px py pz]. f_equal; ring.
Qed.

(** ** The bounds of a part *)

Section Part.
Variables (k : cyl) (top bot : R) (rev : bool) (p q : pt) (g h : R).
Hypothesis L : bot < top.
Hypothesis P : 0 < c_rad k.
Hypothesis A : on_round (c_cen k) (c_rad k) g p.
Hypothesis B : on_round (c_cen k) (c_rad k) h q.
Hypothesis R : 0 <= g /\ g < h /\ h <= 2 * PI.
Let S := cyl_surf k top bot rev.
Let c := c_cen k.

Lemma lift_line u0 w0 u1 w1 t x : lifted S (NLine (mkPt u0 (vpar rev w0) 0) (mkPt u1 (vpar rev w1) 0)) t x <->
  x = mkPt (px c + c_rad k * cos (w0 + t * (w1 - w0))) (py c + c_rad k * sin (w0 + t * (w1 - w0))) (top + (u0 + t * (u1 - u0)) * (bot - top)).
Proof.
  unfold lifted. cbn [goes]. unfold straight. cbn [px py pz].
  assert (E : vpar rev w0 + t * (vpar rev w1 - vpar rev w0) = vpar rev (w0 + t * (w1 - w0))) by (unfold vpar; destruct rev; ring).
  split.
  - intros (y & (X & Y & _) & ->). rewrite X, Y, E. unfold S. now rewrite cyl_surf_at.
  - intros ->. exists (mkPt (u0 + t * (u1 - u0)) (vpar rev (w0 + t * (w1 - w0))) 0). cbn [px py pz].
    split; [repeat split; [now rewrite E|ring]|]. unfold S. now rewrite cyl_surf_at.
Qed.

Lemma in_dom u0 w0 u1 w1 t y : 0 <= t <= 1 -> 0 <= u0 <= 1 -> 0 <= u1 <= 1 -> 0 <= w0 <= 2 * PI -> 0 <= w1 <= 2 * PI ->
  goes (NLine (mkPt u0 (vpar rev w0) 0) (mkPt u1 (vpar rev w1) 0)) t y -> in_domain S (px y) (py y).
Proof.
  intros T U0 U1 W0 W1 (X & Y & _). cbn [px py pz] in X, Y. rewrite X, Y. unfold S, in_domain, cyl_surf.
  assert (0 <= vpar rev w0 <= 2 * PI) by (unfold vpar; destruct rev; lra).
  assert (0 <= vpar rev w1 <= 2 * PI) by (unfold vpar; destruct rev; lra). split; nra.
Qed.

Lemma pt_eq (x y : pt) : px x = px y -> py x = py y -> pz x = pz y -> x = y.
Proof. destruct x, y. cbn. congruence. Qed.

Lemma part_agrees : Forall2 (agrees S) (cyl_par rev (g, h)) (cyl_geo c top bot p q).
Proof.
  unfold cyl_par, cyl_geo. cbn [fst snd]. fold (vpar rev g) (vpar rev h). destruct A as [AX AY]. destruct B as [BX BY].
  apply Forall2_cons; [|apply Forall2_cons; [|apply Forall2_cons; [|apply Forall2_cons; [|apply Forall2_nil]]]]; (split; [|intros t y T; apply in_dom; lra]; intros t x T; rewrite lift_line).
  - rewrite (arc_goes_plain top c p q (c_rad k) g (h - g) t x P) by (try lra; try exact A; now replace (g + (h - g)) with h by ring).
    unfold on_round. split; [intros ->; cbn [px py pz]; repeat split; ring|].
    intros ([X Y] & Z). apply pt_eq; cbn [px py pz]; try assumption. lra.
  - cbn [goes]. unfold straight, at_z. cbn [px py pz]. replace (h + t * (h - h)) with h by ring. fold c in BX, BY. rewrite <- BX, <- BY.
    split; [intros ->; cbn [px py pz]; repeat split; ring|]. intros (X & Y & Z). apply pt_eq; cbn [px py pz]; lra.
  - rewrite (arc_goes bot (mkPt 0 (py c) 0) (mkPt (px c - px q) (py q) 0) (mkPt (px c - px p) (py p) 0) (Some (flip (px c) bot)) (c_rad k) (PI - h) (h - g) t x P).
    + assert (M : forall y, on_round (mkPt 0 (py c) 0) (c_rad k) (PI - h + t * (h - g)) y <->
        px y = - (c_rad k * cos (h + t * (g - h))) /\ py y = py c + c_rad k * sin (h + t * (g - h))).
      { intro y. unfold on_round. replace (PI - h + t * (h - g)) with (PI - (h + t * (g - h))) by ring.
        rewrite Rtrigo_facts.cos_pi_minus, Rtrigo_facts.sin_pi_minus. cbn [px py]. split; intros [X Y]; split; lra. }
      split.
      * intros ->. exists (mkPt (- (c_rad k * cos (h + t * (g - h)))) (py c + c_rad k * sin (h + t * (g - h))) bot).
        split; [apply M; cbn [px py]; tauto|]. split; [reflexivity|].
        apply pt_eq; unfold moved, xf_apply, dot, flip; cbn [px py pz xf_x xf_y xf_z xf_t]; ring.
      * intros (y & Y & Z & ->). apply M in Y. destruct Y as [Y1 Y2].
        apply pt_eq; unfold moved, xf_apply, dot, flip; cbn [px py pz xf_x xf_y xf_z xf_t]; rewrite ?Y1, ?Y2, ?Z; ring.
    + lra.
    + unfold on_round. rewrite Rtrigo_facts.cos_pi_minus, Rtrigo_facts.sin_pi_minus. cbn [px py]. fold c in BX, BY. split; lra.
    + replace (PI - h + (h - g)) with (PI - g) by ring.
      unfold on_round. rewrite Rtrigo_facts.cos_pi_minus, Rtrigo_facts.sin_pi_minus. cbn [px py]. fold c in AX, AY. split; lra.
  - cbn [goes]. unfold straight, at_z. cbn [px py pz]. replace (g + t * (g - g)) with g by ring. fold c in AX, AY. rewrite <- AX, <- AY.
    split; [intros ->; cbn [px py pz]; repeat split; ring|]. intros (X & Y & Z). apply pt_eq; cbn [px py pz]; lra.
Qed.

Lemma part_bound_agrees : bound_agrees S (mkBound (cyl_par rev (g, h)) (cyl_geo c top bot p q)).
Proof.
  split; [exact part_agrees|]. cbn [b_par b_geo]. assert (K : loop (cyl_par rev (g, h))) by apply four_loop.
  split; [exact K|]. exact (agrees_loop S _ _ part_agrees K).
Qed.
End Part.

(** ** Composites *)

Lemma last_app_one {A} (l : list A) a d : last (l ++ [a]) d = a.
Proof. induction l as [|x l IH]; [reflexivity|]. cbn. rewrite IH. now destruct l. Qed.

Lemma loop_closed_spec res l : loop_closed res l = true <-> taken_closed res l.
Proof.
  unfold taken_closed. destruct l as [|f r]; cbn [loop_closed].
  - split; [easy|]. intros (f & r & E & _). discriminate.
  - assert (PM : forall p q, point_matches p q res = true <-> one_point p q res) by (intros; apply point_matches_spec).
    assert (X : (exists f0 r0, f :: r = f0 :: r0 /\ one_point (crv_start f0) (crv_end (last r0 f0)) res /\ (r0 <> [] \/ exists z o a b m, f0 = CArc z o a b m)) <->
        one_point (crv_start f) (crv_end (last r f)) res /\ (r <> [] \/ exists z o a b m, f = CArc z o a b m)).
    { split; [|intros [H K]; exists f, r; tauto]. intros (f0 & r0 & E & H). inversion E. subst. tauto. }
    rewrite X. clear X. destruct r as [|g r].
    + cbn [last]. destruct f as [a b|z o a b m|a b|a o w d].
      * split; [discriminate|]. intros [_ [K|(z1 & o1 & a1 & b1 & m1 & K)]]; [now destruct K|discriminate K].
      * rewrite PM. split; [intro H; split; [exact H|right; eauto 8]|tauto].
      * split; [discriminate|]. intros [_ [K|(z1 & o1 & a1 & b1 & m1 & K)]]; [now destruct K|discriminate K].
      * split; [discriminate|]. intros [_ [K|(z1 & o1 & a1 & b1 & m1 & K)]]; [now destruct K|discriminate K].
    + destruct f; (rewrite PM; split; [intro H; split; [exact H|now left]|tauto]).
Qed.

Lemma add_all_spec res l : forall got, (exists l', add_all res got l = Some l') <->
  (forall l1 l2, l = l1 ++ l2 -> l2 <> [] -> ~ taken_closed res (got ++ l1)).
Proof.
  induction l as [|c l IH]; intro got; cbn [add_all].
  - split; [|intros; eauto]. intros _ l1 l2 E N. now destruct l1, l2.
  - destruct (loop_closed res got) eqn:LC.
    + split; [intros [? K]; discriminate|]. intro K. exfalso. apply (K [] (c :: l) eq_refl); [discriminate|]. rewrite app_nil_r. now apply loop_closed_spec.
    + rewrite IH. split.
      * intros K l1 l2 E N. destruct l1 as [|c' l1]; [rewrite app_nil_r; rewrite <- loop_closed_spec, LC; discriminate|].
        inversion E. subst c' l. replace (got ++ c :: l1) with ((got ++ [c]) ++ l1) by now rewrite <- app_assoc. now apply (K l1 l2).
      * intros K l1 l2 E N. rewrite <- app_assoc. apply (K (c :: l1) l2); [now rewrite E|exact N].
Qed.

Lemma add_all_keeps res l : forall got l', add_all res got l = Some l' -> l' = got ++ l.
Proof.
  induction l as [|c l IH]; intros got l'; cbn [add_all]; [intro E; injection E; intros <-; now rewrite app_nil_r|].
  destruct (loop_closed res got); [discriminate|]. intro K. rewrite (IH _ _ K), <- app_assoc. reflexivity.
Qed.

Lemma compose_keeps res l l' : compose res l = Some l' -> l' = l.
Proof. intro H. exact (add_all_keeps _ _ _ _ H). Qed.

Lemma compose_spec res l : compose res l = Some l <-> (forall l1 l2, l = l1 ++ l2 -> l2 <> [] -> ~ taken_closed res l1).
Proof.
  pose proof (add_all_spec res l []) as H. cbn [app] in H. rewrite <- H. unfold compose. split; [intro K; eauto|].
  intros [l' K]. rewrite K. f_equal. exact (compose_keeps _ _ _ K).
Qed.

(** ** The parts of an arc *)

(** Parts with the angles counted on from [w] to [v]; the angles of a part are these up to
    whole turns; all but the first and the last end are level with the centre. *)
Inductive parts (o : pt) (r a b : R) : R -> list ((pt * pt) * (R * R)) -> R -> Prop :=
| parts_nil w : parts o r a b w [] w
| parts_cons w w' v p q g h l : w < w' <= w + PI -> on_round o r w p -> on_round o r w' q ->
    0 <= g -> h <= 2 * PI -> (h <= PI \/ PI <= g) -> (g = w /\ h = w' \/ g = w + 2 * PI /\ h = w' + 2 * PI \/ g = w - 2 * PI /\ h = w' - 2 * PI) ->
    (w = a \/ sin w = 0) -> (w' = b \/ sin w' = 0) -> w' <= b -> pz q = 0 ->
    parts o r a b w' l v -> parts o r a b w (((p, q), (g, h)) :: l) v.

Lemma rp_round o r w : on_round o r w (mkPt (px o + r * cos w) (py o + r * sin w) 0).
Proof. split; reflexivity. Qed.

Lemma round_0_2 o r p : on_round o r 0 p <-> on_round o r (2 * PI) p.
Proof. unfold on_round. rewrite cos_0, sin_0, cos_2PI, sin_2PI. tauto. Qed.

Ltac zsin := first [left; reflexivity | right; first [apply sin_0 | apply sin_PI | apply sin_2PI]].
Ltac pst v := apply (parts_cons _ _ _ _ _ v); [lra|
  first [assumption | apply rp_round | apply (proj1 (round_0_2 _ _ _)), rp_round] |
  first [assumption | apply rp_round | apply (proj1 (round_0_2 _ _ _)), rp_round] |lra|lra|lra|lra|zsin|zsin|lra|first [assumption|reflexivity]|].

Lemma cyl_angles_parts o r a b p q : - PI < a <= PI -> a < b < a + 2 * PI -> on_round o r a p -> on_round o r b q -> pz q = 0 ->
  let angs := cyl_angles a b in
  parts o r a b a (combine (pairs (p :: map (fun g => mkPt (px o + r * cos (fst g)) (py o + r * sin (fst g)) 0) (tl angs) ++ [q])) angs) b.
Proof.
  intros R L A B ZB. pose proof PI_RGT_0 as P. unfold cyl_angles. rewrite (ltb_f b a) by lra.
  destruct (Rlt_dec a 0) as [K|K]; [rewrite (ltb_t a 0 K)|rewrite (ltb_f a 0) by lra].
  - destruct (Rle_dec (b + 2 * PI) (2 * PI)) as [K2|K2]; [rewrite (leb_t _ _ K2)|rewrite (leb_f (b + 2 * PI)) by lra].
    { cbn [tl map app pairs combine fst]. pst b. constructor. }
    destruct (Rle_dec (b + 2 * PI) (3 * PI)) as [K3|K3]; [rewrite (leb_t _ _ K3)|rewrite (leb_f (b + 2 * PI)) by lra]; cbn [tl map app pairs combine fst].
    + pst 0. pst b. constructor.
    + pst 0. pst PI. pst b. constructor.
  - destruct (Rle_dec b PI) as [K2|K2]; [rewrite (leb_t _ _ K2)|rewrite (leb_f b) by lra]; cbn [orb].
    { cbn [tl map app pairs combine fst]. pst b. constructor. }
    destruct (Rle_dec PI a) as [K3|K3]; [rewrite (leb_t _ _ K3)|rewrite (leb_f PI a) by lra]; cbn [andb].
    + rewrite (ltb_f a PI) by lra. destruct (Rle_dec b (2 * PI)) as [K4|K4]; [rewrite (leb_t _ _ K4)|rewrite (leb_f b) by lra]; cbn [tl map app pairs combine fst].
      * pst b. constructor.
      * pst (2 * PI). pst b. constructor.
    + rewrite (ltb_t a PI) by lra. destruct (Rle_dec b (2 * PI)) as [K4|K4]; [rewrite (leb_t _ _ K4)|rewrite (leb_f b) by lra]; cbn [tl map app pairs combine fst].
      * pst PI. pst b. constructor.
      * pst PI. pst (2 * PI). pst b. constructor.
Qed.

Lemma cyl_angles_counted a b : - PI < a <= PI -> - PI < b <= PI -> cyl_angles a b = cyl_angles a (if ltb b a then b + 2 * PI else b).
Proof.
  intros A B. unfold cyl_angles. destruct (Rlt_dec b a) as [K|K]; [rewrite (ltb_t b a K)|rewrite (ltb_f b a) by lra].
  - now rewrite (ltb_f (b + 2 * PI) a) by lra.
  - now rewrite (ltb_f b a) by lra.
Qed.
