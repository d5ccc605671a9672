(** Operations with a circle: what is refused, what is kept, and two cases which go
    wrong. *)

From Coq Require Import Reals List Bool ZArith Lra Lia.
From Verif Require Import SegModel SegSpec SegTrig SegFacts SegBox SegSplit SegSplitArc SegProps CutModel CutSpec CutCircle CutArc CutLine CutArcLine CutCases OutModel OutSpec OutFacts OutBox OutArea OutDraw OutInside OutCases OutCut OutDisc.
Import ListNotations.
Open Scope R_scope.

(** ** What stays *)

Lemma splice_keeps o sp f0 f1 e0 e1 i0 i1 r o' : op_splice o sp f0 f1 e0 e1 i0 i1 = (r, o') ->
  (r = yes \/ r = no) /\ o_closed o' = o_closed o /\ o_wind o' = o_wind o /\ o_bbok o' = o_bbok o /\ o_bl o' = o_bl o /\ o_tr o' = o_tr o.
Proof.
  intros H. unfold op_splice in H. cbv zeta in H.
  repeat match type of H with
  | match ?x with Some _ => _ | None => _ end = _ => destruct x
  | (if ?b then _ else _) = _ => destruct b
  end; injection H as <- <-; cbn; repeat split; auto.
Qed.

Lemma op_keeps o a sub r o' : op_circle o a sub = (r, o') ->
  o_closed o' = o_closed o /\ o_wind o' = o_wind o /\ o_bbok o' = false /\ o_bl o' = o_bl o /\ o_tr o' = o_tr o /\
  (r = yes \/ r = no \/ r = (false, false)) /\ (r = (false, false) -> o_segs o' = o_segs o).
Proof.
  intros H. unfold op_circle in H. cbn [o_closed o_segs o_wind o_bl o_tr] in H. cbv zeta in H.
  assert (Sp : forall sp f0 f1 e0 e1 i0 i1, op_splice (mkOut (o_segs o) (o_closed o) (o_wind o) false (o_bl o) (o_tr o)) sp f0 f1 e0 e1 i0 i1 = (r, o') ->
    o_closed o' = o_closed o /\ o_wind o' = o_wind o /\ o_bbok o' = false /\ o_bl o' = o_bl o /\ o_tr o' = o_tr o /\
    (r = yes \/ r = no \/ r = (false, false)) /\ (r = (false, false) -> o_segs o' = o_segs o)).
  { intros sp f0 f1 e0 e1 i0 i1 K. destruct (splice_keeps _ _ _ _ _ _ _ _ _ _ K) as (R & A & B & C & D & E). repeat split; try assumption; [tauto|]. intros ->. destruct R; discriminate. }
  destruct (negb (o_closed o)); [injection H as <- <-; cbn; repeat split; auto; discriminate|].
  destruct a as [c|]; [|injection H as <- <-; cbn; repeat split; auto; discriminate].
  destruct (negb (segty_eqb (s_ty c) SCircle)); [injection H as <- <-; cbn; repeat split; auto; discriminate|].
  destruct (collect 0 (o_segs o) c sub) as [e|meets]; [injection H as <- <-; destruct e; cbn; repeat split; auto|].
  destruct meets as [|m0 meets]; [injection H as <- <-; cbn; repeat split; auto|].
  destruct (distinct [] (m0 :: meets)) as [|(pa & ia) [|(pb & ib) [|? ?]]]; try (injection H as <- <-; cbn; repeat split; auto; discriminate).
  destruct (middles c pa pb) as (m1 & m2).
  match type of H with (if Bool.eqb ?a ?b then _ else _) = _ => destruct (Bool.eqb a b) end; [injection H as <- <-; cbn; repeat split; auto|].
  match type of H with match set_arc ?a ?b ?d ?e with _ => _ end = _ => destruct (set_arc a b d e) as ([|] & sp) end; [|injection H as <- <-; cbn; repeat split; auto; discriminate].
  destruct (o_segs o) as [|s l] eqn:So; [injection H as <- <-; cbn; repeat split; auto; discriminate|].
  destruct (segty_eqb (s_ty s) SCircle).
  - match type of H with match split ?a ?b with _ => _ end = _ => destruct (split a b) as ([|] & ps & s' & n) end; injection H as <- <-; cbn; repeat split; auto; discriminate.
  - match type of H with (if ?b then _ else _) = _ => destruct b end.
    + match type of H with match split ?a ?b with _ => _ end = _ => destruct (split a b) as ([|] & ps & s' & [|n0 [|n1 [|n2 n]]]) end; injection H as <- <-; cbn; repeat split; auto; discriminate.
    + exact (Sp _ _ _ _ _ _ _ H).
Qed.

(** ** What is refused *)

Lemma op_refused o a sub : o_closed o = false \/ a = None \/ (exists c, a = Some c /\ s_ty c <> SCircle) ->
  op_circle o a sub = (no, mkOut (o_segs o) (o_closed o) (o_wind o) false (o_bl o) (o_tr o)).
Proof.
  intros H. unfold op_circle. cbn [o_closed]. destruct (o_closed o) eqn:C; [|reflexivity]. cbn [negb].
  destruct H as [H|[->|(c & -> & N)]]; [discriminate|reflexivity|]. destruct (s_ty c) eqn:T; try reflexivity. now elim N.
Qed.

(* nothing is met *)
Lemma op_misses o c sub : o_closed o = true -> s_ty c = SCircle -> (forall s, In s (o_segs o) -> intersections s c = nothing INone) ->
  op_circle o (Some c) sub = ((false, false), mkOut (o_segs o) true (o_wind o) false (o_bl o) (o_tr o)).
Proof.
  intros C T H. unfold op_circle. cbn [o_closed o_segs]. rewrite C, T. cbn [negb segty_eqb].
  assert (G : forall i l, (forall s, In s l -> intersections s c = nothing INone) -> collect i l c sub = inr []).
  { intros i l. revert i. induction l as [|s l IH]; intros i K; [reflexivity|]. cbn [collect]. rewrite (K s (or_introl eq_refl)). cbn [nothing]. apply IH. intros t I. apply K. now right. }
  rewrite (G _ _ H). reflexivity.
Qed.

(* two discs which do not cross *)
Lemma discs_apart o s c sub : built made o -> o_closed o = true -> o_segs o = [s] -> full_circle c ->
  let d := dist (s_cen s) (s_cen c) in let r := s_rad s in let r2 := s_rad c in
  let refused e := op_circle o (Some c) sub = ((false, e), mkOut [s] true (o_wind o) false (o_bl o) (o_tr o)) in
  (r + r2 < d -> refused false) /\
  (d <= r + r2 -> alike s c \/ touching s c -> refused true) /\
  (d <= r + r2 -> ~ alike s c -> ~ touching s c -> d <= r - r2 -> refused (negb sub)) /\
  (d <= r + r2 -> ~ alike s c -> ~ touching s c -> d <= r2 - r -> refused true).
Proof.
  intros B Cl So Fc d r r2 refused. destruct (circle_outline o s B Cl So) as (Fs & _).
  destruct (circles_spec s c Fs Fc) as (A1 & A2 & A3 & A4 & A5 & _). fold d r r2 in A1, A2, A3, A4, A5.
  assert (Da : alike s c \/ ~ alike s c).
  { unfold alike. destruct (point_matches (s_cen s) (s_cen c) e3) eqn:M; [apply point_matches_spec in M|apply point_matches_not in M; right; tauto].
    destruct (Rlt_dec (Rabs (s_rad s - s_rad c)) e3); [left; tauto|right; tauto]. }
  assert (G : forall e, match collect 0 [s] c sub with inl e' => e' = e | inr [] => e = false | _ => False end -> refused e).
  { intros e K. unfold refused, op_circle. cbn [o_closed o_segs]. rewrite Cl, (proj1 Fc), So. cbn [negb segty_eqb]. destruct (collect 0 [s] c sub) as [e'|[|]]; [subst; reflexivity|subst; reflexivity|contradiction]. }
  split; [|split; [|split]].
  - intros H. apply G. cbn [collect]. destruct (A1 H) as (-> & _). reflexivity.
  - intros H K. apply G. cbn [collect]. destruct Da as [Da|Da]; [rewrite (A2 H Da); reflexivity|]. destruct K as [K|K]; [contradiction|]. rewrite (A3 H Da K). reflexivity.
  - intros H K1 K2 K3. apply G. cbn [collect]. destruct (A4 H K1 K2 K3) as (-> & _). reflexivity.
  - intros H K1 K2 K3. apply G. cbn [collect]. destruct (A5 H K1 K2 K3) as (-> & _). reflexivity.
Qed.

(** ** Two circles *)

Definition out5 : outline := mkOut [circle5] true 0 true (at2 (-5) (-5)) (at2 5 5).

Lemma circle5_drawn : draw [circle5] = Some (yes, out5).
Proof.
  unfold draw. cbn [fold_left]. unfold add_segment. change (s_ty circle5) with SCircle. cbn [segty_eqb out_init o_closed o_segs o_bl o_tr o_wind].
  unfold get_box. change (s_ty circle5) with SCircle. cbn [snd]. change (s_cen circle5) with (at2 0 0). change (s_rad circle5) with 5. cbn [px py at2].
  unfold adjust_box. cbn [px py pz].
  rewrite !(floor_unique (0 - 5) (-5)) by lra. rewrite !(ceil_unique (0 + 5) 5) by lra.
  change (forallb int_ok _) with true. cbv [forallb]. change (5 - -5)%Z with 10%Z. change (even_up 10) with 10%Z. change (int_ok (-5)) with true. change (int_ok 5) with true. change (int_ok 10) with true. cbn [andb].
  change (Z.max 10 10) with 10%Z. unfold out5, yes. replace (-5 + 10) with 5 by ring. reflexivity.
Qed.

Lemma out5_built : built made out5.
Proof. apply (draw_built made [circle5] yes); [|exact circle5_drawn]. intros s [<-|[]]. right. right. exact circle5_full. Qed.

Lemma circle8_full : full_circle circle8.
Proof. split; [reflexivity|]. cbn. repeat split; lra. Qed.

Lemma out5_clear m : covers circle8 m -> in_plane m -> in_line (s_cen circle5) (s_cen circle8) m -> level_clear out5 circle5 m.
Proof.
  intros C Z L x X. unfold covers, dist2 in C. cbn [s_ty circle8 s_cen s_rad px py at2] in C. unfold in_line in L. cbn [s_cen circle5 circle8 px py at2] in L.
  assert (Y : py m = 0) by lra. rewrite Y in *. unfold line_end in X. cbn [out5 o_bl o_tr px at2] in X. cbn [s_rad circle5 s_cen py at2].
  assert (K : (px m - 3) * (px m - 13) = 0) by nra. apply Rmult_integral in K.
  replace (5 ^ 2 - (0 - 0) ^ 2) with 25 by ring. rewrite Rabs_right by lra. unfold e6.
  destruct K as [K|K]; [assert (E : px m = 3) by lra|assert (E : px m = 13) by lra]; rewrite E in *; destruct X as [(X1 & ->)|(X1 & ->)]; lra.
Qed.

Lemma circles_58 : intersections circle5 circle8 = found [at2 4 3; at2 4 (-3)] INone.
Proof.
  destruct circles_case as (F5 & F8 & _ & (p & q & E & (P1 & P2) & (Q1 & Q2)) & _).
  destruct (circles_met circle5 circle8 F5 F8) as (p' & q' & E' & _ & _ & _ & _ & Zp & Zq); [now rewrite E|]. rewrite E in E'. injection E' as <- <-.
  rewrite E. destruct p as [x y z], q as [x' y' z']. unfold in_plane in *. cbn in *. now subst.
Qed.

Lemma points_58 : ~ one_point (at2 4 3) (at2 4 (-3)) e8.
Proof. apply apart_y; try reflexivity; try (apply not_far; lra). cbn [py at2]. unfold e8. abs_lra. Qed.

(* the result for the union and for the difference *)
Lemma op_58 sub : exists o', op_circle out5 (Some circle8) sub = (yes, o').
Proof.
  assert (Dn : fst (fst (op_circle out5 (Some circle8) sub)) = true).
  { apply (discs_done out5 circle5 circle8 sub out5_built eq_refl eq_refl circle8_full out5_clear).
  - intros p (P & Q) Z. unfold covers, dist2 in P, Q. cbn [s_ty circle5 circle8 s_cen s_rad px py at2] in P, Q.
    assert (X : px p = 4) by nra. intros O. revert O. assert (Y : Rabs (py p) <= 5) by (apply Rabs_le; nra).
    apply Rcomplements.Rabs_le_between in Y. destruct p as [x y z]. unfold in_plane in Z. cbn [px py pz] in *. subst x z. apply apart_wide; cbn; try lra; try reflexivity. abs_lra.
  - intros p q (P & P') (Q & Q') Zp Zq N. unfold covers, dist2 in P, P', Q, Q'. cbn [s_ty circle5 circle8 s_cen s_rad px py at2] in P, P', Q, Q'.
    assert (X : px p = 4) by nra. assert (X' : px q = 4) by nra. destruct p as [x y z], q as [x' y' z']. unfold in_plane in *. cbn [px py pz] in *. subst x x' z z'.
    assert (K : (y - 3) * (y + 3) = 0) by nra. assert (K' : (y' - 3) * (y' + 3) = 0) by nra. apply Rmult_integral in K. apply Rmult_integral in K'.
    assert (W : y = 3 /\ y' = -3 \/ y = -3 /\ y' = 3).
    { destruct K, K'; [exfalso; apply N; split; cbn; lra|left; lra|right; lra|exfalso; apply N; split; cbn; lra]. }
    destruct W as [(-> & ->)|(-> & ->)]; [exact points_58|]. intros O. apply points_58. now apply one_point_sym.
  - exact (proj1 (proj2 (proj2 (clear8 circle8 eq_refl eq_refl)))).
  - exact (proj1 (proj2 (clear8 circle8 eq_refl eq_refl))).
  - change (s_cen circle5) with (at2 0 0). change (s_cen circle8) with (at2 8 0). rewrite (dist_at2 0 0 8 0 8) by lra. cbn [s_rad circle5 circle8]. replace (5 - 5) with 0 by ring. rewrite Rabs_R0. lra. }
  destruct (op_circle out5 (Some circle8) sub) as (r & o') eqn:E. destruct (discs out5 circle5 circle8 sub out5_built eq_refl eq_refl circle8_full out5_clear _ _ E Dn) as (R & _). exists o'. now rewrite R.
Qed.

(** ** The box which is left behind *)

Lemma at2_eta p : in_plane p -> p = at2 (px p) (py p).
Proof. destruct p as [x y z]. unfold in_plane. cbn. now intros ->. Qed.

Lemma hits_none a p x prev next y : arc_ok a -> line_in_order (line_of p (mkPt x (py p) 0)) -> e6 <= line_reach a (line_of p (mkPt x (py p) 0)) ->
  (forall v, covers (line_of p (mkPt x (py p) 0)) v -> dist v (s_cen a) <> s_rad a) -> count_on (line_of p (mkPt x (py p) 0)) y prev a next = 0%nat.
Proof.
  intros Oa Ol Re H. destruct (arc_line_spec a (line_of p (mkPt x (py p) 0)) a _ (or_introl (conj eq_refl eq_refl)) Oa Ol) as (K & _).
  destruct (K Re) as (ps & (L & _) & _ & (f & E & _) & _). unfold count_on. rewrite E.
  destruct ps as [|v ps]; [reflexivity|]. exfalso. destruct (L v (or_introl eq_refl)) as (C & D & _). exact (H v C D).
Qed.

Lemma stale : exists o', op_circle out5 (Some circle8) false = (yes, o') /\ o_bl o' = at2 (-5) (-5) /\ o_tr o' = at2 5 5 /\
  is_inside o' (at2 12 0) false = (false, false).
Proof.
  destruct (discs_run out5 circle5 circle8 false out5_built eq_refl eq_refl circle8_full out5_clear _ _ circles_58 points_58) as (f0 & f1 & Hf & E & _).
  destruct (op_58 false) as (o' & D). exists o'. split; [exact D|]. destruct (op_keeps _ _ _ _ _ D) as (K1 & _ & _ & K3 & K4 & _). split; [exact K3|]. split; [exact K4|].
  rewrite D in E. destruct (set_arc (s_cen circle8) f0 f1 false) as ([|] & sp) eqn:Sa; [|discriminate].
  destruct (split circle5 [f0; f1]) as ([|] & ps & s' & n) eqn:Sl; [|discriminate]. injection E as ->.
  assert (N01 : ~ one_point f0 f1 e8 /\ ~ one_point f1 f0 e8 /\ in_plane f0 /\ in_plane f1 /\ dist f0 (at2 0 0) = 5 /\ dist f1 (at2 0 0) = 5 /\ dist f0 (at2 8 0) = 5).
  { assert (N : ~ one_point (at2 4 (-3)) (at2 4 3) e8) by (intros O; apply points_58; now apply one_point_sym).
    destruct Hf as [(-> & ->)|(-> & ->)]; (split; [first [exact points_58|exact N]|]); (split; [first [exact points_58|exact N]|]); (split; [reflexivity|]); (split; [reflexivity|]);
      (split; [apply dist_at2; lra|]); (split; [apply dist_at2; lra|]); apply dist_at2; lra. }
  destruct N01 as (N0 & N1 & Z0 & Z1 & D0 & D1 & D8).
  destruct (arc_made _ _ _ _ _ Sa N0) as (T & Cc & _ & _ & _ & Rr & O & Sg & _).
  assert (Oa : arc_ok sp). { split; [now exists e8|]. split; [exact Sg|]. rewrite Cc. reflexivity. }
  assert (Sa' : set_arc (s_cen circle5) f1 f0 false = (true, s')).
  { assert (Q : fst (set_arc (s_cen circle5) f1 f0 false) = true).
    { apply set_arc_spec. change (s_cen circle5) with (at2 0 0).
      assert (Nc : forall f, in_plane f -> dist f (at2 0 0) = 5 -> ~ one_point (at2 0 0) f e8).
      { intros f Zf Df O1. assert (G : gap2 (at2 0 0) f = 25). { rewrite gap2_flat by (assumption || reflexivity). pose proof (dist_sq f (at2 0 0)) as W. rewrite Df in W. unfold dist2 in *. cbn [px py at2] in *. nra. }
        unfold one_point in O1. rewrite G in O1. assert (Nf : ~ far (at2 0 0) /\ ~ far f).
        { split; [apply not_far; lra|]. rewrite (at2_eta f Zf). pose proof (dist_sq f (at2 0 0)) as W. rewrite Df in W. unfold dist2 in W. cbn [px py at2] in W. apply not_far; nra. }
        destruct O1 as [O1|[O1|O1]]; [unfold e8 in O1; lra|lra|tauto]. }
      repeat split; try assumption; try (apply Nc; assumption). right. rewrite D0, D1. replace (5 - 5) with 0 by ring. rewrite Rabs_R0. unfold e8. lra. }
    destruct (set_arc (s_cen circle5) f1 f0 false) as (ok & s0) eqn:Q0. cbn in Q. subst ok. f_equal.
    destruct (set_arc_spec (s_cen circle5) f1 f0 false) as (_ & _ & _ & J). rewrite Q0 in J. cbn [fst snd] in J. rewrite (J eq_refl N1).
    unfold split in Sl. change (s_ty circle5) with SCircle in Sl. cbn [length] in Sl. unfold split_circle in Sl. cbv zeta in Sl.
    repeat match type of Sl with context [if ?b then (false, _) else _] => destruct b; [discriminate|] end. cbn [fst snd] in Sl. injection Sl as _ <- _.
    unfold arc_of, ccw_arc. change (s_cen circle5) with (at2 0 0). rewrite D1. cbv zeta.
    rewrite norm_no_loop; [reflexivity|left; apply atan2_range|left; apply atan2_range]. }
  destruct (arc_made _ _ _ _ _ Sa' N1) as (T' & Cc' & _ & _ & _ & Rr' & O' & Sg' & _).
  assert (Oa' : arc_ok s'). { split; [now exists e8|]. split; [exact Sg'|]. rewrite Cc'. reflexivity. }
  change (s_cen circle5) with (at2 0 0) in *. change (s_cen circle8) with (at2 8 0) in *. rewrite D1 in Rr'. rewrite D8 in Rr.
  match type of D with _ = (_, ?x) => set (oo := x) in * end.
  assert (Lx : line_end oo (at2 12 0) 10) by (right; cbn; split; lra).
  assert (Lo : line_in_order (line_of (at2 12 0) (mkPt 10 (py (at2 12 0)) 0))) by (change (mkPt 10 (py (at2 12 0)) 0) with (at2 10 0); apply line_is_made; try lra; left; unfold e8; abs_lra).
  unfold is_inside. change (o_closed oo) with true. cbn [negb]. unfold count_all. change (o_segs oo) with [s'; sp]. cbn [length seq map nth fold_left Nat.eqb].
  rewrite (line_end_ray _ _ _ Lx). destruct (set_line_cases (at2 12 0) 10 eq_refl) as [(N & _)|(_ & E)].
  { exfalso. revert N. apply apart_wide; cbn; try lra; try reflexivity. abs_lra. }
  rewrite E. rewrite (hits_none sp); [rewrite (hits_none s')| | | |]; try assumption; try reflexivity.
  - unfold line_reach, reach. rewrite Cc', Rr'. unfold dist2, line_of. cbn [s_start s_end px py at2]. unfold e6. lra.
  - intros v (t & Ht & X & Y) Dv. cbn [s_start s_end line_of px py at2] in X, Y. rewrite Cc', Rr' in Dv. pose proof (dist_sq v (at2 0 0)) as W. rewrite Dv in W. unfold dist2 in W. cbn [px py at2] in W. nra.
  - unfold line_reach, reach. rewrite Cc, Rr. unfold dist2, line_of. cbn [s_start s_end px py at2]. unfold e6. lra.
  - intros v (t & Ht & X & Y) Dv. cbn [s_start s_end line_of px py at2] in X, Y. rewrite Cc, Rr in Dv. pose proof (dist_sq v (at2 8 0)) as W. rewrite Dv in W. unfold dist2 in W. cbn [px py at2] in W. nra.
Qed.

Lemma stale_box : exists o', draw [circle5] = Some (yes, out5) /\ op_circle out5 (Some circle8) false = (yes, o') /\
  o_bl o' = at2 (-5) (-5) /\ o_tr o' = at2 5 5 /\ dist (at2 12 0) (s_cen circle8) < s_rad circle8 /\ is_inside o' (at2 12 0) false = (false, false).
Proof.
  destruct stale as (o' & A & B & C & D). exists o'. split; [exact circle5_drawn|]. split; [exact A|]. split; [exact B|]. split; [exact C|]. split; [|exact D].
  change (s_cen circle8) with (at2 8 0). rewrite (dist_at2 12 0 8 0 4) by lra. cbn. lra.
Qed.

Lemma far_missed : exists c, s_ty c = SCircle /\ forall s, In s (o_segs out5) -> intersections s c = nothing INone.
Proof.
  exists (mkSeg SCircle 5 0 (2 * PI) false (at2 20 0) (at2 25 0) (at2 25 0)). split; [reflexivity|]. intros s [<-|[]].
  apply circles_spec; [exact circle5_full|split; [reflexivity|]; cbn; repeat split; lra|]. cbn [s_cen s_rad circle5]. rewrite (dist_at2 0 0 20 0 20) by lra. lra.
Qed.
