(** Drawing outlines segment by segment; a concrete outline which ends up clockwise. *)

From Coq Require Import Reals List Bool ZArith Lra Lia.
From Verif Require Import SegModel SegSpec SegTrig SegFacts SegBox SegSplit SegProps CutModel CutSpec CutCases OutModel OutSpec OutFacts OutBox OutArea.
Import ListNotations.
Open Scope R_scope.

Lemma draw_snoc l s : draw (l ++ [s]) = match draw l with Some (_, o) => add_segment o (Some s) | None => None end.
Proof. unfold draw. rewrite fold_left_app. reflexivity. Qed.

Lemma draw_built (P : seg -> Prop) l r o : (forall s, In s l -> P s) -> draw l = Some (r, o) -> built P o.
Proof.
  revert r o. induction l as [|s l IH] using rev_ind; intros r o H D.
  - injection D as _ <-. constructor.
  - rewrite draw_snoc in D. destruct (draw l) as [(r' & o')|] eqn:E; [|discriminate].
    apply (built_add P o' (Some s) r o); [|intros t X; injection X as <-; apply H; apply in_or_app; right; now left|exact D].
    apply (IH r' o'); [|reflexivity]. intros t I. apply H. apply in_or_app. now left.
Qed.

(* no segment but the last one ends where the first one starts *)
Definition stays_open (l : list seg) : Prop := forall f m s n, l = f :: m ++ s :: n -> ~ one_point (s_end s) (s_start f) e8.

Lemma stays_open_init l s : stays_open (l ++ [s]) -> stays_open l.
Proof. intros H f m t n E. apply (H f m t (n ++ [s])). rewrite E. cbn. now rewrite <- app_assoc. Qed.

Lemma draw_chain l : Forall piece l -> chain l -> stays_open l -> exists bl tr, draw l = Some (yes, mkOut l false (total wind_of l) false bl tr).
Proof.
  induction l as [|s l IH] using rev_ind; intros F C N; [exists origin, origin; reflexivity|].
  apply Forall_app in F. destruct F as (F & Fs). inversion Fs as [|? ? Ps _]; subst.
  assert (C' : chain l). { destruct l as [|f l]; [exact I|]. rewrite (snoc_form f l) in C |- *. rewrite <- app_assoc in C. cbn [app] in C. now apply chain_snoc in C. }
  destruct (IH F C' (stays_open_init _ _ N)) as (bl & tr & D). rewrite draw_snoc, D.
  set (o := mkOut l false (total wind_of l) false bl tr).
  assert (Fi : fits o s).
  { split; [reflexivity|]. right. split; [exact Ps|]. cbn [o_segs]. intros m t E. change (o_segs o) with l in E. rewrite E, <- app_assoc in C. cbn [app] in C. apply chain_snoc in C. apply one_point_sym. now destruct C. }
  assert (K : ~ closes o s).
  { intros [T|(f & m & E & M)]; [destruct Ps; congruence|]. change (o_segs o) with l in E. apply (N f m s []); [now rewrite E|exact M]. }
  rewrite (add_open o s Fi K). cbn [o_segs o_wind o_bbok]. eexists; eexists. rewrite total_snoc. reflexivity.
Qed.

Definition oriented (l : list seg) : list seg :=
  if ltb 0 (total wind_of l) then (if Nat.eqb (length l) 2 then map reverse l else rev (map reverse l)) else l.

Lemma draw_ring l s : l <> [] -> Forall piece (l ++ [s]) -> ring (l ++ [s]) -> stays_open l ->
  (forall t, In t (l ++ [s]) -> made t) -> (forall t p, In t (l ++ [s]) -> covers t p -> near_home p) ->
  exists bl tr, draw (l ++ [s]) = Some (yes, mkOut (oriented (l ++ [s])) true (total wind_of (l ++ [s])) true bl tr).
Proof.
  intros NE F R N M H. destruct l as [|f l]; [congruence|]. clear NE.
  apply (ring_ends (l ++ [s]) f s (f :: l)) in R; [|reflexivity]. destruct R as (C & Z).
  apply Forall_app in F. destruct F as (F & Fs). inversion Fs as [|? ? Ps _]; subst.
  change (f :: l ++ [s]) with ((f :: l) ++ [s]) in C.
  assert (C' : chain (f :: l) /\ one_point (s_start s) (s_end (last l f)) e8).
  { rewrite (snoc_form f l) in C |- *. rewrite <- app_assoc in C. cbn [app] in C. now apply chain_snoc in C. }
  destruct C' as (C1 & C2). destruct (draw_chain _ F C1 N) as (bl & tr & D). 
  rewrite draw_snoc, D. set (o := mkOut (f :: l) false (total wind_of (f :: l)) false bl tr) in *.
  assert (B : built made o). { apply (draw_built made (f :: l) yes); [|exact D]. intros t I. apply M. apply in_or_app. now left. }
  assert (Fi : fits o s).
  { split; [reflexivity|]. right. split; [exact Ps|]. change (o_segs o) with (f :: l). intros m t E. rewrite snoc_form in E. apply app_inj_tail in E. destruct E as (_ & <-). now apply one_point_sym. }
  assert (K : closes o s) by (right; exists f, l; split; [reflexivity|now apply one_point_sym]).
  destruct (add_defined o s B (M s (in_or_app (f :: l) [s] s (or_intror (or_introl eq_refl)))) H) as (r & o' & A).
  rewrite (add_closing o s Fi K) in A |- *. destruct (adjust_box (box_after o s)) as [(bl' & tr')|]; [|discriminate].
  exists bl', tr'. unfold segs_after, wind_after, oriented. rewrite (proj2 (piece_types s Ps)). change (o_segs o) with (f :: l). change (o_wind o) with (total wind_of (f :: l)).
  replace (total wind_of ((f :: l) ++ [s])) with (total wind_of (f :: l) + wind_of s); [reflexivity|]. now rewrite total_snoc.
Qed.

(** ** A ring whose outer side is an arc *)

Definition outer_arc : seg := arc_of (at2 0 0) (at2 4 3) (at2 4 (-3)) false.
Definition keyhole : list seg := [outer_arc; line_of (at2 4 (-3)) (at2 (-3) (-3)); line_of (at2 (-3) (-3)) (at2 (-3) 3); line_of (at2 (-3) 3) (at2 4 3)].

Lemma outer_arc_made : set_arc (at2 0 0) (at2 4 3) (at2 4 (-3)) false = (true, outer_arc) /\ s_rad outer_arc = 5 /\
  s_sang outer_arc = atan (3 / 4) /\ s_eang outer_arc = 2 * PI - atan (3 / 4) /\ arc_in_order e8 outer_arc.
Proof.
  destruct (arc_is_made 0 0 4 3 4 (-3) false 5) as (M & N & _ & R); try lra; try (left; abs_lra); try (right; abs_lra).
  fold outer_arc in M, R. destruct (arc_made _ _ _ _ _ M N) as (_ & _ & _ & _ & _ & _ & O & _).
  assert (A : atan2 3 4 = atan (3 / 4)) by (unfold atan2; destruct (Rlt_dec 0 4); [reflexivity|lra]).
  assert (B : atan2 (-3) 4 = - atan (3 / 4)). { unfold atan2. destruct (Rlt_dec 0 4); [|lra]. rewrite <- atan_opp. f_equal. lra. }
  assert (P : 0 < atan (3 / 4)) by (apply atan_sign; lra).
  split; [exact M|]. split; [exact R|]. rewrite <- and_assoc. split; [|exact O]. unfold outer_arc, arc_of. cbn [s_sang s_eang s_cw px py at2]. rewrite !Rminus_0_r, A, B. cbn [andb negb].
  split; [reflexivity|]. rewrite ltb_t by lra. ring.
Qed.

Definition in_disc (p : pt) : Prop := dist2 p (at2 0 0) <= 25.
Lemma in_disc_home p : in_disc p -> near_home p.
Proof. unfold in_disc, near_home, dist2, at2. cbn [px py]. intros H. pose proof (pow2_ge_0 (px p - 0)). pose proof (pow2_ge_0 (py p - 0)). repeat split; nra. Qed.

Lemma keyhole_made : (forall t, In t keyhole -> made t) /\ Forall piece keyhole /\ ring keyhole /\
  (forall t p, In t keyhole -> covers t p -> near_home p).
Proof.
  destruct outer_arc_made as (M & R & A & B & O).
  assert (L1 : line_in_order (line_of (at2 4 (-3)) (at2 (-3) (-3)))) by (apply line_is_made; try lra; left; unfold e8; abs_lra).
  assert (L2 : line_in_order (line_of (at2 (-3) (-3)) (at2 (-3) 3))) by (apply line_is_made; try lra; right; unfold e8; abs_lra).
  assert (L3 : line_in_order (line_of (at2 (-3) 3) (at2 4 3))) by (apply line_is_made; try lra; left; unfold e8; abs_lra).
  split; [|split; [|split]].
  - intros t [<-|[<-|[<-|[<-|[]]]]]; [right; left; split; [exact O|reflexivity]|now left|now left|now left].
  - constructor; [now right|]. repeat (constructor; [now left|]). constructor.
  - split; [|apply one_point_refl]. cbn [chain keyhole]. repeat split; apply one_point_refl.
  - intros t p [<-|[<-|[<-|[<-|[]]]]] C.
    + apply in_disc_home. destruct C as (w & _ & (X & Y)). rewrite R in X, Y. unfold in_disc, dist2. rewrite X, Y. change (px (s_cen outer_arc)) with 0. change (py (s_cen outer_arc)) with 0. cbn [px py at2].
      pose proof (sin2_cos2 w) as S. unfold Rsqr in S. nra.
    + destruct C as (u & U & X & Y). cbn in X, Y. unfold near_home. split; lra.
    + destruct C as (u & U & X & Y). cbn in X, Y. unfold near_home. split; lra.
    + destruct C as (u & U & X & Y). cbn in X, Y. unfold near_home. split; lra.
Qed.

Lemma atan34 : 0 < atan (3 / 4) < PI / 4 /\ cos (atan (3 / 4)) = 4 / 5 /\ sin (atan (3 / 4)) = 3 / 5.
Proof.
  split; [split; [apply atan_sign; lra|rewrite <- atan_1; apply atan_increasing; lra]|].
  pose proof (cos_atan_sq (3 / 4)) as Q. pose proof (cos_atan_pos (3 / 4)) as P. pose proof (sin_atan_cos (3 / 4)) as S. 
  assert (C : cos (atan (3 / 4)) = 4 / 5) by nra. split; [exact C|]. rewrite S, C. lra.
Qed.

Lemma keyhole_wind : total wind_of keyhole = 30.
Proof.
  destruct outer_arc_made as (M & R & A & B & O). unfold total, keyhole. cbn [map fold_right]. unfold wind_of, get_midpoint.
  change (s_ty outer_arc) with SArc. cbv iota. rewrite A, B, R. change (s_cen outer_arc) with (at2 0 0). change (s_start outer_arc) with (at2 4 3). change (s_end outer_arc) with (at2 4 (-3)).
  unfold line_of. cbn [s_ty s_start s_end snd px py at2]. replace ((atan (3 / 4) + (2 * PI - atan (3 / 4))) * (1 / 2)) with PI by field. rewrite cos_PI, sin_PI. lra.
Qed.

(* drawn counterclockwise, it becomes clockwise *)
Lemma keyhole_turned : exists o v, draw keyhole = Some (yes, o) /\ o_closed o = true /\ o_segs o = rev (map reverse keyhole) /\
  0 < v /\ (forall v', encloses keyhole v' <-> v' = v) /\ (forall v', encloses (o_segs o) v' <-> v' = - v).
Proof.
  destruct outer_arc_made as (_ & R & A & B & _). destruct keyhole_made as (M & F & G & H).
  destruct (draw_ring [outer_arc; line_of (at2 4 (-3)) (at2 (-3) (-3)); line_of (at2 (-3) (-3)) (at2 (-3) 3)] (line_of (at2 (-3) 3) (at2 4 3))) as (bl & tr & D); [discriminate|exact F|exact G| |exact M|exact H|].
  { intros f m s n E. injection E as E1 E2. subst f. change (s_start outer_arc) with (at2 4 3).
    assert (X : In s [line_of (at2 4 (-3)) (at2 (-3) (-3)); line_of (at2 (-3) (-3)) (at2 (-3) 3)]) by (rewrite E2; apply in_or_app; right; now left).
    destruct X as [<-|[<-|[]]]; cbn [line_of s_end]; apply apart_x; try reflexivity; try (apply not_far; lra); cbn [px at2]; abs_lra. }
  change ([outer_arc; line_of (at2 4 (-3)) (at2 (-3) (-3)); line_of (at2 (-3) (-3)) (at2 (-3) 3)] ++ [line_of (at2 (-3) 3) (at2 4 3)]) with keyhole in D.
  assert (Or : oriented keyhole = rev (map reverse keyhole)). { unfold oriented. rewrite keyhole_wind, ltb_t by lra. reflexivity. }
  rewrite Or in D. eexists. exists (total sweep keyhole). split; [exact D|]. cbn [o_closed o_segs]. split; [reflexivity|]. split; [reflexivity|].
  assert (Rv : forall s, In s keyhole -> sweep (reverse s) = -1 * sweep s) by (intros s I; rewrite Forall_forall in F; rewrite (sweep_reverse s (F s I)); ring).
  split; [|split; [intros v'; now apply encloses_spec|]].
  - unfold total, keyhole. cbn [map fold_right]. unfold sweep, arc_sweep. change (s_ty outer_arc) with SArc. cbn [segty_eqb]. rewrite A, B, R.
    change (s_cen outer_arc) with (at2 0 0). unfold line_of. cbn [s_ty s_start s_end segty_eqb px py at2].
    destruct atan34 as (P & C & S). replace (2 * PI - atan (3 / 4)) with (- atan (3 / 4) + 2 * PI) by ring. rewrite cos_turn, sin_turn, cos_neg, sin_neg, C, S.
    pose proof PI2_3_2. nra.
  - intros v'. rewrite encloses_spec.
    + rewrite (turned_total sweep keyhole _ Rv (or_introl eq_refl)). reflexivity.
    + apply Forall_rev. rewrite Forall_forall in F |- *. intros x I. apply in_map_iff in I. destruct I as (z & <- & I). exact (proj2 (proj2 (reverse_ends z (F z I)))).
Qed.
