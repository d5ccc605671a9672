(** Facts about whole boards. *)

From Coquelicot Require Import Coquelicot.
From Coq Require Import Reals List Bool ZArith Lra Lia Psatz.
From Verif Require Import SegModel SegSpec SegTrig SegFacts SegBox SegSplit SegProps OutModel OutSpec OutBox PcbModel PcbSpec PcbCurve PcbPlane PcbCyl PcbWall PcbFace PcbDone.
Import ListNotations.
Open Scope R_scope.

(** ** Walls around a board *)

Lemma walls_all res top bot rev l : fst (walls res top bot rev l) = true <-> Forall (fun s => segment_wall res top bot s rev <> None) l.
Proof.
  induction l as [|s l IH]; cbn [walls]; [split; [constructor|reflexivity]|].
  rewrite Forall_cons_iff, <- IH. destruct (segment_wall res top bot s rev) as [w|]; cbn [fst]; [split; [intro; split; [discriminate|assumption]|tauto]|].
  split; [discriminate|]. intros [N _]. now destruct N.
Qed.

(** The surfaces are those of the segments before the first for which there is none. *)
Lemma walls_prefix res top bot rev l : exists done rest ws, l = done ++ rest /\ snd (walls res top bot rev l) = concat ws /\
  Forall2 (fun s w => segment_wall res top bot s rev = Some w) done ws /\
  (rest = [] \/ exists s r, rest = s :: r /\ segment_wall res top bot s rev = None) /\ (fst (walls res top bot rev l) = true <-> rest = []).
Proof.
  induction l as [|s l (d & r & ws & E & S & F & R & A)]; cbn [walls].
  - exists [], [], []. repeat split; try constructor; reflexivity.
  - destruct (segment_wall res top bot s rev) as [w|] eqn:W; cbn [fst snd].
    + exists (s :: d), r, (w :: ws). split; [now rewrite E|]. split; [cbn [concat]; now rewrite S|]. split; [now constructor|]. tauto.
    + exists [], (s :: l), []. split; [reflexivity|]. split; [reflexivity|]. split; [constructor|]. split; [right; eauto|]. split; discriminate.
Qed.

Lemma vertical_answer res b top bot : let r := vertical res b top bot in
  snd (fst r) = negb (fst (fst r)) /\
  (fst (fst r) = true <-> o_closed (b_out b) = true /\ o_segs (b_out b) <> [] /\
     Forall (fun s => segment_wall res top bot s false <> None) (o_segs (b_out b)) /\
     Forall (fun s => segment_wall res top bot s true <> None) (b_holes b ++ concat (b_cuts b))).
Proof.
  cbv zeta. unfold vertical. destruct (o_closed (b_out b)); cbn [negb]; [|cbn; split; [reflexivity|split; [discriminate|intros (X & _); discriminate]]].
  rewrite <- !walls_all. destruct (o_segs (b_out b)) as [|s l] eqn:E; [cbn; split; [reflexivity|split; [discriminate|intros (_ & X & _); now destruct X]]|].
  rewrite <- E. destruct (fst (walls res top bot false (o_segs (b_out b)))) eqn:W; cbn [fst snd].
  - split; [reflexivity|]. split; [intro H; repeat split; try assumption; rewrite E; discriminate|tauto].
  - split; [reflexivity|]. split; [discriminate|]. intros (_ & _ & X & _). discriminate.
Qed.

Lemma walls_in res top bot rev l t : fst (walls res top bot rev l) = true -> (In t (snd (walls res top bot rev l)) <->
  exists s w, In s l /\ segment_wall res top bot s rev = Some w /\ In t w).
Proof.
  induction l as [|s l IH]; cbn [walls]; [intros _; split; [intros []|intros (s & w & [] & _)]|].
  destruct (segment_wall res top bot s rev) as [w|] eqn:W; cbn [fst snd]; [|discriminate]. intro H. rewrite in_app_iff, (IH H). split.
  - intros [I|(s' & w' & I & X)]; [exists s, w; split; [now left|tauto]|exists s', w'; split; [now right|tauto]].
  - intros (s' & w' & [<-|I] & X & Y); [rewrite W in X; injection X as ->; tauto|right; eauto].
Qed.

Lemma vertical_in res b top bot t : fst (fst (vertical res b top bot)) = true -> (In t (snd (vertical res b top bot)) <->
  exists s rev w, (rev = false /\ In s (o_segs (b_out b)) \/ rev = true /\ In s (b_holes b ++ concat (b_cuts b))) /\
    segment_wall res top bot s rev = Some w /\ In t w).
Proof.
  unfold vertical. destruct (negb (o_closed (b_out b))); [discriminate|]. destruct (o_segs (b_out b)) as [|s l] eqn:E; [discriminate|]. rewrite <- E.
  destruct (fst (walls res top bot false (o_segs (b_out b)))) eqn:W; [|discriminate]. cbn [fst snd]. intro H.
  rewrite in_app_iff, (walls_in _ _ _ _ _ _ W), (walls_in _ _ _ _ _ _ H). split.
  - intros [(s' & w & I & X)|(s' & w & I & X)]; [exists s', false, w; tauto|exists s', true, w; tauto].
  - intros (s' & rev & w & [[-> I]|[-> I]] & X); [left|right]; exists s', w; tauto.
Qed.

Theorem vertical_covers res b top bot p : all_sharp b -> fst (fst (vertical res b top bot)) = true ->
  ((exists t, In t (snd (vertical res b top bot)) /\ patch t p) <-> exists s, In s (board_segs b) /\ covers s p /\ Rmin top bot <= pz p <= Rmax top bot).
Proof.
  intros SH OK. assert (SH' : forall s, In s (board_segs b) -> sharp s) by (apply Forall_forall; exact SH). split.
  - intros (t & I & P). apply (vertical_in _ _ _ _ _ OK) in I. destruct I as (s & rev & w & IN & W & IT).
    assert (IB : In s (board_segs b)) by (unfold board_segs; rewrite in_app_iff; tauto).
    exists s. split; [exact IB|]. apply (wall_covers res top bot s rev w p (SH' s IB) W). eauto.
  - intros (s & IB & C). destruct (vertical_answer res b top bot) as (_ & A). apply A in OK as OK'. destruct OK' as (_ & _ & F1 & F2). rewrite Forall_forall in F1, F2.
    assert (X : exists rev, (rev = false /\ In s (o_segs (b_out b)) \/ rev = true /\ In s (b_holes b ++ concat (b_cuts b))) /\ segment_wall res top bot s rev <> None).
    { unfold board_segs in IB. rewrite in_app_iff in IB. destruct IB as [I|I]; [exists false|exists true]; (split; [tauto|auto]). }
    destruct X as (rev & IN & N). apply none_or in N. destruct N as (w & W).
    apply (wall_covers res top bot s rev w p (SH' s IB) W) in C. destruct C as (t & IT & P). exists t. split; [|exact P].
    apply (vertical_in _ _ _ _ _ OK). exists s, rev, w. tauto.
Qed.

Theorem vertical_sides res b top bot t : all_sharp b -> In t (snd (vertical res b top bot)) -> fst (fst (vertical res b top bot)) = true ->
  bound_agrees (t_surf t) (t_out t) /\ t_in t = [] /\
  exists s, (In s (o_segs (b_out b)) /\ (bot < top -> faces false s t)) \/ (In s (b_holes b ++ concat (b_cuts b)) /\ (bot < top -> faces true s t)).
Proof.
  intros SH I OK. assert (SH' : forall s, In s (board_segs b) -> sharp s) by (apply Forall_forall; exact SH).
  apply (vertical_in _ _ _ _ _ OK) in I. destruct I as (s & rev & w & IN & W & IT).
  assert (IB : In s (board_segs b)) by (unfold board_segs; rewrite in_app_iff; tauto).
  pose proof (wall_agrees res top bot s rev w (SH' s IB) W) as AG. rewrite Forall_forall in AG. destruct (AG t IT) as [A1 A2].
  split; [exact A1|]. split; [exact A2|]. exists s.
  assert (F : bot < top -> faces rev s t).
  { intro L. pose proof (wall_faces res top bot s rev w (SH' s IB) L W) as FA. rewrite Forall_forall in FA. exact (FA t IT). }
  destruct IN as [[-> IN]|[-> IN]]; [left|right]; tauto.
Qed.

(** ** The box *)

Lemma ltb_lt a b : ltb a b = true <-> a < b.
Proof. exact (ltb_true a b). Qed.

Lemma e8_le_one a b : in_plane a -> in_plane b -> ~ one_point a b e8 -> e8 <= Rabs (px a - px b) \/ e8 <= Rabs (py a - py b).
Proof.
  intros ZA ZB N. destruct (Rle_dec e8 (Rabs (px a - px b))) as [X|X]; [now left|]. destruct (Rle_dec e8 (Rabs (py a - py b))) as [Y|Y]; [now right|]. exfalso. apply N. left.
  unfold gap2, in_plane in *. rewrite ZA, ZB. apply Rnot_le_lt in X, Y. pose proof (Rabs_pos (px a - px b)). pose proof (Rabs_pos (py a - py b)).
  rewrite <- (pow2_abs (px a - px b)), <- (pow2_abs (py a - py b)). pose proof e8_pos. replace (0 - 0) with 0 by ring. nra.
Qed.

Lemma sharp_ends s : sharp s -> s_ty s = SArc -> covers s (s_start s) /\ covers s (s_end s) /\ arc_in_order 0 s.
Proof.
  intros SH T. unfold sharp in SH. rewrite T in SH. destruct SH as (_ & ZA & ZB & R & SA & EA & C0 & C1 & N & _).
  unfold covers, arc_in_order. rewrite T. pose proof PI_RGT_0.
  assert (X0 : on_round (s_cen s) (s_rad s) (s_sang s) (s_start s)). { unfold course in C0. rewrite T in C0. now rewrite Rmult_0_l, Rplus_0_r in C0. }
  assert (X1 : on_round (s_cen s) (s_rad s) (s_eang s) (s_end s)). { unfold course in C1. rewrite T in C1. replace (s_sang s + 1 * (s_eang s - s_sang s)) with (s_eang s) in C1 by ring. exact C1. }
  split; [|split].
  - exists (s_sang s). split; [|exact X0]. unfold start_angle, end_angle in *. destruct (s_cw s); lra.
  - exists (s_eang s). split; [|exact X1]. unfold start_angle, end_angle in *. destruct (s_cw s); lra.
  - split; [reflexivity|]. split; [exact R|]. split; [lra|]. split; [lra|]. split; [lra|]. split; [lra|].
    assert (Z : forall p q w, on_round (s_cen s) (s_rad s) w p -> on_round (s_cen s) (s_rad s) w q -> dist p q <= 0).
    { intros p q w [P1 P2] [Q1 Q2]. unfold dist, dist2. rewrite P1, P2, Q1, Q2. replace (_ + _) with 0 by ring. rewrite sqrt_0. lra. }
    split; intros p C; unfold course in C; rewrite T in C.
    + rewrite Rmult_0_l, Rplus_0_r in C. exact (Z _ _ _ C X0).
    + replace (s_sang s + 1 * (s_eang s - s_sang s)) with (s_eang s) in C by ring. exact (Z _ _ _ C X1).
Qed.

Lemma sharp_extent s : sharp s -> px (fst (seg_box s)) < px (snd (seg_box s)) \/ py (fst (seg_box s)) < py (snd (seg_box s)).
Proof.
  intro SH. unfold seg_box. destruct (s_ty s) eqn:T.
  - unfold sharp in SH. rewrite T in SH. contradiction.
  - destruct (line_box_bounds s origin origin T) as (b & E & (d & D & D0 & K) & _). rewrite E. cbn [snd].
    unfold sharp in SH. rewrite T in SH. destruct SH as (ZA & ZB & N).
    assert (CA : covers s (s_start s)) by (unfold covers; rewrite T; exists 0; split; [lra|split; ring]).
    assert (CB : covers s (s_end s)) by (unfold covers; rewrite T; exists 1; split; [lra|split; ring]).
    pose proof e8_pos as E8. destruct (e8_le_one _ _ ZA ZB N) as [X|X]; apply K in CA, CB.
    + rewrite (D0 X) in CA, CB. left. destruct (Rle_dec (px (s_start s)) (px (s_end s))); [rewrite Rabs_left1 in X by lra|rewrite Rabs_pos_eq in X by lra]; lra.
    + right. destruct (Rle_dec (py (s_start s)) (py (s_end s))); [rewrite Rabs_left1 in X by lra|rewrite Rabs_pos_eq in X by lra]; lra.
  - destruct (sharp_ends s SH T) as (CA & CB & O). destruct (arc_box_bounds 0 s origin origin O) as (b & E & K & _). rewrite E. cbn [snd].
    unfold sharp in SH. rewrite T in SH. destruct SH as (_ & ZA & ZB & _ & _ & _ & _ & _ & N & _).
    pose proof e8_pos as E8. apply K in CA, CB. destruct (e8_le_one _ _ ZA ZB N) as [X|X]; [left|right].
    + destruct (Rle_dec (px (s_start s)) (px (s_end s))); [rewrite Rabs_left1 in X by lra|rewrite Rabs_pos_eq in X by lra]; lra.
    + destruct (Rle_dec (py (s_start s)) (py (s_end s))); [rewrite Rabs_left1 in X by lra|rewrite Rabs_pos_eq in X by lra]; lra.
  - unfold sharp in SH. rewrite T in SH. destruct SH as (_ & R & _). unfold get_box. rewrite T. cbn [fst snd px py]. left. lra.
Qed.

Lemma sharp_in_box s p : sharp s -> covers s p -> in_box e8 (fst (seg_box s)) (snd (seg_box s)) p.
Proof.
  intros SH C. unfold seg_box, in_box. pose proof e8_pos as E8. destruct (s_ty s) eqn:T.
  - unfold covers in C. rewrite T in C. contradiction.
  - destruct (line_box_bounds s origin origin T) as (b & E & (d & D & _ & K) & _). rewrite E. cbn [snd]. apply K in C. lra.
  - destruct (sharp_ends s SH T) as (_ & _ & O). destruct (arc_box_bounds 0 s origin origin O) as (b & E & K & _). rewrite E. cbn [snd]. apply K in C. lra.
  - unfold sharp in SH. rewrite T in SH. destruct (circle_box_bounds s origin origin T ltac:(tauto)) as (b & E & K & _). rewrite E. cbn [snd]. apply K in C. lra.
Qed.

Lemma fold_within l : forall b, within b (fold_left join_box l b) /\ forall c, In c l -> within c (fold_left join_box l b).
Proof.
  induction l as [|x l IH]; intro b; cbn [fold_left]; [split; [unfold within; lra|intros c []]|]. destruct (IH (join_box b x)) as [A B]. destruct (join_within b x) as [J1 J2]. split.
  - exact (within_trans _ _ _ J1 A).
  - intros c [<-|I]; [exact (within_trans _ _ _ J2 A)|auto].
Qed.

Lemma sharp_type s : sharp s -> s_ty s <> SNone.
Proof. unfold sharp. destruct (s_ty s); [contradiction| | |]; discriminate. Qed.

Lemma calc_box_sharp o o' : Forall sharp (o_segs o) -> o_closed o = true -> o_segs o <> [] -> calc_box o = Some o' ->
  o_segs o' = o_segs o /\ o_closed o' = true /\ px (o_bl o') < px (o_tr o') /\ px (o_tr o') - px (o_bl o') = py (o_tr o') - py (o_bl o') /\
  forall s p, In s (o_segs o) -> covers s p -> in_box e8 (o_bl o') (o_tr o') p.
Proof.
  intros SH CL NE H. unfold calc_box in H. destruct (o_segs o) as [|s l] eqn:E; [now destruct NE|]. rewrite CL in H. cbn [negb] in H.
  destruct (adjust_box _) as [[bl tr]|] eqn:J; [|discriminate]. injection H as <-. cbn [o_segs o_closed o_bl o_tr].
  assert (WI : forall x, In x (s :: l) -> within (seg_box x) (bl, tr)).
  { intros x I. apply adjust_within in J as J'. refine (within_trans _ _ _ _ J'). destruct (fold_within (map seg_box l) (snd (get_box s (o_bl o) (o_tr o)))) as [A B].
    destruct I as [<-|I]; [|apply B, in_map; exact I]. refine (within_trans _ _ _ _ A).
    inversion_clear SH as [|? ? S1 _]. destruct (box_xy s (o_bl o) (o_tr o) (sharp_type s S1)) as (B1 & B2 & B3 & B4). unfold within. rewrite B1, B2, B3, B4. lra. }
  destruct (fold_left join_box (map seg_box l) (snd (get_box s (o_bl o) (o_tr o)))) as [b0 b1].
  destruct (adjust_spec _ _ _ _ J) as (_ & _ & _ & _ & i & j & k & A1 & A2 & A3 & A4 & _). rewrite !plus_IZR in *.
  split; [reflexivity|]. split; [reflexivity|].
  assert (X : px bl < px tr).
  { inversion_clear SH as [|? ? S1 _]. pose proof (sharp_extent s S1) as X. specialize (WI s (or_introl eq_refl)). unfold within in WI. cbn [fst snd] in WI. rewrite A1, A2, A3, A4 in *. lra. }
  split; [exact X|]. split; [rewrite A1, A2, A3, A4; ring|].
  intros x p I C. rewrite Forall_forall in SH. pose proof (sharp_in_box x p (SH x I) C) as B. specialize (WI x I). unfold within, in_box in *. cbn [fst snd] in *. lra.
Qed.

(** ** The plane *)

Lemma all_some_of {A B} (f : A -> option B) l l' : Forall2 (fun x y => f x = Some y) l l' -> all_some (map f l) = Some l'.
Proof. induction 1 as [|x y l l' E _ IH]; cbn [map all_some]; [reflexivity|]. now rewrite E, IH. Qed.

Lemma all_some_total {A B} (f : A -> option B) (P : A -> B -> Prop) l : Forall (fun x => exists y, f x = Some y /\ P x y) l ->
  exists l', all_some (map f l) = Some l' /\ Forall2 P l l'.
Proof.
  induction 1 as [|x l (y & E & Y) _ (l' & E' & F)]; cbn [map all_some]; [exists []; split; [reflexivity|constructor]|].
  rewrite E, E'. exists (y :: l'). split; [reflexivity|now constructor].
Qed.

Lemma compose_cases res l : (compose res l = Some l /\ open_to_end res l) \/ (compose res l = None /\ ~ open_to_end res l).
Proof.
  destruct (compose res l) as [l'|] eqn:E.
  - left. pose proof (compose_keeps _ _ _ E) as ->. split; [reflexivity|]. exact (proj1 (compose_spec res l) E).
  - right. split; [reflexivity|]. intro H. apply (proj2 (compose_spec res l)) in H. congruence.
Qed.

Section Plane.
Variables (res : R) (o : outline) (z : R) (rev : bool).
Hypothesis W : px (o_bl o) < px (o_tr o).
Hypothesis SQ : px (o_tr o) - px (o_bl o) = py (o_tr o) - py (o_bl o).
Let F := plane_surf (o_bl o) (o_tr o) z rev.

Lemma plane_bound_cases l : Forall sharp l ->
  (exists b, plane_bound res (o_bl o) (o_tr o) z rev l = Some b /\ bound_follows z F l b /\ b_par b = par_of o z rev l /\ b_geo b = geo_of z l /\
     open_to_end res (par_of o z rev l) /\ open_to_end res (geo_of z l)) \/
  (plane_bound res (o_bl o) (o_tr o) z rev l = None /\ ~ (open_to_end res (par_of o z rev l) /\ open_to_end res (geo_of z l))).
Proof.
  intro SH. unfold plane_bound, par_of, geo_of.
  destruct (all_some_total (fun s => curve_on_plane (px (o_bl o)) (px (o_tr o)) (py (o_bl o)) z s rev) (fun x c => follows (lifted F) (course_at z x) 0 c 1) l) as (ps & -> & FP).
  { rewrite Forall_forall in SH |- *. intros s I. exact (plane_curves_follow (o_bl o) (o_tr o) z rev W SQ s (SH s I)). }
  destruct (all_some_total (get_curves z) (fun x c => follows goes (course_at z x) 0 c 1) l) as (gs & -> & FG).
  { rewrite Forall_forall in SH |- *. intros s I. exact (curves_follow z s (SH s I)). }
  destruct (compose_cases res (concat ps)) as [[-> P]|[-> P]]; [|right; split; [reflexivity|tauto]].
  destruct (compose_cases res (concat gs)) as [[-> G]|[-> G]]; [|right; split; [reflexivity|tauto]].
  left. eexists. split; [reflexivity|]. cbn [b_par b_geo]. split; [|tauto]. exists ps, gs. cbn [b_par b_geo]. tauto.
Qed.

Lemma plane_bounds_cases ls : Forall (Forall sharp) ls ->
  (exists bs, all_some (map (plane_bound res (o_bl o) (o_tr o) z rev) ls) = Some bs /\ Forall2 (bound_follows z F) ls bs /\
     Forall (fun l => open_to_end res (par_of o z rev l) /\ open_to_end res (geo_of z l)) ls) \/
  (all_some (map (plane_bound res (o_bl o) (o_tr o) z rev) ls) = None /\
     ~ Forall (fun l => open_to_end res (par_of o z rev l) /\ open_to_end res (geo_of z l)) ls).
Proof.
  induction 1 as [|l ls SH _ IH]; [left; exists []; split; [reflexivity|split; constructor]|]. cbn [map all_some].
  destruct (plane_bound_cases l SH) as [(b & -> & B & _ & _ & OK)|[-> N]]; [|right; split; [reflexivity|rewrite Forall_cons_iff; tauto]].
  destruct IH as [(bs & -> & BS & OKS)|[-> N]]; [|right; split; [reflexivity|rewrite Forall_cons_iff; tauto]].
  left. exists (b :: bs). split; [reflexivity|]. split; [now constructor|]. now constructor.
Qed.
End Plane.

Lemma plane_normal bl tr z rev u v : px tr - px bl = py tr - py bl ->
  normal (plane_surf bl tr z rev) u v (mkPt 0 0 ((if rev then -1 else 1) * (px tr - px bl)^2)).
Proof.
  intro SQ. unfold plane_surf. destruct rev;
    (match goal with |- normal (Bil ?a ?b ?c ?d) u v ?n => replace n with (cross (along (minus b a) (minus d c) v) (along (minus c a) (minus d b) u)); [apply bil_normal|] end);
    unfold cross, along, minus; apply pt_eq; cbn [px py pz]; try ring.
  - replace (py tr) with (px tr - px bl + py bl) by lra. ring.
  - replace (py tr) with (px tr - px bl + py bl) by lra. ring.
Qed.

Lemma plane_level bl tr z rev u v : pz (surf_at (plane_surf bl tr z rev) u v) = z.
Proof. unfold plane_surf. destruct rev; cbn [surf_at]; unfold along; cbn [px py pz]; ring. Qed.

Lemma bounding_sharp b : all_sharp b -> Forall (Forall sharp) (bounding b).
Proof.
  unfold all_sharp, board_segs, bounding. rewrite !Forall_app. intros (A & H & C). constructor; [exact A|]. apply Forall_app. split.
  - rewrite Forall_forall in C |- *. intros l I. apply Forall_forall. intros s IS. apply C, in_concat. eauto.
  - rewrite Forall_map. rewrite Forall_forall in H |- *. intros s I. constructor; [auto|constructor].
Qed.

Theorem trimmed_plane_cases res b z rev a o l : all_sharp b -> trimmed_plane res b z rev = Some (a, o, l) ->
  snd a = negb (fst a) /\ o_segs o = o_segs (b_out b) /\ o_closed o = o_closed (b_out b) /\
  (fst a = true <-> o_closed (b_out b) = true /\ o_segs (b_out b) <> [] /\
     Forall (fun l => open_to_end res (par_of o z rev l) /\ open_to_end res (geo_of z l)) (bounding b)) /\
  (fst a = false -> l = []) /\
  (fst a = true -> exists t, l = [t] /\ t_surf t = plane_surf (o_bl o) (o_tr o) z rev /\
     px (o_bl o) < px (o_tr o) /\ px (o_tr o) - px (o_bl o) = py (o_tr o) - py (o_bl o) /\
     Forall2 (bound_follows z (t_surf t)) (bounding b) (t_out t :: t_in t)).
Proof.
  intros SH H. unfold trimmed_plane in H. destruct (calc_box (b_out b)) as [o'|] eqn:CB; [|discriminate].
  assert (EO : o_segs o' = o_segs (b_out b) /\ o_closed o' = o_closed (b_out b)).
  { unfold calc_box in CB. destruct (o_segs (b_out b)) eqn:E; [injection CB as <-; tauto|]. destruct (o_closed (b_out b)) eqn:K; cbn [negb] in CB; [|injection CB as <-; now rewrite E, K].
    destruct (adjust_box _) as [[x y]|]; [|discriminate]. injection CB as <-. cbn. tauto. }
  destruct EO as [E1 E2].
  destruct (negb (o_closed o')) eqn:K.
  { injection H as <- <- <-. apply negb_true_iff in K. rewrite K in E2. cbn. repeat split; try tauto; try discriminate; try congruence. intros (X & _). congruence. }
  apply negb_false_iff in K. destruct (o_segs o') as [|s0 l0] eqn:E0.
  { injection H as <- <- <-. cbn. repeat split; try tauto; try discriminate; try congruence. intros (_ & X & _). congruence. }
  rewrite <- E0 in H. assert (NE : o_segs (b_out b) <> []) by (rewrite <- E1; discriminate).
  assert (SO : Forall sharp (o_segs (b_out b))) by (unfold all_sharp, board_segs in SH; rewrite Forall_app in SH; tauto).
  destruct (calc_box_sharp _ _ SO ltac:(congruence) NE CB) as (_ & _ & W & SQ & _).
  pose proof (bounding_sharp b SH) as BS. unfold bounding in *. apply Forall_cons_iff in BS. destruct BS as [_ BS].
  rewrite E0, E1 in H.
  destruct (plane_bound_cases res o' z rev W SQ _ SO) as [(out & EB & FB & _ & _ & OK)|[EB N]]; rewrite EB in H.
  - destruct (plane_bounds_cases res o' z rev W SQ _ BS) as [(ins & EI & FI & OKI)|[EI N]]; rewrite EI in H; injection H as <- <- <-; cbn [fst snd].
    + repeat split; try tauto; try discriminate; try congruence. { constructor; tauto. }
      eexists. split; [reflexivity|]. cbn [t_surf t_out t_in]. repeat split; try assumption. constructor; assumption.
    + repeat split; try tauto; try discriminate; try congruence. intros (_ & _ & X). apply Forall_cons_iff in X. tauto.
  - injection H as <- <- <-. cbn [fst snd]. repeat split; try tauto; try discriminate; try congruence. intros (_ & _ & X). apply Forall_cons_iff in X. tauto.
Qed.

(** ** Heights the wrong way round *)

Theorem wall_faces_swapped res top bot s rev l : sharp s -> top < bot -> segment_wall res top bot s rev = Some l ->
  Forall (faces (if match s_ty s with SLine => true | _ => false end then negb rev else rev) s) l.
Proof.
  intros SH L H. apply segment_wall_cases in H. destruct H as (_ & [(T & t & -> & H)|(T & H)]).
  - rewrite T. constructor; [|constructor]. destruct rev; apply wall_is in H; subst t; intros u v E; cbn [t_surf t_out b_par negb] in *; apply square_enclosed in E;
      (eexists; split; [apply bil_normal|]).
    + match goal with |- to_right s ?P ?N => replace N with (mkPt ((bot - top) * (py (s_end s) - py (s_start s))) (- (bot - top) * (px (s_end s) - px (s_start s))) 0) end.
      * apply (line_right s u (bot - top) T); try lra; unfold surf_at, along, at_z; cbn [px py pz]; ring.
      * unfold cross, along, minus, at_z. apply pt_eq; cbn [px py pz]; ring.
    + unfold to_left. match goal with |- to_right s ?P ?N => replace N with (mkPt ((bot - top) * (py (s_end s) - py (s_start s))) (- (bot - top) * (px (s_end s) - px (s_start s))) 0) end.
      * apply (line_right s u (bot - top) T); try lra; unfold surf_at, along, at_z; cbn [px py pz]; ring.
      * unfold cross, along, minus, at_z. apply pt_eq; cbn [px py pz]; ring.
  - destruct (cyl_for_seg s SH T) as (_ & CF). destruct (cyl_make_parts _ _ _ _ _ _ H) as (_ & _ & F).
    rewrite Rmax_right, Rmin_left in F by lra. assert (LL : match s_ty s with SLine => true | _ => false end = false) by (destruct T as [T|T]; rewrite T; reflexivity). rewrite LL.
    apply Forall_forall. intros t I. destruct (forall2_in _ _ _ _ F I) as ([[p q] [g h]] & IN & ->). cbn [fst snd].
    exact (cyl_faces s _ bot top _ [] rev p q g h SH T CF L IN).
Qed.

(** What is left after a failure. *)
Theorem vertical_failure res b top bot : fst (fst (vertical res b top bot)) = false ->
  exists done ws, Forall2 (fun x w => segment_wall res top bot (fst x) (snd x) = Some w) done ws /\ snd (vertical res b top bot) = concat ws /\
    (o_closed (b_out b) = true -> o_segs (b_out b) <> [] -> exists s rev rest, segment_wall res top bot s rev = None /\
      map (fun s => (s, false)) (o_segs (b_out b)) ++ map (fun s => (s, true)) (b_holes b ++ concat (b_cuts b)) = done ++ (s, rev) :: rest).
Proof.
  assert (T : forall rev l ws, Forall2 (fun s w => segment_wall res top bot s rev = Some w) l ws ->
    Forall2 (fun x w => segment_wall res top bot (fst x) (snd x) = Some w) (map (fun s : seg => (s, rev)) l) ws).
  { intros rev l ws. induction 1; cbn [map]; constructor; assumption. }
  unfold vertical. destruct (o_closed (b_out b)); cbn [negb]; [|intros _; exists [], []; split; [constructor|split; [reflexivity|discriminate]]].
  destruct (o_segs (b_out b)) as [|x l] eqn:E; [intros _; exists [], []; split; [constructor|split; [reflexivity|intros _ N; now destruct N]]|]. rewrite <- E.
  destruct (walls_prefix res top bot false (o_segs (b_out b))) as (d1 & r1 & w1 & E1 & S1 & F1 & R1 & A1).
  destruct (walls_prefix res top bot true (b_holes b ++ concat (b_cuts b))) as (d2 & r2 & w2 & E2 & S2 & F2 & R2 & A2).
  destruct (fst (walls res top bot false (o_segs (b_out b)))); cbn [fst snd].
  - intro H. rewrite S1, S2. assert (N1 : r1 = []) by tauto. subst r1. rewrite app_nil_r in E1. destruct R2 as [R2|(s & r & R2 & NS)]; [apply A2 in R2; congruence|].
    exists (map (fun s => (s, false)) d1 ++ map (fun s => (s, true)) d2), (w1 ++ w2). split; [apply Forall2_app; now apply T|]. split; [now rewrite concat_app|]. intros _ _.
    exists s, true, (map (fun s => (s, true)) r). split; [exact NS|]. rewrite E1, E2, R2, map_app, <- app_assoc. reflexivity.
  - intros _. rewrite S1. destruct R1 as [R1|(s & r & R1 & NS)]; [apply A1 in R1; discriminate|].
    exists (map (fun s => (s, false)) d1), w1. split; [now apply T|]. split; [reflexivity|]. intros _ _.
    exists s, false, (map (fun s => (s, false)) r ++ map (fun s => (s, true)) (b_holes b ++ concat (b_cuts b))). split; [exact NS|]. rewrite E1, R1, map_app. cbn [map]. rewrite <- !app_assoc. reflexivity.
Qed.
