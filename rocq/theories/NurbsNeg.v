(** Splines with weights which the reader does not accept. *)

From Coq Require Import Lia ZifyBool ZifyNat ZifyN QArith Qabs Lqa.
From Verif Require Import Base Num Spec NumFacts IoModel FieldFacts LineFacts TokenFacts RealFacts RecordFacts
  ParamFacts PutModel BuildFacts StreamFacts PdModel PdFacts GlobBack EntSpec EntModel EntModel2 EntModel3
  EntFacts EntProps EntProps2 EntItem EntProps3 EntNeg EntNeg2.
Open Scope Z_scope.

Lemma frame_refused {A} etype seq k pd rd x ps0 (acts : ascii -> list act) ups extras
  (parse : str -> nat -> pres (A * nat * bool)) :
  1 <= etype <= 9999999 -> settings_ok pd rd seq k extras ->
  spaced_open pd ps0 x -> (length (showZ etype ++ pd :: x) <= 64)%nat ->
  opens pd rd (acts pd) ups -> closes pd rd (acts rd) ups ->
  k + ucosts ups + 2 * Z.of_nat (length extras) + 6 <= 9999999 -> Forall no_nl (ps0 ++ map snd ups) ->
  (forall ps' data n idx ex, Forall2 uwrote ups ps' -> cursor pd rd data n idx false ((ps0 ++ ps') ++ ex) ->
     parse data idx = PFail) ->
  refused (format_frame (showZ etype ++ pd :: x) (acts (fdel extras pd rd)) extras [] k seq pd rd)
    (fun n f => readPD_frame parse etype seq k n pd rd f).
Proof.
  intros He (D & Hs & Hk & EO) SO LI O C B NN P. pose proof (extras_cost_le extras) as XC.
  destruct (frame_ok etype seq k pd rd Hs Hk D x ps0 acts ups extras SO LI O C EO ltac:(lia)) as (r & ps' & F & W & PR).
  assert (NL : Forall no_nl (ps0 ++ ps')).
  { apply Forall_app in NN. destruct NN as [N0 N1]. apply Forall_app. split; [exact N0|].
    clear -W N1. revert N1. induction W as [|u p us ps U _ IH]; cbn [map]; intros N; [constructor|].
    inversion N; subst. constructor; [|auto]. destruct u as [u q]. unfold uwrote in U. cbn [fst snd] in *.
    destruct q, p; cbn in *; try tauto. subst; auto. }
  exists r. split; [exact F|].
  refine (read_frame_fail etype seq k pd rd He Hk D parse _ _ r _ _ PR).
  - intros data n idx CC _. eapply P; eauto.
  - apply Forall_app. split; [exact NL|].
    destruct extras as [|e x']; [constructor|]. unfold extras_params.
    destruct (map snd (filter is_secA (e :: x'))), (map snd (filter is_secB (e :: x')));
      repeat first [apply no_nl_ptrs | apply Forall_nil | apply Forall_cons; [first [exact Logic.I | intros []]|] | apply Forall_app; split].
Qed.

Lemma close_low u v q : real_close u v q -> (v < 1 # 100000000)%Q -> (q <= 0)%Q.
Proof.
  intros [A B] L. destruct (Qlt_le_dec (Qabs v) (1 # 100000000)) as [S|S]; [rewrite (A S); lra|].
  assert (N : (v <= 0)%Q).
  { destruct (Qlt_le_dec 0 v) as [P|P]; [|exact P]. rewrite Qabs_pos in S by lra. lra. }
  destruct (B S) as (_ & C & _). rewrite (Qabs_neg v N) in C, S. rewrite Qabs_Qle_condition in C. lra.
Qed.

Lemma st_weights_bad pd rd data n u ws : delims pd rd -> Exists (fun w => w < 1 # 100000000)%Q ws ->
  forall qs idx eor ps, cursor pd rd data n idx eor (qs ++ ps) -> Forall2 (rwrote u) ws qs ->
  parse_weights (length ws) data idx eor pd rd = PFail.
Proof.
  intros D. induction ws as [|w ws IH]; intros X qs idx eor ps C W; [inversion X|].
  inversion W as [|? p1 ? r1 W1 W']; subst. clear W. cbn [app] in C. cbn [length parse_weights].
  real_step C. destruct (Qle_bool q 0) eqn:E; [reflexivity|]. unfold guard. cbn [negb].
  inversion X as [? ? L|? ? L]; subst.
  - pose proof (close_low _ _ _ K L) as G. apply Qle_bool_iff in G. congruence.
  - rewrite (IH L _ _ _ _ C W'). reflexivity.
Qed.

Lemma refused126 c i j k extras n seq pd rd : settings_ok pd rd seq n extras ->
  1 <= n_K c -> 1 <= n_M c -> length (n_props c) = 4%nat -> Forall (fun v => v = 0 \/ v = 1) (n_props c) ->
  Z.of_nat (length (n_knots c)) = 2 + n_K c + n_M c -> Z.of_nat (length (n_pts c)) = 1 + n_K c ->
  nth 2 (n_props c) 0 = 0 -> length (n_wts c) = length (n_pts c) ->
  Exists (fun w => w < 1 # 100000000)%Q (n_wts c) ->
  Forall real300 (n_knots c ++ n_wts c ++ flat_map pt_reals (n_pts c) ++ [n_v0 c; n_v1 c]) ->
  Forall real300 [i; j; k] -> room n (ncurve_size c) 0 extras ->
  refused (format126 c i j k extras [] n seq pd rd) (fun m f => readPD126 seq n m pd rd f).
Proof.
  intros S OK OM OP OF OKn OPt RT WL WB OR FN RM. pose proof S as (D & Hs & Hk & _).
  destruct (flags_ok _ OF) as [FB F2]. apply Forall_app in OR. destruct OR as [R1 OR]. apply Forall_app in OR. destruct OR as [R2 OR].
  apply Forall_app in OR. destruct OR as [R3 R4].
  unfold ncurve_size, room in RM. unfold format126, readPD126, rational.
  replace ((n_K c <? 1) || _ || _ || _ || _) with false by (rewrite FB; cbn [negb]; lia).
  rewrite RT, Z.eqb_refl. set (ws := n_wts c) in *.
  assert (FL : Forall real300 [n_v0 c; n_v1 c; i; j; k]).
  { inversion R4 as [|? ? A1 A2]; subst. inversion A2; subst. constructor; auto. }
  apply (frame_refused 126 seq n pd rd (head_text (n_K c :: n_M c :: n_props c) pd) (ptr_params (n_K c :: n_M c :: n_props c))
    (fun d => reals_acts nurbs_res (n_knots c) pd pd ++ reals_acts weight_res ws pd pd ++
              reals_acts nurbs_res (flat_map pt_reals (n_pts c)) pd pd ++ reals_acts nurbs_res [n_v0 c; n_v1 c; i; j; k] pd d)
    (uni nurbs_res (map PReal (n_knots c)) ++ uni weight_res (map PReal ws) ++
     uni nurbs_res (map PReal (flat_map pt_reals (n_pts c))) ++ uni nurbs_res (map PReal [n_v0 c; n_v1 c; i; j; k])) extras); auto; try lia.
  - apply head_open.
  - lens. pose proof (showZ_type_len 126 ltac:(lia)). change (head_text (n_K c :: n_M c :: n_props c) pd) with
      ((showZ (n_K c) ++ [pd]) ++ (showZ (n_M c) ++ [pd]) ++ head_text (n_props c) pd). lens.
    rewrite head_flags_len by exact OF. rewrite OP. pose proof (showZ_ptr_len (n_K c) ltac:(lia)). pose proof (showZ_ptr_len (n_M c) ltac:(lia)). lia.
  - repeat apply opens_app; apply opens_reals; auto; reflexivity.
  - repeat (apply closes_app; [apply opens_reals; auto; reflexivity|]). apply closes_reals; auto; [reflexivity|discriminate].
  - rewrite !ucosts_app, !ucosts_uni, !costs_reals, WL, pts_len. cbn [length]. lia.
  - apply no_nl_app; [apply Forall_map, Forall_forall; cbn; auto|]. rewrite !map_app.
    repeat apply no_nl_app; apply no_nl_reals.
  - intros ps' data m idx ex W C.
    apply uwrote_app in W. destruct W as (p1 & p' & -> & W1 & W). apply uwrote_app in W. destruct W as (p2 & p'' & -> & W2 & W).
    apply uwrote_reals in W1, W2.
    rewrite <- !app_assoc in C. change (ptr_params (n_K c :: n_M c :: n_props c)) with (ptr_params [n_K c; n_M c] ++ ptr_params (n_props c)) in C.
    rewrite <- app_assoc in C. unfold parse126.
    destruct (st_ints pd rd data m D (fun n => 1 <=? n) [n_K c; n_M c] _ _ _ C) as (i1 & e1 & P1 & C1).
    { repeat constructor; unfold is_int32; lia. }
    change (length [n_K c; n_M c]) with 2%nat in P1. rewrite P1. cbn [pbind]. clear C P1.
    destruct (st_ints pd rd data m D flag01 (n_props c) _ _ _ C1 F2) as (i2 & e2 & P2 & C2). rewrite OP in P2. rewrite P2. cbn [pbind]. clear C1 P2.
    replace (int_max <? 2 + n_K c + n_M c) with false by (unfold int_max; lia).
    destruct (st_reals pd rd data m D nurbs_res (n_knots c) p1 _ _ _ C2 W1) as (l3 & i3 & e3 & P3 & Q3 & C3).
    replace (Z.to_nat (2 + n_K c + n_M c)) with (length (n_knots c)) by lia. rewrite P3. cbn [pbind]. clear P3 C2.
    replace (Z.to_nat (n_K c + 1)) with (length ws) by lia.
    rewrite (st_weights_bad pd rd data m weight_res ws D WB p2 _ _ _ C3 W2). reflexivity.
Qed.

Lemma refused128 s extras n seq pd rd : settings_ok pd rd seq n extras ->
  1 <= s_K1 s -> 1 <= s_K2 s -> 1 <= s_M1 s -> 1 <= s_M2 s -> length (s_props s) = 5%nat ->
  Forall (fun v => v = 0 \/ v = 1) (s_props s) ->
  Z.of_nat (length (s_knots1 s)) = 2 + s_K1 s + s_M1 s -> Z.of_nat (length (s_knots2 s)) = 2 + s_K2 s + s_M2 s ->
  Z.of_nat (length (s_pts s)) = (s_K1 s + 1) * (s_K2 s + 1) ->
  nth 2 (s_props s) 0 = 0 -> length (s_wts s) = length (s_pts s) ->
  Exists (fun w => w < 1 # 100000000)%Q (s_wts s) ->
  Forall real300 (s_knots1 s ++ s_knots2 s ++ s_wts s ++ flat_map pt_reals (s_pts s) ++ [s_u0 s; s_u1 s; s_v0 s; s_v1 s]) ->
  room n (nsurf_size s) 0 extras ->
  refused (format128 s extras [] n seq pd rd) (fun m f => readPD128 seq n m pd rd f).
Proof.
  intros S OK1 OK2 OM1 OM2 OP OF OKn1 OKn2 OPt RT WL WB OR RM. pose proof S as (D & Hs & Hk & _).
  destruct (flags_ok _ OF) as [FB F2]. apply Forall_app in OR. destruct OR as [R1 OR]. apply Forall_app in OR. destruct OR as [R1b OR].
  apply Forall_app in OR. destruct OR as [R2 OR]. apply Forall_app in OR. destruct OR as [R3 R4].
  unfold nsurf_size, room in RM.
  unfold format128, readPD128, rational.
  replace ((s_K1 s <? 1) || _ || _ || _ || _ || _ || _ || _) with false.
  2: { rewrite FB. cbn [negb]. replace ((s_K1 s + 1) * (s_K2 s + 1) =? Z.of_nat (length (s_pts s))) with true by (symmetry; apply Z.eqb_eq; auto).
       clear OPt. lia. }
  rewrite RT, Z.eqb_refl. set (ws := s_wts s) in *.
  apply (frame_refused 128 seq n pd rd (head_text (s_K1 s :: s_K2 s :: s_M1 s :: s_M2 s :: s_props s) pd)
    (ptr_params (s_K1 s :: s_K2 s :: s_M1 s :: s_M2 s :: s_props s))
    (fun d => reals_acts surf_res (s_knots1 s) pd pd ++ reals_acts surf_res (s_knots2 s) pd pd ++ reals_acts weight_res ws pd pd ++
              reals_acts surf_res (flat_map pt_reals (s_pts s)) pd pd ++ reals_acts surf_res [s_u0 s; s_u1 s; s_v0 s; s_v1 s] pd d)
    (uni surf_res (map PReal (s_knots1 s)) ++ uni surf_res (map PReal (s_knots2 s)) ++ uni weight_res (map PReal ws) ++
     uni surf_res (map PReal (flat_map pt_reals (s_pts s))) ++ uni surf_res (map PReal [s_u0 s; s_u1 s; s_v0 s; s_v1 s])) extras); auto; try lia.
  - apply head_open.
  - change (head_text (s_K1 s :: s_K2 s :: s_M1 s :: s_M2 s :: s_props s) pd) with
      ((showZ (s_K1 s) ++ [pd]) ++ (showZ (s_K2 s) ++ [pd]) ++ (showZ (s_M1 s) ++ [pd]) ++ (showZ (s_M2 s) ++ [pd]) ++ head_text (s_props s) pd).
    lens. pose proof (showZ_type_len 128 ltac:(lia)).
    rewrite head_flags_len by exact OF. rewrite OP. clear OPt. pose proof (showZ_ptr_len (s_K1 s) ltac:(lia)). pose proof (showZ_ptr_len (s_M1 s) ltac:(lia)).
    pose proof (showZ_ptr_len (s_K2 s) ltac:(lia)). pose proof (showZ_ptr_len (s_M2 s) ltac:(lia)). lia.
  - repeat apply opens_app; apply opens_reals; auto; reflexivity.
  - repeat (apply closes_app; [apply opens_reals; auto; reflexivity|]). apply closes_reals; auto; [reflexivity|discriminate].
  - rewrite !ucosts_app, !ucosts_uni, !costs_reals, WL, pts_len. cbn [length]. clear OPt. lia.
  - apply no_nl_app; [apply Forall_map, Forall_forall; cbn; auto|]. rewrite !map_app.
    repeat apply no_nl_app; apply no_nl_reals.
  - intros ps' data m idx ex W C.
    apply uwrote_app in W. destruct W as (p1 & p' & -> & W1 & W). apply uwrote_app in W. destruct W as (p1b & pb & -> & W1b & W).
    apply uwrote_app in W. destruct W as (p2 & p'' & -> & W2 & W). apply uwrote_reals in W1, W1b, W2.
    rewrite <- !app_assoc in C.
    change (ptr_params (s_K1 s :: s_K2 s :: s_M1 s :: s_M2 s :: s_props s)) with (ptr_params [s_K1 s; s_K2 s; s_M1 s; s_M2 s] ++ ptr_params (s_props s)) in C.
    rewrite <- app_assoc in C. unfold parse128.
    destruct (st_ints pd rd data m D (fun n => 1 <=? n) [s_K1 s; s_K2 s; s_M1 s; s_M2 s] _ _ _ C) as (i1 & e1 & P1 & C1).
    { clear OPt. repeat constructor; unfold is_int32; lia. }
    change (length [s_K1 s; s_K2 s; s_M1 s; s_M2 s]) with 4%nat in P1. rewrite P1. cbn [pbind]. clear C P1.
    destruct (st_ints pd rd data m D flag01 (s_props s) _ _ _ C1 F2) as (i2 & e2 & P2 & C2). rewrite OP in P2. rewrite P2. cbn [pbind]. clear C1 P2.
    unfold sizes_ok. rewrite <- OPt.
    replace ((2 + s_K1 s + s_M1 s <=? int_max) && (2 + s_K2 s + s_M2 s <=? int_max) && (4 * Z.of_nat (length (s_pts s)) <=? int_max)) with true
      by (unfold int_max; clear OPt; lia).
    unfold parse128b. rewrite <- OPt, Nat2Z.id.
    destruct (st_reals pd rd data m D surf_res (s_knots1 s) p1 _ _ _ C2 W1) as (l3 & i3 & e3 & P3 & Q3 & C3).
    replace (Z.to_nat (2 + s_K1 s + s_M1 s)) with (length (s_knots1 s)) by (clear OPt; lia). rewrite P3. cbn [pbind]. clear P3 C2.
    destruct (st_reals pd rd data m D surf_res (s_knots2 s) p1b _ _ _ C3 W1b) as (l3b & i3b & e3b & P3 & Q3b & C3b).
    replace (Z.to_nat (2 + s_K2 s + s_M2 s)) with (length (s_knots2 s)) by (clear OPt; lia). rewrite P3. cbn [pbind]. clear P3 C3.
    rewrite <- WL. rewrite (st_weights_bad pd rd data m weight_res ws D WB p2 _ _ _ C3b W2). reflexivity.
Qed.
