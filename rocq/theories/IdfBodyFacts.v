(** Facts about the parts on an IDF board. *)

From Coq Require Import Reals Lra List Bool ZArith Psatz.
From Verif Require Import SegModel SegSpec SegTrig SegFacts SegProps SegSplit OutModel OutSpec PcbModel PcbSpec PcbFace PcbBoard PcbCase
  IdfGeo IdfGeoSpec IdfArc IdfConv IdfLoop IdfGeoCase IdfGeoTop IdfBody IdfBodySpec.
Import ListNotations.
Open Scope R_scope.

(** ** Where a component is put *)

Lemma calc_turn dX dY dZ dA bottom : exists c s, c * c + s * s = 1 /\ c = cos dA /\ s = sin dA /\
  calc_transform dX dY dZ dA bottom =
    if bottom then mkPlace (mkMat (- c) s 0 s c 0 0 0 (-1)) (mkPt dX dY (- dZ))
    else mkPlace (mkMat c (- s) 0 s c 0 0 0 1) (mkPt dX dY dZ).
Proof.
  exists (cos dA), (sin dA). split. { pose proof (sin2_cos2 dA) as Q. unfold Rsqr in Q. lra. }
  split; [reflexivity|]. split; [reflexivity|].
  unfold calc_transform. destruct (eqb dA 0) eqn:E.
  - apply eqb_true in E. subst. rewrite cos_0, sin_0. destruct bottom; unfold mat_mul, rotate_y, mat_one; cbn [m00 m01 m02 m10 m11 m12 m20 m21 m22];
      rewrite ?cos_PI, ?sin_PI; f_equal; f_equal; ring.
  - destruct bottom; unfold mat_mul, rotate_z, rotate_y, mat_one; cbn [m00 m01 m02 m10 m11 m12 m20 m21 m22]; rewrite ?cos_PI, ?sin_PI, ?cos_neg, ?sin_neg; f_equal; f_equal; ring.
Qed.

Lemma place_rigid thick s : rigid (place_component thick s).
Proof.
  unfold place_component. destruct (calc_turn (oX s + vX s) (oY s + vY s) (oZ s + 1 / 2 * thick) ((oA s + vA s) * PI / 180) (on_bottom s)) as (c & n & E & _ & _ & ->).
  assert (E2 : c * c = 1 - n * n) by lra.
  destruct (on_bottom s); split.
  - intros p q. unfold gap2, place_apply, mat_apply; cbn [p_turn p_move px py pz m00 m01 m02 m10 m11 m12 m20 m21 m22]. ring [E2].
  - intros o p q. cbv zeta. unfold vcross, vsub, place_apply, mat_apply; cbn [p_turn p_move px py pz m00 m01 m02 m10 m11 m12 m20 m21 m22]. f_equal; ring [E2].
  - intros p q. unfold gap2, place_apply, mat_apply; cbn [p_turn p_move px py pz m00 m01 m02 m10 m11 m12 m20 m21 m22]. ring [E2].
  - intros o p q. cbv zeta. unfold vcross, vsub, place_apply, mat_apply; cbn [p_turn p_move px py pz m00 m01 m02 m10 m11 m12 m20 m21 m22]. f_equal; ring [E2].
Qed.

(** On either side a component is turned by its angle, as seen from that side, and is as
    high above it as in its own model. *)
Lemma place_seen thick s p : let q := place_apply (place_component thick s) p in
  let at_ := mkI (vX s + oX s) (vY s + oY s) in
  above (on_bottom s) thick q = pz p + oZ s /\
  seen (on_bottom s) (mkI (ix (plan q) - ix at_) (iy (plan q) - iy at_)) = rotated izero (rad (vA s + oA s)) (plan p).
Proof.
  cbv zeta. unfold place_component, rad. rewrite (Rplus_comm (vA s)).
  destruct (calc_turn (oX s + vX s) (oY s + vY s) (oZ s + 1 / 2 * thick) ((oA s + vA s) * PI / 180) (on_bottom s)) as (c & n & _ & EC & ES & ->).
  unfold rotated. rewrite <- EC, <- ES.
  destruct (on_bottom s); unfold above, seen, plan, place_apply, mat_apply, izero; cbn [p_turn p_move px py pz m00 m01 m02 m10 m11 m12 m20 m21 m22 ix iy];
    (split; [lra|f_equal; ring]).
Qed.

(** ** Bodies *)

Lemma walls_part res top bot rev l t : In t (snd (walls res top bot rev l)) -> exists s w, In s l /\ segment_wall res top bot s rev = Some w /\ In t w.
Proof.
  induction l as [|s l IH]; cbn [walls]; [intros []|]. destruct (segment_wall res top bot s rev) as [w|] eqn:W; cbn [snd]; [|intros []].
  intro I. apply in_app_iff in I. destruct I as [I|I].
  - exists s, w. split; [left; reflexivity|]. tauto.
  - destruct (IH I) as (s' & w' & A & B). exists s', w'. split; [right; exact A|exact B].
Qed.

Lemma vertical_part res b top bot t : In t (snd (vertical res b top bot)) -> exists s w,
  (In s (o_segs (b_out b)) /\ segment_wall res top bot s false = Some w /\ In t w) \/
  (In s (b_holes b ++ concat (b_cuts b)) /\ segment_wall res top bot s true = Some w /\ In t w).
Proof.
  unfold vertical. destruct (negb (o_closed (b_out b))); [intros []|]. destruct (o_segs (b_out b)) as [|s0 l0] eqn:E; [intros []|].
  rewrite <- E. destruct (fst (walls res top bot false (o_segs (b_out b)))); cbn [snd].
  - intro I. apply in_app_iff in I. destruct I as [I|I]; destruct (walls_part _ _ _ _ _ _ I) as (s & w & P); exists s, w; tauto.
  - intro I. destruct (walls_part _ _ _ _ _ _ I) as (s & w & P). exists s, w. tauto.
Qed.

Lemma sharp_in b s : all_sharp b -> In s (o_segs (b_out b)) \/ In s (b_holes b ++ concat (b_cuts b)) -> sharp s.
Proof. unfold all_sharp, board_segs. rewrite Forall_forall. intros H I. apply H. rewrite in_app_iff. exact I. Qed.

Lemma wall_outward res b top bot t : all_sharp b -> bot < top -> In t (snd (vertical res b top bot)) -> exists s, wall_of b true s t.
Proof.
  intros SH L I. destruct (vertical_part _ _ _ _ _ I) as (s & w & [(A & B & C)|(A & B & C)]); exists s; [left|right]; (split; [exact A|]).
  - pose proof (wall_faces _ _ _ _ _ _ (sharp_in b s SH (or_introl A)) L B) as F. rewrite Forall_forall in F. apply F. exact C.
  - pose proof (wall_faces _ _ _ _ _ _ (sharp_in b s SH (or_intror A)) L B) as F. rewrite Forall_forall in F. apply F. exact C.
Qed.

Lemma wall_mixed res b top bot t : all_sharp b -> top < bot -> In t (snd (vertical res b top bot)) -> exists s,
  (s_ty s = SLine -> wall_of b false s t) /\ (s_ty s <> SLine -> wall_of b true s t).
Proof.
  intros SH L I. destruct (vertical_part _ _ _ _ _ I) as (s & w & [(A & B & C)|(A & B & C)]); exists s.
  - pose proof (wall_faces_swapped _ _ _ _ _ _ (sharp_in b s SH (or_introl A)) L B) as F. rewrite Forall_forall in F. specialize (F t C).
    split; intro T; left; (split; [exact A|]); destruct (s_ty s); try congruence; exact F.
  - pose proof (wall_faces_swapped _ _ _ _ _ _ (sharp_in b s SH (or_intror A)) L B) as F. rewrite Forall_forall in F. specialize (F t C).
    split; intro T; right; (split; [exact A|]); destruct (s_ty s); try congruence; exact F.
Qed.

Lemma plane_is_level bl tr z rev t : t_surf t = plane_surf bl tr z rev -> px bl < px tr -> px tr - px bl = py tr - py bl -> level z (negb rev) t.
Proof.
  intros E W Q u v. rewrite E. split; [apply plane_level|]. eexists. split; [apply plane_normal; exact Q|]. cbn [px py pz].
  split; [reflexivity|]. split; [reflexivity|]. assert (0 < (px tr - px bl)^2) by (apply pow_lt; lra). destruct rev; cbn [negb]; lra.
Qed.

(** The plane is there unless the answer is no. *)
Lemma plane_piece res b z rev a o l : all_sharp b -> trimmed_plane res b z rev = Some (a, o, l) ->
  (fst a = false /\ l = []) \/ (fst a = true /\ exists t, l = [t] /\ level z (negb rev) t).
Proof.
  intros SH H. destruct (trimmed_plane_cases _ _ _ _ _ _ _ SH H) as (_ & _ & _ & _ & F & T). destruct (fst a) eqn:A.
  - right. split; [reflexivity|]. destruct (T eq_refl) as (t & -> & S & W & Q & _). exists t. split; [reflexivity|]. now apply plane_is_level with (bl := o_bl o) (tr := o_tr o).
  - left. split; [reflexivity|]. now apply F.
Qed.

Lemma boxed_sharp res b z rev a o l : all_sharp b -> trimmed_plane res b z rev = Some (a, o, l) -> all_sharp (mkBoard o (b_cuts b) (b_holes b)).
Proof.
  intros SH H. destruct (trimmed_plane_cases _ _ _ _ _ _ _ SH H) as (_ & E & _). unfold all_sharp, board_segs in *. cbn [b_out b_holes b_cuts]. now rewrite E.
Qed.

Lemma planes_parts res b top bot rt rb l : all_sharp b -> with_planes res b top bot rt rb = Some l -> exists l1 l2 a1 a2 o1 o2,
  l = snd (vertical res b top bot) ++ l1 ++ l2 /\
  trimmed_plane res b top rt = Some (a1, o1, l1) /\ trimmed_plane res (mkBoard o1 (b_cuts b) (b_holes b)) bot rb = Some (a2, o2, l2) /\
  level_if (fst a1) top (negb rt) l1 /\ level_if (fst a2) bot (negb rb) l2.
Proof.
  intros SH. unfold with_planes. destruct (trimmed_plane res b top rt) as [[[a o] l1]|] eqn:T1; [|discriminate].
  destruct (trimmed_plane res (mkBoard o (b_cuts b) (b_holes b)) bot rb) as [[[a2 o2] l2]|] eqn:T2; [|discriminate].
  intro H. injection H as <-. exists l1, l2, a, a2, o, o2. split; [reflexivity|]. split; [reflexivity|]. split; [exact T2|].
  pose proof (plane_piece _ _ _ _ _ _ _ SH T1) as P1. pose proof (plane_piece _ _ _ _ _ _ _ (boxed_sharp _ _ _ _ _ _ _ SH T1) T2) as P2.
  unfold level_if. split.
  - destruct P1 as [(-> & E)|(-> & E)]; exact E.
  - destruct P2 as [(-> & E)|(-> & E)]; exact E.
Qed.

Lemma component_parts res b th l : all_sharp b -> 0 < th -> component_body res b th = Some l -> exists ws l1 l2 a1 a2 o1 o2,
  l = ws ++ l1 ++ l2 /\ Forall (fun t => exists s, wall_of b true s t) ws /\
  trimmed_plane res b (th) false = Some (a1, o1, l1) /\ trimmed_plane res (mkBoard o1 (b_cuts b) (b_holes b)) (0) true = Some (a2, o2, l2) /\
  level_if (fst a1) (th) true l1 /\ level_if (fst a2) (0) false l2 /\
  (fst (fst (vertical res b th 0)) = true -> forall p, (exists t, In t ws /\ patch t p) <-> exists s, In s (board_segs b) /\ covers s p /\ 0 <= pz p <= th).
Proof.
  intros SH T H. unfold component_body in H. destruct (planes_parts _ _ _ _ _ _ _ SH H) as (l1 & l2 & a1 & a2 & o1 & o2 & E & T1 & T2 & P1 & P2).
  exists (snd (vertical res b th 0)), l1, l2, a1, a2, o1, o2. split; [exact E|]. split.
  { apply Forall_forall. intros t I. exact (wall_outward res b th 0 t SH T I). }
  split; [exact T1|]. split; [exact T2|]. split; [exact P1|]. split; [exact P2|]. intros A p. rewrite (vertical_covers res b th 0 p SH A). rewrite Rmin_right, Rmax_left by lra. reflexivity.
Qed.

Lemma other_top res b th bt l : all_sharp b -> 0 < th -> other_body res b false th bt = Some l -> exists ws l1 l2 a1 a2 o1 o2,
  l = ws ++ l1 ++ l2 /\ Forall (fun t => exists s, wall_of b true s t) ws /\
  trimmed_plane res b (th + bt) false = Some (a1, o1, l1) /\ trimmed_plane res (mkBoard o1 (b_cuts b) (b_holes b)) (bt) false = Some (a2, o2, l2) /\
  level_if (fst a1) (th + bt) true l1 /\ level_if (fst a2) (bt) true l2.
Proof.
  intros SH T H. unfold other_body in H. destruct (planes_parts _ _ _ _ _ _ _ SH H) as (l1 & l2 & a1 & a2 & o1 & o2 & E & T1 & T2 & P1 & P2).
  exists (snd (vertical res b (th + bt) bt)), l1, l2, a1, a2, o1, o2. split; [exact E|]. split.
  { apply Forall_forall. intros t I. exact (wall_outward res b (th + bt) bt t SH ltac:(lra) I). }
  tauto.
Qed.

Lemma other_bottom res b th bt l : all_sharp b -> 0 < th -> other_body res b true th bt = Some l -> exists ws l1 l2 a1 a2 o1 o2,
  l = ws ++ l1 ++ l2 /\
  Forall (fun t => exists s, (s_ty s = SLine -> wall_of b false s t) /\ (s_ty s <> SLine -> wall_of b true s t)) ws /\
  trimmed_plane res b (- (th + bt)) true = Some (a1, o1, l1) /\ trimmed_plane res (mkBoard o1 (b_cuts b) (b_holes b)) (- bt) true = Some (a2, o2, l2) /\
  level_if (fst a1) (- (th + bt)) false l1 /\ level_if (fst a2) (- bt) false l2.
Proof.
  intros SH T H. unfold other_body in H. destruct (planes_parts _ _ _ _ _ _ _ SH H) as (l1 & l2 & a1 & a2 & o1 & o2 & E & T1 & T2 & P1 & P2).
  exists (snd (vertical res b (- (th + bt)) (- bt))), l1, l2, a1, a2, o1, o2. split; [exact E|]. split.
  { apply Forall_forall. intros t I. exact (wall_mixed res b (- (th + bt)) (- bt) t SH ltac:(lra) I). }
  tauto.
Qed.

(** ** One outline for all *)

Lemma others_stuck res bt cut b l : o_closed (b_out b) = true -> Exists (fun x => x_loops x <> []) l ->
  make_others res bt cut b l = Some (false, []).
Proof.
  intros C E. induction E as [x l N|x l E IH]; cbn [make_others].
  - destruct (x_loops x) as [|f cs]; [congruence|]. rewrite convert_again by exact C. reflexivity.
  - destruct (x_loops x) as [|f cs]; [exact IH|]. rewrite convert_again by exact C. reflexivity.
Qed.

Lemma others_first res bt cut x f cs l o outs s :
  x_loops x = f :: cs -> convert_oln out_init f = Some (true, o) -> convert_all cs = Some (Some outs) ->
  let b := fold_left cut outs (mkBoard o [] []) in
  o_closed (b_out b) = true -> other_body res b (x_bottom x) (x_thick x) bt = Some s ->
  Exists (fun y => x_loops y <> []) l ->
  make_others res bt cut (mkBoard out_init [] []) (x :: l) = Some (false, [s]).
Proof.
  intros L V W b C B E. cbn [make_others]. rewrite L. cbn [b_out b_cuts b_holes]. rewrite V, W. fold b. rewrite B.
  rewrite (others_stuck res bt cut b l C E). reflexivity.
Qed.

(** ** From the file on *)

Lemma converted_sharp s : loop_seg s -> sharp (convert_seg s).
Proof.
  intros [(a & b & F & ->)|(a & b & d & F & H & ->)].
  - pose proof (convert_line a b F) as C. unfold convert_seg, seg_circle in *. cbn [line_seg g_ang g_rad g_start g_end] in *.
    rewrite full_turn_line in * by (unfold line_deg; lra). rewrite ltb_f in * by lra.
    destruct (set_line (to3 a) (to3 b)) as [ok t] eqn:E. destruct ok; [exact (set_line_sharp _ _ _ E)|].
    exfalso. destruct (set_line_claim (to3 a) (to3 b)) as (s & [(E2 & _)|(E2 & E3 & _)]); rewrite E in E2; [discriminate|]. injection E2 as E2.
    cbn [snd] in C. rewrite E2, E3 in C. discriminate.
  - destruct (convert_arc a b d F H) as (sa & ea & c & r & K & _ & C & _). pose proof (far_apart_ne a b F) as N.
    pose proof (arc_right a b d N H) as (RP & EA & EB & _).
    rewrite (made_arc a b d H) in *. unfold convert_seg, seg_circle in *. cbn [g_ang g_rad g_cen g_start g_end] in *.
    rewrite full_turn_arc in * by exact H. rewrite (ltb_t _ _ RP) in *.
    destruct (set_arc (to3 (arc_centre a b d)) (to3 a) (to3 b) (negb (ltb 0 d))) as [ok t] eqn:E. destruct ok.
    + destruct F as (NA & NB & A). apply (set_arc_sharp _ _ _ _ _ E); [apply not_one; [exact NA|lra]|].
      unfold dist, dist2, to3; cbn [px py]. unfold away in EA, EB. rewrite EA, EB. reflexivity.
    + exfalso. destruct (set_arc_claim (to3 (arc_centre a b d)) (to3 a) (to3 b) (negb (ltb 0 d))) as (s & [(E2 & _)|(E2 & E3 & _)]); rewrite E in E2; [discriminate|].
      injection E2 as E2. cbn [snd] in C. rewrite E2, E3 in C. discriminate.
Qed.

Lemma reverse_sharp s : sharp s -> sharp (reverse s).
Proof.
  destruct (s_ty s) eqn:T.
  - unfold sharp. rewrite T. intros [].
  - destruct (reverse_facts s (or_introl T)) as (A & B & C & _). unfold sharp. rewrite A, T, B, C. intros (P & Q & N).
    split; [exact Q|]. split; [exact P|]. intro M. apply N. now apply one_point_sym.
  - destruct (reverse_facts s (or_intror T)) as (A & B & C & _ & D & _). destruct (reverse_arc_getters s T) as (G1 & G2 & _).
    assert (s_cen (reverse s) = s_cen s /\ s_rad (reverse s) = s_rad s) as [E1 E2] by (unfold reverse; rewrite T; cbn; tauto).
    unfold sharp. rewrite A, T, B, C, G1, G2, E1, E2. intros (P0 & P1 & P2 & R0 & A0 & A1 & C0 & C1 & N1 & N2 & N3).
    split; [exact P0|]. split; [exact P2|]. split; [exact P1|]. split; [exact R0|]. split; [exact A0|]. split; [exact A1|].
    split; [apply D; replace (1 - 0) with 1 by ring; exact C1|]. split; [apply D; replace (1 - 1) with 0 by ring; exact C0|].
    split; [intro M; apply N1; now apply one_point_sym|]. split; [exact N3|exact N2].
  - intro S. unfold reverse. rewrite T. exact S.
Qed.

Lemma turned_all (P : seg -> Prop) l l' : (forall s, P s -> P (reverse s)) -> Forall P l -> l' = l \/ turned l l' -> Forall P l'.
Proof.
  intros H F [->|[->|(s & t & -> & ->)]]; [exact F| |].
  - apply Forall_rev. rewrite Forall_map. eapply Forall_impl; [|exact F]. exact H.
  - inversion F as [|? ? S F2]; subst. inversion F2 as [|? ? T _]; subst. constructor; [now apply H|]. constructor; [now apply H|constructor].
Qed.

Definition placed_home (s : seg) : Prop := forall t, covers s t -> near_home t.
Lemma reverse_home s : placed_home s -> placed_home (reverse s).
Proof.
  intros H t C. apply H. destruct (s_ty s) eqn:T.
  - rewrite reverse_round in C by tauto. exact C.
  - destruct (reverse_facts s (or_introl T)) as (_ & _ & _ & _ & _ & K & _). now apply K.
  - destruct (reverse_facts s (or_intror T)) as (_ & _ & _ & _ & _ & K & _). now apply K.
  - rewrite reverse_round in C by tauto. exact C.
Qed.

Lemma planes_defined res b top bot rt rb : all_sharp b -> (forall s p, In s (o_segs (b_out b)) -> covers s p -> near_home p) ->
  exists l, with_planes res b top bot rt rb = Some l.
Proof.
  intros SH H. unfold with_planes. destruct (trimmed_plane res b top rt) as [[[a o] l1]|] eqn:T1; [|exfalso; now apply (trimmed_plane_defined res b top rt)].
  destruct (trimmed_plane_cases _ _ _ _ _ _ _ SH T1) as (_ & E & _).
  destruct (trimmed_plane res (mkBoard o (b_cuts b) (b_holes b)) bot rb) as [[[a2 o2] l2]|] eqn:T2; [eexists; reflexivity|].
  exfalso. refine (trimmed_plane_defined res (mkBoard o (b_cuts b) (b_holes b)) bot rb (boxed_sharp _ _ _ _ _ _ _ SH T1) _ T2).
  cbn [b_out]. rewrite E. exact H.
Qed.

Lemma loop_board p l z : l <> [] -> Forall loop_seg (l ++ [z]) -> follows p (l ++ [z]) p ->
  Forall (fun s => ~ one_point (to3 (g_end s)) (to3 p) e8) l ->
  (forall s t, In s (l ++ [z]) -> covers (convert_seg s) t -> near_home t) ->
  exists o, convert_oln out_init (l ++ [z]) = Some (true, o) /\ o_closed o = true /\
    (o_segs o = map convert_seg (l ++ [z]) \/ turned (map convert_seg (l ++ [z])) (o_segs o)) /\
    all_sharp (mkBoard o [] []) /\ (forall s t, In s (o_segs o) -> covers s t -> near_home t).
Proof.
  intros N F O D H. destruct (convert_closed p l z N F O D H) as (o & E & _ & C & S). exists o. split; [exact E|]. split; [exact C|]. split; [exact S|]. split.
  - unfold all_sharp, board_segs. cbn [b_out b_holes b_cuts concat app]. rewrite app_nil_r.
    apply (turned_all sharp (map convert_seg (l ++ [z]))); [exact reverse_sharp| |exact S].
    rewrite Forall_map. eapply Forall_impl; [|exact F]. exact converted_sharp.
  - enough (G : Forall placed_home (o_segs o)) by (rewrite Forall_forall in G; intros s t I; exact (G s I t)).
    apply (turned_all placed_home (map convert_seg (l ++ [z]))); [exact reverse_home| |exact S].
    rewrite Forall_map. apply Forall_forall. intros s I t. exact (H s t I).
Qed.

Lemma component_made res p l z th : 1 / 1000 <= th -> l <> [] -> Forall loop_seg (l ++ [z]) -> follows p (l ++ [z]) p ->
  Forall (fun s => ~ one_point (to3 (g_end s)) (to3 p) e8) l ->
  (forall s t, In s (l ++ [z]) -> covers (convert_seg s) t -> near_home t) ->
  exists o body, convert_oln out_init (l ++ [z]) = Some (true, o) /\ o_closed o = true /\ all_sharp (mkBoard o [] []) /\
    build_component res (l ++ [z]) th = Some (Part body) /\ component_body res (mkBoard o [] []) th = Some body.
Proof.
  intros T N F O D H. destruct (loop_board p l z N F O D H) as (o & E & C & _ & SH & NH).
  destruct (planes_defined res (mkBoard o [] []) th 0 false true SH NH) as (body & B). exists o, body.
  split; [exact E|]. split; [exact C|]. split; [exact SH|]. split; [|exact B].
  unfold build_component. destruct (l ++ [z]) as [|x r] eqn:X; [destruct l; discriminate X|].
  rewrite ltb_f by lra. rewrite E. unfold component_body. rewrite B. reflexivity.
Qed.

Lemma component_none res l th : l = [] \/ th < 1 / 1000 \/ (exists o, convert_oln out_init l = Some (false, o)) ->
  build_component res l th = Some NoPart.
Proof.
  intro H. unfold build_component. destruct l as [|x r]; [reflexivity|]. destruct (ltb th (1 / 1000)) eqn:T; [reflexivity|].
  destruct H as [H|[H|(o & ->)]]; [discriminate| |reflexivity]. rewrite ltb_t in T by exact H. discriminate.
Qed.

(** ** Two OTHER outlines of which the second is lost *)

Definition two_others : list other := [mkOther false 1 [tri_loop]; mkOther true 2 [tri_loop]].
Lemma tri_board : exists o, convert_oln out_init tri_loop = Some (true, o) /\ o_closed o = true /\ all_sharp (mkBoard o [] []) /\
  (forall s t, In s (o_segs o) -> covers s t -> near_home t).
Proof.
  destruct (loop_board corner [line_seg corner right_c; line_seg right_c top_c] (line_seg top_c corner)) as (o & E & C & _ & SH & NH).
  - discriminate.
  - exact tri_segs.
  - exact tri_follows.
  - exact tri_open.
  - exact tri_home.
  - exists o. split; [exact E|]. split; [exact C|]. split; [exact SH|exact NH].
Qed.

Lemma two_lost cut : exists s, make_others e8 (4 / 5) cut (mkBoard out_init [] []) two_others = Some (false, [s]).
Proof.
  destruct tri_board as (o & E & C & SH & NH). destruct (planes_defined e8 (mkBoard o [] []) (1 + 4 / 5) (4 / 5) false false SH NH) as (s & B).
  exists s. unfold two_others.
  apply (others_first e8 (4 / 5) cut _ tri_loop [] _ o []); [reflexivity|exact E|reflexivity|exact C|exact B|].
  constructor. discriminate.
Qed.
Lemma two_nonempty : Forall (fun x => x_loops x <> []) two_others.
Proof. constructor; [discriminate|]. constructor; [discriminate|constructor]. Qed.

Lemma tri_component : exists o, convert_oln out_init tri_loop = Some (true, o) /\ all_sharp (mkBoard o [] []) /\
  exists l, component_body e8 (mkBoard o [] []) 1 = Some l.
Proof.
  destruct tri_board as (o & E & _ & S & N). exists o. split; [exact E|]. split; [exact S|]. exact (planes_defined e8 (mkBoard o [] []) 1 0 false true S N).
Qed.

Lemma tri_others : exists o, convert_oln out_init tri_loop = Some (true, o) /\ all_sharp (mkBoard o [] []) /\
  (exists l, other_body e8 (mkBoard o [] []) false 1 (4 / 5) = Some l) /\ (exists l, other_body e8 (mkBoard o [] []) true 1 (4 / 5) = Some l).
Proof.
  destruct tri_board as (o & E & _ & S & N). exists o. split; [exact E|]. split; [exact S|]. split.
  - exact (planes_defined e8 (mkBoard o [] []) (1 + 4 / 5) (4 / 5) false false S N).
  - exact (planes_defined e8 (mkBoard o [] []) (- (1 + 4 / 5)) (- (4 / 5)) true true S N).
Qed.
