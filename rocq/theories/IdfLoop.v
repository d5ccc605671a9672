(** Facts about IDF outlines: a whole loop as it is turned into an [MCAD_OUTLINE]. *)

From Coq Require Import Reals Lra List Bool ZArith Psatz.
From Verif Require Import SegModel SegSpec SegTrig SegFacts SegProps SegSplit CutModel CutSpec CutCases OutModel OutSpec OutFacts OutBox OutCases
  IdfGeo IdfGeoSpec IdfArc IdfConv.
Import ListNotations.
Open Scope R_scope.

Lemma convert_ends s : loop_seg s -> s_start (convert_seg s) = to3 (g_start s) /\ s_end (convert_seg s) = to3 (g_end s) /\
  piece (convert_seg s) /\ made (convert_seg s).
Proof.
  intros [(a & b & F & ->)|(a & b & d & F & H & ->)].
  - rewrite (convert_line a b F). cbn [line_seg g_start g_end s_start s_end]. split; [reflexivity|]. split; [reflexivity|].
    split; [left; reflexivity|]. left. destruct F as (NA & NB & A).
    destruct (set_line_claim (to3 a) (to3 b)) as (s & [(E & _ & _ & _ & L & _)|(E & _ & Q)]).
    + assert (S : s = mkSeg SLine 0 0 0 false origin (to3 a) (to3 b)); [|rewrite <- S; exact L].
      pose proof (convert_line a b (conj NA (conj NB A))) as C. unfold convert_seg, seg_circle in C. cbn [line_seg g_ang g_rad g_start g_end] in C.
      rewrite full_turn_line in C by (unfold line_deg; lra). rewrite ltb_f in C by lra. rewrite E in C. exact C.
    + exfalso. apply Q. split; [reflexivity|]. split; [reflexivity|]. apply not_one; [exact NA|lra].
  - destruct (convert_arc a b d F H) as (sa & ea & c & r & K & E & S & _). rewrite S. rewrite (made_arc a b d H) in *.
    cbn [g_start g_end s_start s_end]. split; [reflexivity|]. split; [reflexivity|]. split; [right; reflexivity|]. right. left.
    split; [|reflexivity]. rewrite <- S. unfold convert_seg, seg_circle in *. cbn [g_ang g_rad g_cen g_start g_end] in *.
    rewrite full_turn_arc in * by exact H.
    destruct (arc_radius_eq a b d (far_apart_ne a b F) H) as [RP _]. rewrite (ltb_t _ _ RP) in *.
    destruct (set_arc (to3 (arc_centre a b d)) (to3 a) (to3 b) (negb (ltb 0 d))) as [ok t] eqn:Q. cbn [snd] in *.
    destruct ok.
    + destruct F as (NA & NB & A). destruct (arc_made _ _ _ _ _ Q ltac:(apply not_one; [exact NA|lra])) as (_ & _ & _ & _ & _ & _ & O & _). exact O.
    + exfalso. destruct (set_arc_claim (to3 (arc_centre a b d)) (to3 a) (to3 b) (negb (ltb 0 d))) as (s & [(E2 & _)|(E2 & E3 & _)]).
      * rewrite Q in E2. discriminate.
      * rewrite Q in E2. injection E2 as E2. rewrite E2, E3 in S. discriminate.
Qed.

Lemma same_one p : one_point (to3 p) (to3 p) e8.
Proof. apply one_point_refl. Qed.

Lemma last_ends p (l : list iseg) : l <> [] -> forall q, follows p l q -> exists l' t, l = l' ++ [t] /\ g_end t = q.
Proof.
  revert p. induction l as [|s l IH]; [congruence|]. intros p _ q [E F]. destruct l as [|t l].
  - cbn in F. exists [], s. split; [reflexivity|exact F].
  - destruct (IH (g_end s) ltac:(discriminate) q F) as (l' & u & -> & G). exists (s :: l'), u. split; [reflexivity|exact G].
Qed.

Lemma follows_app p l q l2 r : follows p l q -> follows q l2 r -> follows p (l ++ l2) r.
Proof. revert p. induction l as [|s l IH]; intros p; cbn. - intros ->. tauto. - intros [E F] G. split; [exact E|]. now apply IH. Qed.
Lemma follows_split p l1 l2 r : follows p (l1 ++ l2) r -> exists q, follows p l1 q /\ follows q l2 r.
Proof.
  revert p. induction l1 as [|s l IH]; intros p; cbn; [intro F; exists p; tauto|]. intros [E F]. destruct (IH _ F) as (q & A & B). exists q. tauto.
Qed.

(** The part of the loop before the last segment. *)
Lemma convert_open p done l : Forall loop_seg (done ++ l) -> forall q r, follows p done q -> follows q l r ->
  Forall (fun s => ~ one_point (to3 (g_end s)) (to3 p) e8) l ->
  (forall s t, In s (done ++ l) -> covers (convert_seg s) t -> near_home t) ->
  forall o, built made o -> o_closed o = false -> o_segs o = map convert_seg done ->
  exists o', convert_segs o l = Some (true, o') /\ built made o' /\ o_closed o' = false /\ o_segs o' = map convert_seg (done ++ l).
Proof.
  revert done. induction l as [|s l IH]; intros done FA q r FD FL NC NH o B C S.
  - exists o. rewrite app_nil_r. cbn. tauto.
  - destruct FL as [SQ FL]. inversion NC as [|? ? N1 N2]; subst.
    assert (LS : loop_seg s) by (rewrite Forall_forall in FA; apply FA; apply in_app_iff; right; left; reflexivity).
    destruct (convert_ends s LS) as (CS & CE & PI0 & M).
    assert (FT : fits o (convert_seg s)).
    { split; [exact C|]. right. split; [exact PI0|]. intros l0 t E. rewrite S in E.
      destruct done as [|u done]; [destruct l0; discriminate|].
      destruct (last_ends p (u :: done) ltac:(discriminate) _ FD) as (l' & v & EV & G). rewrite EV, map_app in E. cbn in E.
      apply app_inj_tail in E. destruct E as [_ <-].
      assert (LV : loop_seg v) by (rewrite Forall_forall in FA; apply FA; rewrite EV; rewrite !in_app_iff; left; right; left; reflexivity).
      destruct (convert_ends v LV) as (_ & VE & _). rewrite VE, CS, G. apply same_one. }
    assert (NCL : ~ closes o (convert_seg s)).
    { intros [T|(f & l0 & E & O)]. { destruct PI0 as [Z|Z]; rewrite Z in T; discriminate. }
      rewrite S in E. destruct done as [|u done]; [discriminate|]. cbn in E. injection E as <- _.
      assert (LU : loop_seg u) by (rewrite Forall_forall in FA; apply FA; left; reflexivity).
      destruct (convert_ends u LU) as (US & _). destruct FD as [UP _]. rewrite US, UP, CE in O. contradiction. }
    destruct (add_taken o (convert_seg s) FT) as [T _]. destruct (T NCL) as (w & bl & tr & A).
    cbn [convert_segs]. rewrite A. cbn [yes negb orb].
    set (o1 := mkOut (o_segs o ++ [convert_seg s]) false w (o_bbok o) bl tr) in *.
    destruct (IH (done ++ [s])) with (q := g_end s) (r := r) (o := o1) as (o' & E & B' & C' & S').
    + rewrite <- app_assoc. exact FA.
    + eapply follows_app; [exact FD|]. cbn. tauto.
    + exact FL.
    + exact N2.
    + rewrite <- app_assoc. exact NH.
    + refine (built_add made o (Some (convert_seg s)) yes o1 B _ A). intros s0 E0. injection E0 as <-. exact M.
    + reflexivity.
    + cbn. rewrite S, map_app. reflexivity.
    + exists o'. split; [exact E|]. split; [exact B'|]. split; [exact C'|]. rewrite S', <- app_assoc. reflexivity.
Qed.

(** A loop which leads back to its start. *)
Lemma convert_closed p l z : l <> [] -> Forall loop_seg (l ++ [z]) -> follows p (l ++ [z]) p ->
  Forall (fun s => ~ one_point (to3 (g_end s)) (to3 p) e8) l ->
  (forall s t, In s (l ++ [z]) -> covers (convert_seg s) t -> near_home t) ->
  exists o, convert_oln out_init (l ++ [z]) = Some (true, o) /\ built made o /\ o_closed o = true /\
    (o_segs o = map convert_seg (l ++ [z]) \/ turned (map convert_seg (l ++ [z])) (o_segs o)).
Proof.
  intros NE FA FO NC NH. destruct (follows_split p l [z] p FO) as (q & F1 & F2). destruct F2 as [ZS ZE]. cbn in ZE.
  assert (LZ : loop_seg z) by (rewrite Forall_forall in FA; apply FA; apply in_app_iff; right; left; reflexivity).
  destruct (convert_open p [] l) with (q := p) (r := q) (o := out_init) as (o1 & E1 & B1 & C1 & S1).
  - apply Forall_app in FA. apply FA.
  - reflexivity.
  - exact F1.
  - exact NC.
  - intros s t I. apply NH. apply in_app_iff. left. exact I.
  - constructor.
  - reflexivity.
  - reflexivity.
  - cbn [app] in S1. destruct (convert_ends z LZ) as (CS & CE & PI0 & M).
    assert (FT : fits o1 (convert_seg z)).
    { split; [exact C1|]. right. split; [exact PI0|]. intros l0 t E. rewrite S1 in E.
      destruct (last_ends p l NE _ F1) as (l' & v & EV & G). rewrite EV, map_app in E. cbn in E.
      apply app_inj_tail in E. destruct E as [_ <-].
      assert (LV : loop_seg v) by (rewrite Forall_forall in FA; apply FA; rewrite EV; rewrite !in_app_iff; left; right; left; reflexivity).
      destruct (convert_ends v LV) as (_ & VE & _). rewrite VE, CS, G, ZS. apply same_one. }
    assert (CL : closes o1 (convert_seg z)).
    { right. destruct l as [|u l]; [congruence|]. cbn [map] in S1. exists (convert_seg u), (map convert_seg l). split; [exact S1|].
      assert (LU : loop_seg u) by (rewrite Forall_forall in FA; apply FA; left; reflexivity).
      destruct (convert_ends u LU) as (US & _). destruct FO as [UP _]. rewrite US, UP, CE, ZE. apply same_one. }
    destruct (add_taken o1 (convert_seg z) FT) as [_ T]. destruct (T CL) as [T1|(l1 & w & bl & tr & A & T1)].
    + exfalso. destruct (add_defined o1 (convert_seg z) B1 M) as (r & o' & D); [|congruence].
      intros t pp I. rewrite S1 in I. apply in_app_iff in I. destruct I as [I|[<-|[]]].
      * apply in_map_iff in I. destruct I as (s & <- & I). apply NH. apply in_app_iff. left. exact I.
      * apply NH. apply in_app_iff. right. left. reflexivity.
    + exists (mkOut l1 true w true bl tr).
      assert (E2 : forall o0 o2, convert_segs o0 l = Some (true, o2) -> convert_segs o0 (l ++ [z]) = convert_segs o2 [z]).
      { clear. induction l as [|s l IH]; intros o0 o2 H. - cbn in H. injection H as ->. reflexivity.
        - cbn [convert_segs app] in *. destruct (add_segment o0 (Some (convert_seg s))) as [[[ok bad] o']|]; [|discriminate].
          destruct (negb ok || bad); [discriminate|]. now apply IH. }
      unfold convert_oln. rewrite (E2 _ _ E1). cbn [convert_segs]. rewrite A. cbn [yes negb orb].
      split. { destruct l; [congruence|reflexivity]. }
      split. { refine (built_add made o1 (Some (convert_seg z)) yes _ B1 _ A). intros s0 E0. injection E0 as <-. exact M. }
      split; [reflexivity|]. cbn [o_segs]. rewrite S1 in T1. rewrite map_app. cbn [map]. exact T1.
Qed.

(** One which nearly does is taken, and left open. *)
Lemma convert_nearly p l q : l <> [] -> Forall loop_seg l -> follows p l q ->
  Forall (fun s => ~ one_point (to3 (g_end s)) (to3 p) e8) l ->
  (forall s t, In s l -> covers (convert_seg s) t -> near_home t) ->
  exists o, convert_oln out_init l = Some (true, o) /\ o_closed o = false /\ o_segs o = map convert_seg l.
Proof.
  intros NE FA FO NC NH. destruct (convert_open p [] l FA p q eq_refl FO NC NH out_init (built_new made) eq_refl eq_refl) as (o & E & _ & C & S).
  exists o. split; [|split; [exact C|exact S]]. destruct l; [congruence|exact E].
Qed.
