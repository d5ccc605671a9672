(** Merging an outline with another one and cutting it out: what is left. *)

From Coq Require Import Reals List Bool Arith Lra Lia.
From Verif Require Import SegModel SegSpec SegTrig SegFacts SegSplit SegProps CutModel CutSpec OutModel OutSpec OutFacts OutCut OvlModel OvlSpec OvlFacts OvlJoin.
Import ListNotations.
Open Scope R_scope.

(** ** The points lie in the plane *)

Definition level (s : seg) : Prop := s_ty s = SCircle \/ (piece s /\ flat s).

Lemma get_flat s : flat s -> in_plane (get_start s) /\ in_plane (get_end s).
Proof. intros (A & B). unfold get_start, get_end. destruct (s_cw s); now split. Qed.

Ltac strip v := repeat match goal with
  | |- In v (fst (snd (if ?b then _ else _))) -> _ => destruct b
  | |- In v (fst (snd (match ?l with nil => _ | _ => _ end))) -> _ => destruct l
  | |- In v (fst (snd (nothing _))) -> _ => intros []
  | |- In v (fst (snd (found (if ?b then _ else _) _))) -> _ => destruct b
  | |- In v (fst (snd (found _ _))) -> _ => cbn [found fst snd In]; intros H; repeat (destruct H as [<-|H]; [first [reflexivity|assumption|tauto]|]); contradiction
  end.

Lemma points_flat s t v : level s -> level t -> In v (fst (snd (intersections s t))) -> in_plane v.
Proof.
  intros Ls Lt. unfold intersections.
  assert (Ps : s_ty s <> SCircle -> in_plane (get_start s) /\ in_plane (get_end s) /\ in_plane (s_start s) /\ in_plane (s_end s)).
  { intros N. destruct Ls as [E|(_ & F)]; [contradiction|]. pose proof (get_flat s F). destruct F. tauto. }
  assert (Pt : s_ty t <> SCircle -> in_plane (get_start t) /\ in_plane (get_end t) /\ in_plane (s_start t) /\ in_plane (s_end t)).
  { intros N. destruct Lt as [E|(_ & F)]; [contradiction|]. pose proof (get_flat t F). destruct F. tauto. }
  assert (AL : In v (fst (snd (check_arc_line s t))) -> in_plane v) by (unfold check_arc_line; cbv zeta; strip v).
  assert (AA : (s_ty s <> SCircle \/ s_ty t <> SCircle) -> In v (fst (snd (check_arcs s t))) -> in_plane v).
  { intros N. unfold check_arcs. cbv zeta.
    assert (Es : segty_eqb (s_ty s) SCircle = true <-> s_ty s = SCircle) by (destruct (s_ty s); cbn; split; congruence). assert (Et : segty_eqb (s_ty t) SCircle = true <-> s_ty t = SCircle) by (destruct (s_ty t); cbn; split; congruence).
    assert (Ea : segty_eqb (s_ty s) SArc = true -> s_ty s = SArc) by (destruct (s_ty s); cbn; congruence).
    destruct (_ || _ || _); [intros []|]. destruct (ltb _ _); [intros []|]. destruct (_ && _).
    - destruct (segty_eqb (s_ty s) SCircle) eqn:Bs.
      + assert (Nt : s_ty t <> SCircle) by (destruct N as [N|N]; [now elim N; apply Es|exact N]). destruct (Pt Nt) as (A & B & C & D). strip v.
      + assert (Ns : s_ty s <> SCircle) by (intros K; apply Es in K; congruence). destruct (Ps Ns) as (A & B & C & D). destruct (segty_eqb (s_ty t) SCircle) eqn:Bt; [strip v|].
        assert (Nt : s_ty t <> SCircle) by (intros K; apply Et in K; congruence). destruct (Pt Nt) as (A' & B' & C' & D'). strip v.
    - destruct (segty_eqb (s_ty s) SArc && segty_eqb (s_ty t) SArc && _) eqn:B.
      + apply andb_true_iff in B. destruct B as (B & _). apply andb_true_iff in B. destruct B as (B & _). apply Ea in B. destruct (Ps ltac:(congruence)) as (A' & B' & C' & D'). strip v.
      + clear. unfold circle_points. cbv zeta. match goal with |- context [let (_, _) := if ?b then _ else _ in _] => destruct b end; cbn [px py]; strip v. }
  destruct (s_ty s) eqn:Ts; destruct (s_ty t) eqn:Tt; try (intros []; fail); try exact AL; try (apply AA; first [now left|now right]).
  - unfold check_lines. cbv zeta. destruct Ps as (A & B & C & D); [congruence|]. destruct Pt as (A' & B' & C' & D'); [congruence|]. strip v.
  - unfold check_circles, circle_points. cbv zeta. repeat match goal with |- In v (fst (snd (if ?b then _ else _))) -> _ => destruct b; [intros []|] end.
    match goal with |- context [let (_, _) := if ?b then _ else _ in _] => destruct b end; strip v.
Qed.

Lemma meets_flat s t p : level s -> level t -> meets_on s t p -> in_plane p.
Proof. intros A B (ps & f & E & I & _). apply (points_flat s t p A B). rewrite E. exact I. Qed.

Lemma whole_good o : whole_exactly o -> o_closed o = true /\ (good (o_segs o) \/ one_circle (o_segs o)) /\ (forall s, In s (o_segs o) -> level s) /\ o_segs o <> [].
Proof.
  intros (C & W). split; [exact C|]. destruct W as [(c & E & T)|(P & F & X)].
  - split; [right; now exists c|]. rewrite E. split; [intros s [<-|[]]; now left|discriminate].
  - split; [left; exact (conj P (conj F X))|]. rewrite Forall_forall in P, F. split; [intros s I; right; split; auto|]. destruct (o_segs o); [now elim X|discriminate].
Qed.

(** ** The two points *)

Definition fresh (o : outline) : outline := mkOut (o_segs o) (o_closed o) (o_wind o) false (o_bl o) (o_tr o).

Section Two.
Variables (o b : outline) (sub : bool).
Hypothesis (Wo : whole_exactly o) (Wb : whole_exactly b) (Sh : exact_corners (o_segs o) (o_segs b)).

Lemma points_met meets p i j q i' j' : meet_all 0 (o_segs o) (o_segs b) sub = inr meets -> firsts [] meets = [(p, (i, j)); (q, (i', j'))] ->
  (i < length (o_segs o))%nat /\ (j < length (o_segs b))%nat /\ (i' < length (o_segs o))%nat /\ (j' < length (o_segs b))%nat /\ ~ one_point p q e8 /\
  meets_on (nth i (o_segs o) seg_init) (nth j (o_segs b) seg_init) p /\ meets_on (nth i' (o_segs o) seg_init) (nth j' (o_segs b) seg_init) q.
Proof.
  intros M F. destruct (firsts_spec meets []) as (A & B); [intros [|x] y u v E; discriminate|]. rewrite F in A, B.
  assert (N : ~ one_point p q e8) by exact (B 0%nat 1%nat _ _ eq_refl eq_refl ltac:(lia)).
  assert (Each : forall v ij, In (v, ij) [(p, (i, j)); (q, (i', j'))] -> exists i0 j0, ij = (i0, j0) /\ (i0 < length (o_segs o))%nat /\ (j0 < length (o_segs b))%nat /\ meets_on (nth i0 (o_segs o) seg_init) (nth j0 (o_segs b) seg_init) v).
  { intros v ij I. destruct (A v ij I) as [[]|(K & _)]. destruct (meet_all_first _ _ _ _ _ M v ij K) as (i0 & j0 & E & L & L' & Q). exists i0, j0. rewrite Nat.sub_0_r in Q. repeat split; try assumption; lia. }
  destruct (Each p (i, j)) as (i0 & j0 & E & L & L' & Q); [now left|]. injection E as <- <-.
  destruct (Each q (i', j')) as (i1 & j1 & E & K & K' & Q'); [right; now left|]. injection E as <- <-. now repeat split.
Qed.

(* the state in which the parts are looked for *)
Lemma ready meets p i j q i' j' l k m h : meet_all 0 (o_segs o) (o_segs b) sub = inr meets -> firsts [] meets = [(p, (i, j)); (q, (i', j'))] ->
  split_both (o_segs o) p i q i' = (true, (l, k)) -> split_both (o_segs b) p j q j' = (true, (m, h)) ->
  good l /\ good m /\ (k < length l)%nat /\ (h < length m)%nat /\ ~ one_point p q e8 /\ meets_at (o_segs o) (o_segs b) p /\ meets_at (o_segs o) (o_segs b) q /\
  (forall s, In s (l ++ m) -> one_point p (s_start s) e8 -> s_start s = p) /\ (forall s, In s (l ++ m) -> one_point q (s_start s) e8 -> s_start s = q) /\
  cut_up (fun v => v = p \/ v = q) (o_segs o) l /\ cut_up (fun v => v = p \/ v = q) (o_segs b) m /\
  (Forall (fun s => s_cw s = false) (o_segs o) -> Forall (fun s => s_cw s = false) l) /\ (Forall (fun s => s_cw s = false) (o_segs b) -> Forall (fun s => s_cw s = false) m) /\
  (passes_once (o_segs o) (o_segs b) -> apart_starts (map s_start m)).
Proof.
  intros M F S1 S2. destruct (points_met meets p i j q i' j' M F) as (Li & Lj & Li' & Lj' & N & Mp & Mq).
  destruct (whole_good o Wo) as (_ & Go & Lo & _). destruct (whole_good b Wb) as (_ & Gb & Lb & _).
  assert (Ii : In (nth i (o_segs o) seg_init) (o_segs o)) by now apply nth_In. assert (Ij : In (nth j (o_segs b) seg_init) (o_segs b)) by now apply nth_In.
  assert (Ii' : In (nth i' (o_segs o) seg_init) (o_segs o)) by now apply nth_In. assert (Ij' : In (nth j' (o_segs b) seg_init) (o_segs b)) by now apply nth_In.
  assert (Zp : in_plane p) by (apply (meets_flat _ _ p) in Mp; auto). assert (Zq : in_plane q) by (apply (meets_flat _ _ q) in Mq; auto).
  destruct (both_good (o_segs o) p q i i' l k Go Li Li' Zp Zq N S1) as (Gl & Lk & Cl & Sl & Wl).
  destruct (both_good (o_segs b) p q j j' m h Gb Lj Lj' Zp Zq N S2) as (Gm & Lh & Cm & Sm & Wm).
  assert (Ap : meets_at (o_segs o) (o_segs b) p) by (eexists _, _; exact (conj Ii (conj Ij Mp))). assert (Aq : meets_at (o_segs o) (o_segs b) q) by (eexists _, _; exact (conj Ii' (conj Ij' Mq))).
  assert (Who : forall s, In s (l ++ m) -> (s_start s = p \/ s_start s = q) \/ exists s0, In s0 (o_segs o ++ o_segs b) /\ piece s0 /\ s_start s = s_start s0).
  { intros s I. apply in_app_or in I. destruct I as [I|I]; [destruct (Sl s I) as [K|(s0 & K & R)]|destruct (Sm s I) as [K|(s0 & K & R)]]; try (left; exact K); right; exists s0; (split; [apply in_or_app; tauto|exact R]). }
  refine (conj Gl (conj Gm (conj Lk (conj Lh (conj N (conj Ap (conj Aq (conj _ (conj _ (conj Cl (conj Cm (conj Wl (conj Wm _))))))))))))).
  - intros s I O. destruct (Who s I) as [[K|K]|(s0 & K & P0 & E)]; [exact K|rewrite K in O; now elim N|]. rewrite E in O |- *. symmetry. now apply Sh.
  - intros s I O. destruct (Who s I) as [[K|K]|(s0 & K & P0 & E)]; [rewrite K in O; elim N; now apply one_point_sym|exact K|]. rewrite E in O |- *. symmetry. now apply Sh.
  - intros (O1 & O2 & O3). apply (both_apart (o_segs b) p q j j' m h Gb Lj Lj' Zp Zq N S2).
    + intros x y Lx Ly Q. rewrite map_length in Lx, Ly. apply O1; try assumption. rewrite <- !(map_nth s_start). exact Q.
    + intros u I. split; intros Q; [apply (O2 _ _ u p Ii Ij I Mp Q)|apply (O2 _ _ u q Ii' Ij' I Mq Q)].
    + intros Q E. subst j'. destruct (O3 _ _ _ p q Ii Ii' Ij Mp Mq Q) as [K|K]; [now elim N|exact K].
Qed.
End Two.

(** ** What is left *)

(* the parts which are put together *)
Definition difference_of (w x w' x' : list seg) (inside : bool) (s' : list seg) : Prop :=
  if inside then turned_round (x ++ rev (map reverse x')) s'
  else exists g z, w' = g ++ [z] /\ s' = rev (map reverse g) ++ reverse z :: w.

Section Whole.
Variables (o b : outline) (sub : bool).
Hypothesis (Wo : whole_exactly o) (Wb : whole_exactly b) (Sh : exact_corners (o_segs o) (o_segs b)).

Lemma outline_joined r o' a' : op_outline o (Some b) sub = Merged r o' a' -> fst r = true ->
  r = yes /\ a' = None /\ exists p q w x w' x' inside s',
    meets_at (o_segs o) (o_segs b) p /\ meets_at (o_segs o) (o_segs b) q /\ ~ one_point p q e8 /\
    parted o b p q w x w' x' inside /\ o' = mkOut s' true (o_wind o) false (o_bl o) (o_tr o) /\
    Forall piece (w ++ x) /\ Forall flat (w ++ x) /\ Forall piece (w' ++ x') /\ Forall flat (w' ++ x') /\
    (sub = true -> difference_of w x w' x' inside s') /\
    (sub = false -> Forall (fun s => s_cw s = false) (o_segs o) -> Forall (fun s => s_cw s = false) (o_segs b) ->
       (inside = false -> turned_round (w ++ x') s') /\ (passes_once (o_segs o) (o_segs b) -> inside = true -> turned_round (x ++ w') s')).
Proof.
  unfold op_outline. cbv zeta. cbn [o_closed o_segs]. destruct (whole_good o Wo) as (Co & _ & _ & No). destruct (whole_good b Wb) as (Cb & _ & _ & Nb). rewrite Co, Cb. cbn [negb].
  destruct (meet_all 0 (o_segs o) (o_segs b) sub) as [e|meets] eqn:M; [intros E; injection E as <- _ _; discriminate|].
  destruct meets as [|v0 meets]; [intros E; injection E as <- _ _; discriminate|].
  destruct (firsts [] (v0 :: meets)) as [|(p & i & j) [|(q & i' & j') [|? ?]]] eqn:F; try (intros E; injection E as <- _ _; discriminate).
  destruct (split_both (o_segs o) p i q i') as (ok & l & k) eqn:S1. destruct ok; [|intros E; injection E as <- _ _; discriminate].
  destruct (split_both (o_segs b) p j q j') as (ok & m & h) eqn:S2. destruct ok; [|intros E; injection E as <- _ _; discriminate].
  destruct (ready o b sub Wo Wb Sh _ p i j q i' j' l k m h M F S1 S2) as (Gl & Gm & Lk & Lh & N & Mp & Mq & Hp & Hq & Cl & Cm & Wl & Wm & Ap).
  intros E Y. destruct (parts_joined (with_segs (mkOut (o_segs o) true (o_wind o) false (o_bl o) (o_tr o)) l) (with_segs b m) p q k h sub Gl Gm Lk Lh N Hp Hq r o' a' E Y) as (Er & Ea & w & x & w' & x' & inside & s' & Nw & Nx & Cw & Cx & T & Nw' & Nx' & Cw' & Cx' & T' & I0 & I1 & Eo & D1 & D2 & U1 & U2).
  split; [exact Er|]. split; [exact Ea|]. exists p, q, w, x, w', x', inside, s'.
  assert (Tl : forall s, In s (w ++ x) -> In s l) by (intros s I; now apply (turned_in _ _ s T)). assert (Tm : forall s, In s (w' ++ x') -> In s m) by (intros s I; now apply (turned_in _ _ s T')).
  destruct Gl as (Pl & Fl & _). destruct Gm as (Pm & Fm & _). cbn [with_segs o_segs] in Pl, Fl, Pm, Fm. rewrite Forall_forall in Pl, Fl, Pm, Fm.
  split; [exact Mp|]. split; [exact Mq|]. split; [exact N|]. split.
  { exists l, m. split; [|split; [|split; [exact I0|]]].
    - exact (conj Nw (conj Nx (conj Cw (conj Cx (conj Cl T))))).
    - exact (conj Nw' (conj Nx' (conj Cw' (conj Cx' (conj Cm T'))))).
    - rewrite Co. exact I1. }
  split; [rewrite Eo; unfold with_segs; cbn; reflexivity|].
  split; [rewrite Forall_forall; auto|]. split; [rewrite Forall_forall; auto|]. split; [rewrite Forall_forall; auto|]. split; [rewrite Forall_forall; auto|]. split.
  - intros Es. unfold difference_of. destruct inside; auto.
  - intros Es Fo Fb. split; [intros Ei; apply U1; cbn [with_segs o_segs]; auto|intros Po Ei; apply U2; cbn [with_segs o_segs]; auto].
Qed.

Lemma outline_answers : sub = true \/ (Forall (fun s => s_cw s = false) (o_segs o) /\ Forall (fun s => s_cw s = false) (o_segs b)) ->
  exists r o' a', op_outline o (Some b) sub = Merged r o' a'.
Proof.
  intros W. unfold op_outline. cbv zeta. cbn [o_closed o_segs]. destruct (whole_good o Wo) as (Co & _ & _ & No). destruct (whole_good b Wb) as (Cb & _ & _ & Nb). rewrite Co, Cb. cbn [negb].
  destruct (meet_all 0 (o_segs o) (o_segs b) sub) as [e|meets] eqn:M; [eexists _, _, _; reflexivity|].
  destruct meets as [|v0 meets]; [eexists _, _, _; reflexivity|].
  destruct (firsts [] (v0 :: meets)) as [|(p & i & j) [|(q & i' & j') [|? ?]]] eqn:F; try (eexists _, _, _; reflexivity).
  destruct (split_both (o_segs o) p i q i') as (ok & l & k) eqn:S1. destruct ok; [|eexists _, _, _; reflexivity].
  destruct (split_both (o_segs b) p j q j') as (ok & m & h) eqn:S2. destruct ok; [|eexists _, _, _; reflexivity].
  destruct (ready o b sub Wo Wb Sh _ p i j q i' j' l k m h M F S1 S2) as (Gl & Gm & Lk & Lh & N & Mp & Mq & Hp & Hq & Cl & Cm & Wl & Wm & Ap).
  apply (parts_answer (with_segs (mkOut (o_segs o) true (o_wind o) false (o_bl o) (o_tr o)) l) (with_segs b m) p q k h sub Gl Gm Lk Lh N Hp Hq). destruct W as [W|(A & B)]; [now left|right; cbn [with_segs o_segs]; auto].
Qed.
End Whole.

(** ** Closed courses again *)

Lemma back_all (P : seg -> Prop) l : (forall s, P s -> P (reverse s)) -> Forall P l -> Forall P (rev (map reverse l)).
Proof. intros H F. apply Forall_rev. rewrite Forall_map. revert F. now apply Forall_impl. Qed.
Lemma reverse_flat s : piece s -> flat s -> flat (reverse s).
Proof. intros P (A & B). destruct (reverse_ends s P) as (E1 & E2 & _). unfold flat. rewrite E1, E2. now split. Qed.
Lemma reverse_piece s : piece s -> piece (reverse s).
Proof. intros P. unfold piece, reverse in *. destruct P as [E|E]; rewrite E; cbn; tauto. Qed.

Lemma ring_of p q w x : w <> [] -> chained p w q -> chained q x p -> exact_ring (w ++ x).
Proof. intros N A B. apply ring_chained. split; [destruct w; [now elim N|discriminate]|]. exists p. apply chained_app. now exists q. Qed.

Lemma union_closed p q w x' s' : w <> [] -> chained p w q -> chained q x' p -> Forall piece (w ++ x') -> Forall flat (w ++ x') -> turned_round (w ++ x') s' -> good s'.
Proof.
  intros N A B P F T. split; [exact (turned_all _ _ _ T P)|]. split; [exact (turned_all _ _ _ T F)|]. apply (ring_turns _ _ T). now apply (ring_of p q).
Qed.

Lemma chained_chain a l b : chained a l b -> chain l /\ (l <> [] -> forall s, a = s_start (hd s l) /\ b = s_end (last l s)).
Proof.
  revert a. induction l as [|s l IH]; intros a H; [split; [exact I|congruence]|]. destruct H as (E & H). destruct (IH _ H) as (C & K). split.
  - destruct l as [|t l]; [exact I|]. split; [|exact C]. destruct (K ltac:(discriminate) t) as (Ea & _). cbn in Ea. rewrite <- Ea. apply one_point_refl.
  - intros _ z. split; [cbn; congruence|]. destruct l as [|t l]; [cbn in *; congruence|]. apply (K ltac:(discriminate) z).
Qed.
Lemma exact_is_ring l : exact_ring l -> ring l.
Proof.
  intros R. apply ring_chained in R. destruct R as (N & z & C). destruct (chained_chain z l z C) as (Ch & K). split; [exact Ch|]. destruct l as [|s r]; [congruence|].
  destruct (K N s) as (E1 & E2). cbn [hd] in E1. assert (L : last (s :: r) s = last r s) by (destruct r; reflexivity). rewrite <- L, <- E2, E1. apply one_point_refl.
Qed.
Lemma good_whole s' w bb bl tr : good s' -> whole_exactly (mkOut s' true w bb bl tr) /\ is_contiguous (mkOut s' true w bb bl tr) = true.
Proof. intros (P & F & X). split; [split; [reflexivity|right; now repeat split]|]. apply contiguous_spec. split; [reflexivity|]. right. now apply exact_is_ring. Qed.
Lemma chain_next x s t y : chain (x ++ s :: t :: y) -> one_point (s_start t) (s_end s) e8.
Proof. induction x as [|a x IH]; cbn [app]; [intros (H & _); exact H|]. intros H. apply IH. destruct (x ++ s :: t :: y) as [|b l] eqn:E; [destruct x; discriminate|]. apply H. Qed.

Section Results.
Variables (o b : outline).
Hypothesis (Wo : whole_exactly o) (Wb : whole_exactly b) (Sh : exact_corners (o_segs o) (o_segs b)).

Lemma union_result r o' a' : Forall (fun s => s_cw s = false) (o_segs o) -> Forall (fun s => s_cw s = false) (o_segs b) -> passes_once (o_segs o) (o_segs b) ->
  op_outline o (Some b) false = Merged r o' a' -> fst r = true ->
  r = yes /\ a' = None /\ whole_exactly o' /\ is_contiguous o' = true /\ exists p q w x w' x' inside,
    meets_at (o_segs o) (o_segs b) p /\ meets_at (o_segs o) (o_segs b) q /\ ~ one_point p q e8 /\
    parted o b p q w x w' x' inside /\ turned_round (if inside then x ++ w' else w ++ x') (o_segs o').
Proof.
  intros Fo Fb Po E Y. destruct (outline_joined o b false Wo Wb Sh r o' a' E Y) as (Er & Ea & p & q & w & x & w' & x' & inside & s' & Mp & Mq & N & Pa & Eo & P1 & F1 & P2 & F2 & _ & U).
  destruct (U eq_refl Fo Fb) as (U0 & U1). rewrite Forall_app in P1, F1, P2, F2.
  destruct Pa as (l & m & (Nw & Nx & Cw & Cx & Cl & T) & (Nw' & Nx' & Cw' & Cx' & Cm & T') & I0 & I1).
  assert (G : good s' /\ turned_round (if inside then x ++ w' else w ++ x') s').
  { destruct inside.
    - specialize (U1 Po eq_refl). split; [|exact U1]. apply (union_closed q p x w' s' Nx Cx Cw'); [rewrite Forall_app; tauto|rewrite Forall_app; tauto|exact U1].
    - specialize (U0 eq_refl). split; [|exact U0]. apply (union_closed p q w x' s' Nw Cw Cx'); [rewrite Forall_app; tauto|rewrite Forall_app; tauto|exact U0]. }
  destruct G as (G & Tr). rewrite Eo. destruct (good_whole s' (o_wind o) false (o_bl o) (o_tr o) G) as (W & Co). split; [exact Er|]. split; [exact Ea|]. split; [exact W|]. split; [exact Co|].
  exists p, q, w, x, w', x', inside. split; [exact Mp|]. split; [exact Mq|]. split; [exact N|]. split; [|exact Tr]. exists l, m.
  exact (conj (conj Nw (conj Nx (conj Cw (conj Cx (conj Cl T))))) (conj (conj Nw' (conj Nx' (conj Cw' (conj Cx' (conj Cm T'))))) (conj I0 I1))).
Qed.

Lemma difference_result r o' a' : op_outline o (Some b) true = Merged r o' a' -> fst r = true ->
  r = yes /\ a' = None /\ exists p q w x w' x' inside,
    meets_at (o_segs o) (o_segs b) p /\ meets_at (o_segs o) (o_segs b) q /\ ~ one_point p q e8 /\ parted o b p q w x w' x' inside /\
    ((inside = true \/ length w' = 1%nat) -> whole_exactly o' /\ is_contiguous o' = true /\ turned_round (if inside then x ++ rev (map reverse x') else w ++ rev (map reverse w')) (o_segs o')) /\
    (inside = false -> length w' <> 1%nat -> is_contiguous o' = false).
Proof.
  intros E Y. destruct (outline_joined o b true Wo Wb Sh r o' a' E Y) as (Er & Ea & p & q & w & x & w' & x' & inside & s' & Mp & Mq & N & Pa & Eo & P1 & F1 & P2 & F2 & D & _).
  specialize (D eq_refl). rewrite Forall_app in P1, F1, P2, F2. split; [exact Er|]. split; [exact Ea|]. exists p, q, w, x, w', x', inside. split; [exact Mp|]. split; [exact Mq|]. split; [exact N|]. split; [exact Pa|].
  destruct Pa as (l & m & (Nw & Nx & Cw & Cx & Cl & T) & (Nw' & Nx' & Cw' & Cx' & Cm & T') & I0 & I1).
  assert (Fr : forall u, Forall piece u -> Forall flat u -> Forall piece (rev (map reverse u)) /\ Forall flat (rev (map reverse u))).
  { intros u A B. split; [apply back_all; [exact reverse_piece|exact A]|]. apply Forall_rev. rewrite Forall_map. rewrite Forall_forall in A, B |- *. intros s I. now apply reverse_flat; auto. }
  rewrite Eo. split.
  - intros H. assert (G : good s' /\ turned_round (if inside then x ++ rev (map reverse x') else w ++ rev (map reverse w')) s').
    { destruct inside; cbn [difference_of] in D.
      - split; [|exact D]. destruct (Fr x') as (A & B); [tauto|tauto|]. apply (union_closed q p x (rev (map reverse x')) s' Nx Cx); [apply chained_back; [tauto|exact Cx']|rewrite Forall_app; tauto|rewrite Forall_app; tauto|exact D].
      - destruct H as [H|H]; [discriminate|]. destruct D as (g & z & Ew & Es). assert (g = []) as ->. { destruct g; [reflexivity|]. rewrite Ew, app_length in H. cbn in H. lia. }
        cbn [app rev map] in Es, Ew. assert (Tr : turned_round (w ++ rev (map reverse w')) s') by (exists w, (rev (map reverse w')); split; [reflexivity|]; rewrite Ew, Es; reflexivity). split; [|exact Tr].
        destruct (Fr w') as (A & B); [tauto|tauto|]. apply (union_closed p q w (rev (map reverse w')) s' Nw Cw); [apply chained_back; [tauto|exact Cw']|rewrite Forall_app; tauto|rewrite Forall_app; tauto|exact Tr]. }
    destruct G as (G & Tr). destruct (good_whole s' (o_wind o) false (o_bl o) (o_tr o) G) as (W & Co). exact (conj W (conj Co Tr)).
  - intros -> H. cbn [difference_of] in D. destruct D as (g & z & Ew & Es). destruct g as [|f g]; [rewrite Ew in H; now elim H|].
    apply Bool.not_true_iff_false. intros K. apply contiguous_spec in K. destruct K as (_ & K). cbn [o_segs] in K. cbn [map rev] in Es.
    assert (Pf : piece f) by (destruct P2 as (P2 & _); rewrite Ew in P2; exact (Forall_inv P2)).
    assert (Pz : piece z) by (destruct P2 as (P2 & _); rewrite Ew, Forall_app in P2; destruct P2 as (_ & P2); exact (Forall_inv P2)).
    destruct K as [(c & r1 & Ec & Tc)|(Ch & _)].
    + rewrite Es in Ec. assert (Pc : In c (rev (map reverse g) ++ [reverse f])). { destruct (rev (map reverse g) ++ [reverse f]) as [|c0 r0] eqn:Er0; [destruct (rev (map reverse g)); discriminate|]. injection Ec as <- _. now left. }
      assert (Q : piece c). { apply in_app_or in Pc. destruct Pc as [Pc|[<-|[]]]; [|now apply reverse_piece]. apply in_rev in Pc. apply in_map_iff in Pc. destruct Pc as (u & <- & Iu). apply reverse_piece. destruct P2 as (P2 & _). rewrite Forall_forall in P2. apply P2. rewrite Ew. right. apply in_or_app. now left. }
      destruct Q as [Q|Q]; congruence.
    + rewrite Es, <- app_assoc in Ch. cbn [app] in Ch. apply chain_next in Ch. destruct (reverse_ends f Pf) as (_ & E2 & _). destruct (reverse_ends z Pz) as (E1 & _ & _). rewrite E1, E2 in Ch.
      apply N. rewrite Ew in Cw'. assert (Ep : p = s_start f) by (destruct Cw' as (E' & _); congruence). assert (Eq : q = s_end z) by exact (chained_end _ _ _ _ Cw'). rewrite Ep, Eq. now apply one_point_sym.
Qed.
End Results.
