(** Merging an outline with a circle or cutting the circle out: what is left of the
    course of segments. *)

From Coq Require Import Reals List Bool ZArith Arith Lra Lia.
From Verif Require Import SegModel SegSpec SegTrig SegFacts SegSplit SegProps CutModel CutSpec CutCases OutModel OutSpec OutFacts OutBox.
Import ListNotations.
Open Scope R_scope.

(** ** Courses *)

Fixpoint follows (p : pt) (l : list seg) (q : pt) : Prop :=
  match l with
  | [] => p = q
  | s :: l' => one_point (s_start s) p e8 /\ follows (s_end s) l' q
  end.

Lemma follows_app p l1 l2 q : follows p (l1 ++ l2) q <-> exists m, follows p l1 m /\ follows m l2 q.
Proof.
  revert p. induction l1 as [|s l IH]; intros p; cbn [app follows].
  - split; [intros H; exists p; now split|intros (m & -> & H); exact H].
  - rewrite IH. split.
    + intros (A & m & B & C). exists m. repeat split; assumption.
    + intros (m & (A & B) & C). split; [exact A|]. exists m. now split.
Qed.

Lemma follows_end p l s q : follows p (l ++ [s]) q -> q = s_end s.
Proof. intros H. apply follows_app in H. destruct H as (m & _ & (_ & E)). now cbn in E. Qed.

Lemma follows_chain s l p q : follows p (s :: l) q <-> one_point (s_start s) p e8 /\ chain (s :: l) /\ q = s_end (last l s).
Proof.
  revert s p. induction l as [|t l IH]; intros s p.
  - cbn. split; [intros (A & B); repeat split; auto|intros (A & _ & B); split; auto].
  - change (follows p (s :: t :: l) q) with (one_point (s_start s) p e8 /\ follows (s_end s) (t :: l) q). rewrite IH, chain_cons.
    rewrite last_cons. tauto.
Qed.

Lemma ring_follows l : ring l <-> l <> [] /\ exists q, follows q l q.
Proof.
  destruct l as [|s l]; [split; [intros (_ & [])|intros (N & _); now destruct N]|].
  rewrite ring_form. split.
  - intros (C & E). split; [discriminate|]. exists (s_end (last l s)). apply follows_chain. now repeat split.
  - intros (_ & q & F). apply follows_chain in F. destruct F as (A & C & ->). now split.
Qed.

Lemma follows_from p p' s l q : follows p (s :: l) q -> one_point (s_start s) p' e8 -> follows p' (s :: l) q.
Proof. intros (_ & F) A. now split. Qed.

(** ** Replacing a part of the course *)

Lemma from_start_spec p l r : from_start p l = Some r -> exists l0 s r', l = l0 ++ r /\ r = s :: r' /\ one_point (s_start s) p e8.
Proof.
  induction l as [|s l IH]; [discriminate|]. cbn [from_start]. destruct (point_matches (s_start s) p e8) eqn:M.
  - intros E. injection E as <-. apply point_matches_spec in M. exists [], s, l. now repeat split.
  - intros E. destruct (IH E) as (l0 & t & r' & -> & -> & H). exists (s :: l0), t, r'. now repeat split.
Qed.

Lemma firstn_last k (l : list seg) : (k < length l)%nat -> firstn (S k) l = firstn k l ++ [nth k l seg_init].
Proof.
  revert l. induction k as [|k IH]; intros [|s l] H; cbn in H; try lia; [reflexivity|]. cbn [firstn nth app]. f_equal. apply IH. lia.
Qed.

Lemma replace_spec (P : seg -> Prop) l k f0 f1 sp l2 : ring l -> (k < length l)%nat -> one_point (s_end (nth k l seg_init)) f0 e8 ->
  s_start sp = f0 -> s_end sp = f1 -> P sp -> Forall P l -> replace_after l k f1 sp = Some l2 -> ring l2 /\ Forall P l2.
Proof.
  intros R K M Hs E Ps Fl H. apply ring_follows in R. destruct R as (_ & q & R).
  rewrite <- (firstn_skipn (S k) l) in R, Fl. apply Forall_app in Fl. destruct Fl as (Fa & Fb). apply follows_app in R. destruct R as (m & Ra & Rb).
  assert (Em : m = s_end (nth k l seg_init)). { rewrite (firstn_last k l K) in Ra. exact (follows_end _ _ _ _ Ra). }
  assert (Sp : one_point (s_start sp) m e8) by (rewrite Hs, Em; now apply one_point_sym).
  unfold replace_after in H. destruct (from_start f1 (skipn (S k) l)) as [r|] eqn:F1.
  - injection H as <-. apply from_start_spec in F1. destruct F1 as (l0 & s & r' & E1 & -> & T). rewrite E1 in Rb, Fb.
    apply Forall_app in Fb. apply follows_app in Rb. destruct Rb as (m' & _ & Rb). split.
    + apply ring_follows. split; [intros N; apply app_eq_nil in N; destruct N; discriminate|]. exists q. apply follows_app. exists m. split; [exact Ra|]. split; [exact Sp|]. rewrite E. exact (follows_from _ _ _ _ _ Rb T).
    + apply Forall_app. split; [exact Fa|]. constructor; [exact Ps|exact (proj2 Fb)].
  - destruct (from_start f1 (firstn (S k) l)) as [r|] eqn:F2; [|discriminate]. injection H as <-.
    apply from_start_spec in F2. destruct F2 as (l0 & s & r' & E1 & -> & T). rewrite E1 in Ra, Fa. apply Forall_app in Fa. apply follows_app in Ra. destruct Ra as (m' & _ & Ra). split.
    + apply ring_follows. split; [discriminate|]. exists m. split; [exact Sp|]. rewrite E. exact (follows_from _ _ _ _ _ Ra T).
    + constructor; [exact Ps|exact (proj2 Fa)].
Qed.

(** ** Splitting a segment of the course *)

Lemma split_one s p ps s' n : piece s -> flat s -> in_plane p -> split s [p] = (true, (ps, (s', n))) ->
  exists m, n = [m] /\ s_start s' = s_start s /\ s_end s' = p /\ s_start m = p /\ s_end m = s_end s /\ piece s' /\ piece m /\ flat s' /\ flat m.
Proof.
  intros P (Z0 & Z1) Zp H. unfold split in H.
  destruct P as [T|T]; rewrite T in H; cbn [length filter] in H;
    (destruct (negb (point_matches p (s_start s) e8 || point_matches p (s_end s) e8)) eqn:K; [|cbn in H; discriminate]);
    apply keep_spec in K; cbn [split_line split_arc] in H.
  - destruct (line_param s p); [|discriminate]. injection H as _ <- <-. exists (snd (set_line p (s_end s))).
    rewrite set_line_good; [|exact Zp|exact Z1|intros N; apply K; now right]. unfold with_end, piece, flat. cbn. rewrite T. repeat split; auto.
  - destruct (arc_angle s p) as [a|]; [|discriminate]. injection H as _ <- <-. eexists. split; [reflexivity|]. unfold with_arc_end, new_arc, piece, flat. cbn. rewrite T. repeat split; auto.
Qed.

Lemma follows_split p s s' n q A B : s_start s' = s_start s -> s_end n = s_end s -> one_point (s_start n) (s_end s') e8 ->
  follows p (A ++ s :: B) q -> follows p (A ++ s' :: n :: B) q.
Proof.
  intros E1 E2 M H. apply follows_app in H. destruct H as (m & Ha & (S & Hb)). apply follows_app. exists m. split; [exact Ha|].
  cbn [follows]. rewrite E1, E2. now repeat split.
Qed.

Lemma nth_cut i (l : list seg) : (i < length l)%nat -> l = firstn i l ++ nth i l seg_init :: skipn (S i) l.
Proof.
  revert l. induction i as [|i IH]; intros [|s l] H; cbn in H; try lia; [reflexivity|]. cbn [firstn nth app skipn]. f_equal. apply IH. lia.
Qed.

Definition fine (l : list seg) : Prop := Forall piece l /\ Forall flat l /\ ring l.

Lemma split_at_spec l i p l' : fine l -> (i < length l)%nat -> in_plane p -> split_at l i p = Some l' ->
  fine l' /\ length l' = S (length l) /\ s_end (nth i l' seg_init) = p /\
  (forall j, (j < i)%nat -> nth j l' seg_init = nth j l seg_init) /\ (forall j, (i < j)%nat -> nth (S j) l' seg_init = nth j l seg_init).
Proof.
  intros (Fp & Ff & R) L Zp H. unfold split_at in H. pose proof (nth_cut i l L) as E. set (s := nth i l seg_init) in *.
  assert (I : In s l) by (now apply nth_In). rewrite Forall_forall in Fp, Ff.
  destruct (split s [p]) as (ok & ps & s' & n) eqn:Sq. destruct ok; [|discriminate].
  destruct (split_one s p ps s' n (Fp s I) (Ff s I) Zp Sq) as (m & -> & E1 & E2 & E3 & E4 & P1 & P2 & F1 & F2). assert (Hl : l' = firstn i l ++ s' :: m :: skipn (S i) l) by (injection H as H; now symmetry). clear H. subst l'.
  assert (Sub : forall t, In t (firstn i l) \/ In t (skipn (S i) l) -> In t l) by (intros t K; rewrite E; apply in_or_app; destruct K; [now left|right; now right]).
  assert (Li : length (firstn i l) = i) by (rewrite firstn_length; lia).
  split; [split; [|split]|split; [|split; [|split]]].
  - apply Forall_forall. intros t K. apply in_app_or in K. destruct K as [K|[<-|[<-|K]]]; [apply Fp, Sub; now left|exact P1|exact P2|apply Fp, Sub; now right].
  - apply Forall_forall. intros t K. apply in_app_or in K. destruct K as [K|[<-|[<-|K]]]; [apply Ff, Sub; now left|exact F1|exact F2|apply Ff, Sub; now right].
  - apply ring_follows in R. destruct R as (_ & q & R). apply ring_follows. split; [intros N; apply app_eq_nil in N; destruct N; discriminate|].
    exists q. rewrite E in R. apply (follows_split q s); try assumption. rewrite E3, E2. apply one_point_refl.
  - pose proof (f_equal (@length seg) E) as EL. rewrite app_length in EL |- *. cbn [length] in EL |- *. lia.
  - rewrite app_nth2, Li, Nat.sub_diag by lia. exact E2.
  - intros j J. transitivity (nth j (firstn i l ++ s :: skipn (S i) l) seg_init); [|now rewrite <- E]. now rewrite !app_nth1 by lia.
  - intros j J. transitivity (nth j (firstn i l ++ s :: skipn (S i) l) seg_init); [|now rewrite <- E]. rewrite !app_nth2 by lia. rewrite Li.
    replace (S j - i)%nat with (S (S (j - S i))) by lia. replace (j - i)%nat with (S (j - S i)) by lia. reflexivity.
Qed.

(** ** The points met *)

Lemma collect_spec l c sub : forall i r, collect i l c sub = inr r -> forall p j, In (p, j) r -> (i <= j < i + length l)%nat /\ reported (nth (j - i) l seg_init) c p.
Proof.
  induction l as [|s l IH]; intros i r H p j I; cbn [collect] in H; [injection H as <-; destruct I|].
  assert (Next : forall r', collect (S i) l c sub = inr r' -> In (p, j) r' -> (i <= j < i + length (s :: l))%nat /\ reported (nth (j - i) (s :: l) seg_init) c p).
  { intros r' E K. destruct (IH (S i) r' E p j K) as (B & Q). cbn [length]. split; [lia|]. replace (j - i)%nat with (S (j - S i)) by lia. exact Q. }
  destruct (intersections s c) as (ok & ps & f) eqn:E. destruct ok.
  - assert (Here : forall r', r = map (fun p => (p, i)) ps ++ r' -> collect (S i) l c sub = inr r' -> (i <= j < i + length (s :: l))%nat /\ reported (nth (j - i) (s :: l) seg_init) c p).
    { intros r' -> Er. apply in_app_or in I. destruct I as [I|I]; [|now apply (Next r')].
      apply in_map_iff in I. destruct I as (x & X & I). injection X as -> ->. cbn [length]. split; [lia|]. rewrite Nat.sub_diag. cbn [nth]. unfold reported. rewrite E. exact I. }
    destruct f; try discriminate; (destruct (collect (S i) l c sub) as [b|r'] eqn:Er; [discriminate|]; injection H as H; apply (Here r'); [now symmetry|reflexivity]).
  - destruct f; try discriminate. now apply (Next r).
Qed.

Lemma distinct_spec l : forall acc, (forall i j u v, nth_error acc i = Some u -> nth_error acc j = Some v -> (i < j)%nat -> ~ one_point (fst u) (fst v) e8) ->
  (forall u, In u (distinct acc l) -> In u acc \/ In u l) /\
  (forall i j u v, nth_error (distinct acc l) i = Some u -> nth_error (distinct acc l) j = Some v -> (i < j)%nat -> ~ one_point (fst u) (fst v) e8).
Proof.
  induction l as [|v l IH]; intros acc H; cbn [distinct]; [split; [now left|exact H]|].
  destruct (existsb (fun u => point_matches (fst u) (fst v) e8) acc) eqn:X.
  - destruct (IH acc H) as (A & B). split; [|exact B]. intros u I. destruct (A u I); [now left|right; now right].
  - assert (N : forall u, In u acc -> ~ one_point (fst u) (fst v) e8).
    { intros u I M. apply point_matches_spec in M. assert (Y : existsb (fun u => point_matches (fst u) (fst v) e8) acc = true) by (apply existsb_exists; now exists u). congruence. }
    destruct (IH (acc ++ [v])) as (A & B).
    + intros i j u w U W L. assert (Lj : (j < length (acc ++ [v]))%nat) by (apply nth_error_Some; congruence). rewrite app_length in Lj. cbn in Lj.
      rewrite nth_error_app1 in U by lia. destruct (Nat.eq_dec j (length acc)) as [->|Nj].
      * rewrite nth_error_app2, Nat.sub_diag in W by lia. injection W as <-. apply N. now apply nth_error_In in U.
      * rewrite nth_error_app1 in W by lia. now apply (H i j).
    + split; [|exact B]. intros u I. destruct (A u I) as [K|K]; [|right; now right]. apply in_app_or in K. destruct K as [K|[<-|[]]]; [now left|right; now left].
Qed.

Lemma is_end_spec p s : piece s -> is_end_of p s = true <-> tip s p.
Proof.
  intros P. unfold is_end_of, tip. rewrite (proj2 (piece_types s P)). cbn [negb andb]. rewrite orb_true_iff. unfold get_start, get_end.
  destruct (s_cw s); rewrite !point_matches_spec; tauto.
Qed.

(** ** The whole operation *)

Section Splice.
Variables (o : outline) (sp : seg) (f0 f1 : pt) (e0 e1 : bool) (i0 i1 : nat).
Hypothesis (Fl : fine (o_segs o)) (Sp : piece sp) (Fs : flat sp) (S0 : s_start sp = f0) (S1 : s_end sp = f1).
Hypothesis (I0 : (i0 < length (o_segs o))%nat) (I1 : (i1 < length (o_segs o))%nat).

Lemma splice_joined r o' : op_splice o sp f0 f1 e0 e1 i0 i1 = (r, o') -> fst r = true -> r = yes /\ o_closed o' = o_closed o /\ fine (o_segs o').
Proof.
  intros H T. assert (Z0 : in_plane f0) by (rewrite <- S0; apply Fs). assert (Z1 : in_plane f1) by (rewrite <- S1; apply Fs).
  unfold op_splice in H. destruct (if e0 then Some (o_segs o) else split_at (o_segs o) i0 f0) as [l0|] eqn:E0; [|injection H as <- <-; discriminate].
  assert (L0 : fine l0 /\ (length (o_segs o) <= length l0)%nat /\ (e0 = false -> length l0 = S (length (o_segs o)))).
  { destruct e0; [injection E0 as <-; split; [exact Fl|split; [lia|discriminate]]|]. destruct (split_at_spec _ _ _ _ Fl I0 Z0 E0) as (A & B & _). split; [exact A|]. split; [lia|now intros _]. }
  destruct L0 as (L0 & N0 & N0'). set (i1' := if negb e0 && (i0 <? i1)%nat then S i1 else i1) in *.
  assert (J1 : (i1' < length l0)%nat) by (unfold i1'; destruct e0; cbn [negb andb]; [lia|]; specialize (N0' eq_refl); destruct (i0 <? i1)%nat; lia).
  destruct (if e1 then Some l0 else split_at l0 i1' f1) as [l1|] eqn:E1; [|injection H as <- <-; discriminate].
  assert (L1 : fine l1 /\ (length l0 <= length l1)%nat /\ (e1 = false -> length l1 = S (length l0))).
  { destruct e1; [injection E1 as <-; split; [exact L0|split; [lia|discriminate]]|]. destruct (split_at_spec _ _ _ _ L0 J1 Z1 E1) as (A & B & _). split; [exact A|]. split; [lia|now intros _]. }
  destruct L1 as (L1 & N1 & N1'). set (i0' := if negb e1 && (i1' <? i0)%nat then S i0 else i0) in *.
  assert (J0 : (i0' < length l1)%nat) by (unfold i0'; destruct e1; cbn [negb andb]; [lia|]; specialize (N1' eq_refl); destruct (i1' <? i0)%nat; lia).
  set (k := if point_matches (s_end (nth i0' l1 seg_init)) f0 e8 then i0' else if Nat.eqb i0' 0 then (length l1 - 1)%nat else (i0' - 1)%nat) in *.
  assert (K : (k < length l1)%nat). { unfold k. destruct (point_matches _ _ _); [exact J0|]. destruct (Nat.eqb i0' 0); lia. }
  destruct (point_matches (s_end (nth k l1 seg_init)) f0 e8) eqn:M; cbn [negb] in H; [|injection H as <- <-; discriminate].
  apply point_matches_spec in M. destruct (replace_after l1 k f1 sp) as [l2|] eqn:R; [|injection H as <- <-; discriminate].
  injection H as <- <-. split; [reflexivity|]. split; [reflexivity|]. cbn [with_segs o_segs]. destruct L1 as (Fp & Ff & Rg).
  destruct (replace_spec piece l1 k f0 f1 sp l2 Rg K M S0 S1 Sp Fp R) as (G & Gp). destruct (replace_spec flat l1 k f0 f1 sp l2 Rg K M S0 S1 Fs Ff R) as (_ & Gf).
  repeat split; assumption || apply G.
Qed.
End Splice.

Lemma set_arc_true c a b cw sp : set_arc c a b cw = (true, sp) -> ~ one_point a b e8 ->
  s_ty sp = SArc /\ s_start sp = a /\ s_end sp = b /\ s_cen sp = c /\ in_plane a /\ in_plane b.
Proof.
  intros E N. destruct (set_arc_spec c a b cw) as (A & _ & _ & B). rewrite E in A, B. cbn [fst snd] in *. rewrite (B eq_refl N).
  destruct (proj1 A eq_refl) as (_ & Za & Zb & _). repeat split; assumption || reflexivity.
Qed.

Lemma op_joined o c sub r o' : whole o -> (forall s, In s (o_segs o) -> piece s -> ~ met_twice s c) ->
  op_circle o (Some c) sub = (r, o') -> fst r = true -> r = yes /\ whole o' /\ is_contiguous o' = true.
Proof.
  intros (Cl & Sh) Nt H T.
  enough (W : r = yes /\ whole o').
  { destruct W as (-> & W). split; [reflexivity|]. split; [exact W|]. apply contiguous_spec. destruct W as (C' & [(x & E & X)|(_ & _ & R)]); split; try exact C'; [left; exists x, []; now split|now right]. }
  unfold op_circle in H. cbn [o_closed o_segs o_wind o_bl o_tr] in H. rewrite Cl in H. cbn [negb] in H.
  destruct (negb (segty_eqb (s_ty c) SCircle)); [injection H as <- <-; discriminate|].
  destruct (collect 0 (o_segs o) c sub) as [e|meets] eqn:Co; [injection H as <- <-; discriminate|].
  destruct meets as [|m0 ms]; [injection H as <- <-; discriminate|]. set (meets := m0 :: ms) in *.
  destruct (distinct [] meets) as [|(pa & ia) [|(pb & ib) [|? ?]]] eqn:Di; try (injection H as <- <-; discriminate).
  destruct (distinct_spec meets []) as (Dm & Dd); [intros i j u v U; destruct i; discriminate|]. rewrite Di in Dm, Dd.
  assert (Ma : In (pa, ia) meets) by (destruct (Dm (pa, ia) (or_introl eq_refl)) as [[]|K]; exact K).
  assert (Mb : In (pb, ib) meets) by (destruct (Dm (pb, ib) (or_intror (or_introl eq_refl))) as [[]|K]; exact K).
  pose proof (Dd 0%nat 1%nat _ _ eq_refl eq_refl ltac:(lia)) as Nab. cbn [fst] in Nab.
  destruct (collect_spec _ _ _ _ _ Co _ _ Ma) as (Ba & Ra). destruct (collect_spec _ _ _ _ _ Co _ _ Mb) as (Bb & Rb). rewrite Nat.sub_0_r in Ra, Rb. cbn [Nat.add] in Ba, Bb.
  destruct (middles c pa pb) as (m1 & m2).
  set (ob := mkOut (o_segs o) true (o_wind o) false (o_bl o) (o_tr o)) in *.
  destruct (Bool.eqb (fst (is_inside ob m2 false)) (fst (is_inside ob m1 false))); [injection H as <- <-; discriminate|].
  set (in1 := fst (is_inside ob m1 false)) in *. cbv zeta in H.
  set (f0 := if in1 then pb else pa) in *. set (f1 := if in1 then pa else pb) in *. set (i0 := if in1 then ib else ia) in *. set (i1 := if in1 then ia else ib) in *.
  assert (N01 : ~ one_point f0 f1 e8) by (unfold f0, f1; destruct in1; [intros K; apply Nab; now apply one_point_sym|exact Nab]).
  assert (M0 : In (f0, i0) meets) by (unfold f0, i0; destruct in1; assumption). assert (M1 : In (f1, i1) meets) by (unfold f1, i1; destruct in1; assumption).
  assert (B0 : (i0 < length (o_segs o))%nat) by (unfold i0; destruct in1; lia). assert (B1 : (i1 < length (o_segs o))%nat) by (unfold i1; destruct in1; lia).
  assert (R0 : reported (nth i0 (o_segs o) seg_init) c f0) by (unfold f0, i0; destruct in1; assumption). assert (R1 : reported (nth i1 (o_segs o) seg_init) c f1) by (unfold f1, i1; destruct in1; assumption).
  destruct (set_arc (s_cen c) f0 f1 sub) as (ok & sp) eqn:Sa. destruct ok; [|injection H as <- <-; discriminate].
  destruct (set_arc_true _ _ _ _ _ Sa N01) as (Ts & Ss & Se & _ & Z0 & Z1).
  assert (Fsp : flat sp) by (split; rewrite ?Ss, ?Se; assumption).
  destruct (o_segs o) as [|s l] eqn:So; [injection H as <- <-; discriminate|].
  destruct (segty_eqb (s_ty s) SCircle) eqn:Tc.
  - apply ty_eqb_spec in Tc. destruct (split s [f0; f1]) as (ok & ps & s' & n) eqn:Sl. destruct ok; [|injection H as <- <-; discriminate]. injection H as <- <-.
    split; [reflexivity|]. split; [reflexivity|]. right. cbn [with_segs o_segs].
    destruct Sh as [(x & X & _)|(F & _)]; [|inversion F as [|? ? Px]; destruct Px; congruence]. injection X as -> ->. cbn [tl app].
    unfold split in Sl. rewrite Tc in Sl. cbn [length] in Sl. unfold split_circle in Sl.
    destruct (ltb (Rabs (px f0 - px f1)) e8 && ltb (Rabs (py f0 - py f1)) e8); [discriminate|]. cbv zeta in Sl.
    match type of Sl with context [if ?b then _ else _] => destruct b; [discriminate|] end. cbn [fst snd] in Sl. injection Sl as _ <- _.
    unfold ccw_arc. split; [|split].
    + constructor; [now right|]. constructor; [now right|constructor].
    + constructor; [split; assumption|]. constructor; [exact Fsp|constructor].
    + split.
      * cbn [chain]. rewrite Ss. cbn [s_end]. split; [apply one_point_refl|exact I].
      * cbn [last s_start]. rewrite Se. apply one_point_refl.
  - assert (Fi : fine (s :: l)). { destruct Sh as [(x & X & Xc)|(A & B & C)]; [injection X as -> ->; rewrite Xc in Tc; discriminate|]. repeat split; assumption || apply C. }
    assert (Same : negb (existsb (fun m => is_end_of f0 (nth (snd m) (s :: l) seg_init)) meets) && negb (existsb (fun m => is_end_of f1 (nth (snd m) (s :: l) seg_init)) meets) && Nat.eqb i0 i1 = false).
    { destruct (Nat.eqb i0 i1) eqn:Ei; [|now rewrite andb_false_r]. apply Nat.eqb_eq in Ei. rewrite andb_true_r.
      destruct (negb (existsb (fun m => is_end_of f0 (nth (snd m) (s :: l) seg_init)) meets)) eqn:X0; [|reflexivity].
      destruct (negb (existsb (fun m => is_end_of f1 (nth (snd m) (s :: l) seg_init)) meets)) eqn:X1; [|reflexivity]. exfalso.
      apply negb_true_iff in X0, X1. set (t := nth i0 (s :: l) seg_init). assert (It : In t (s :: l)) by (now apply nth_In).
      assert (Pt : piece t) by (destruct Fi as (Fp & _); rewrite Forall_forall in Fp; now apply Fp).
      apply (Nt t It Pt). exists f0, f1. split; [exact R0|]. split; [unfold t; rewrite Ei; exact R1|]. split; [exact N01|]. split.
      - intros K. apply (is_end_spec f0 t Pt) in K. assert (Y : existsb (fun m => is_end_of f0 (nth (snd m) (s :: l) seg_init)) meets = true) by (apply existsb_exists; exists (f0, i0); now split). congruence.
      - intros K. apply (is_end_spec f1 t Pt) in K. assert (Y : existsb (fun m => is_end_of f1 (nth (snd m) (s :: l) seg_init)) meets = true).
        { apply existsb_exists. exists (f1, i1). split; [exact M1|]. cbn [snd]. rewrite <- Ei. exact K. } congruence. }
    rewrite Same in H.
    assert (Psp : piece sp) by (now right).
    destruct (splice_joined ob sp f0 f1 _ _ i0 i1 Fi Psp Fsp Ss Se B0 B1 r o' H T) as (-> & C' & F').
    split; [reflexivity|]. split; [rewrite C'; reflexivity|]. right. exact F'.
Qed.
