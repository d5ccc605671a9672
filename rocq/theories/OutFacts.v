(** Facts about adding segments to an outline. *)

From Coq Require Import Reals List Bool ZArith Lra Lia.
From Verif Require Import SegModel SegSpec SegTrig SegFacts SegSplit SegProps CutModel CutSpec OutModel OutSpec.
Import ListNotations.
Open Scope R_scope.

Lemma ty_eqb_spec a b : segty_eqb a b = true <-> a = b.
Proof. destruct a, b; cbn; split; congruence. Qed.
Lemma ty_eqb_not a b : segty_eqb a b = false <-> a <> b.
Proof. destruct a, b; cbn; split; congruence. Qed.

Lemma last_app_one {A} (l : list A) x d : last (l ++ [x]) d = x.
Proof. apply last_last. Qed.

Lemma last_cons {A} (l : list A) x d : last (x :: l) d = last l x.
Proof. revert x d. induction l as [|y l IH]; intros x d; [reflexivity|]. change (last (y :: l) d = last (y :: l) x). now rewrite !IH. Qed.

Lemma snoc_form {A} (f : A) l : f :: l = removelast (f :: l) ++ [last l f].
Proof. rewrite <- (last_cons l f f). apply app_removelast_last. discriminate. Qed.

Lemma chain_cons s t l : chain (s :: t :: l) <-> one_point (s_start t) (s_end s) e8 /\ chain (t :: l).
Proof. reflexivity. Qed.

Lemma chain_app l x m : chain (l ++ x :: m) <-> chain (l ++ [x]) /\ chain (x :: m).
Proof.
  induction l as [|s l IH]; [cbn; tauto|].
  destruct l as [|t l].
  - cbn [app]. rewrite !chain_cons. cbn. tauto.
  - cbn [app] in *. rewrite !chain_cons. tauto.
Qed.

Lemma chain_snoc l x y : chain (l ++ [x; y]) <-> chain (l ++ [x]) /\ one_point (s_start y) (s_end x) e8.
Proof. rewrite (chain_app l x [y]). rewrite chain_cons. cbn. tauto. Qed.

Lemma joined_from_spec l : forall p, joined_from p l = true <-> chain l /\ (forall s r, l = s :: r -> one_point (s_start s) p e8).
Proof.
  induction l as [|s l IH]; intros p; cbn [joined_from].
  - split; [|reflexivity]. intros _. split; [exact I|discriminate].
  - rewrite andb_true_iff, IH, point_matches_spec. destruct l as [|t l].
    + split; [intros (A & _)|intros (_ & A)].
      * split; [exact I|]. intros x r E. injection E as E _. now subst.
      * split; [exact (A s [] eq_refl)|]. split; [exact I|discriminate].
    + rewrite chain_cons. split.
      * intros (A & B & C). split; [split; [exact (C t l eq_refl)|exact B]|]. intros x r E. injection E as E _. now subst.
      * intros ((A & B) & C). split; [exact (C s (t :: l) eq_refl)|]. split; [exact B|]. intros x r E. injection E as E _. now subst.
Qed.

Lemma reverse_ends s : piece s -> s_start (reverse s) = s_end s /\ s_end (reverse s) = s_start s /\ piece (reverse s).
Proof. intros P. destruct (reverse_facts s P) as (A & B & C & _). repeat split; try assumption. unfold piece. now rewrite A. Qed.

Lemma chain_turn l : Forall piece l -> chain l -> chain (rev (map reverse l)).
Proof.
  induction l as [|s l IH]; intros F C; [exact I|].
  inversion F as [|? ? Ps Fl]; subst. destruct l as [|t l]; [exact I|].
  apply chain_cons in C. destruct C as (C1 & C2). cbn [map rev] in *. rewrite <- app_assoc. cbn [app].
  apply chain_snoc. split; [exact (IH Fl C2)|].
  destruct (reverse_ends s Ps) as (S1 & S2 & _). inversion Fl as [|? ? Pt _]; subst. destruct (reverse_ends t Pt) as (T1 & T2 & _).
  rewrite S1, T2. now apply one_point_sym.
Qed.

Lemma ring_form f l : ring (f :: l) <-> chain (f :: l) /\ one_point (s_start f) (s_end (last l f)) e8.
Proof. reflexivity. Qed.

Lemma ring_ends l f x m : f :: l = m ++ [x] -> ring (f :: l) <-> chain (f :: l) /\ one_point (s_start f) (s_end x) e8.
Proof. intros E. rewrite ring_form. rewrite <- (last_cons l f f), E, last_app_one. reflexivity. Qed.

Lemma ring_turn l : Forall piece l -> ring l -> ring (rev (map reverse l)).
Proof.
  intros F R. destruct l as [|f l]; [destruct R as (_ & [])|].
  destruct R as (C & E). pose proof (chain_turn _ F C) as C'.
  set (x := last l f) in *. pose proof (snoc_form f l) as S. fold x in S.
  assert (Px : piece x). { rewrite Forall_forall in F. apply F. rewrite S. apply in_or_app. right. now left. }
  assert (Pf : piece f) by (inversion F; assumption).
  assert (Q : rev (map reverse (f :: l)) = reverse x :: rev (map reverse (removelast (f :: l)))).
  { rewrite S at 1. rewrite map_app, rev_app_distr. reflexivity. }
  pose proof C' as C''. rewrite Q in C''. rewrite Q.
  assert (Q2 : reverse x :: rev (map reverse (removelast (f :: l))) = rev (map reverse l) ++ [reverse f]) by (rewrite <- Q; reflexivity).
  apply (ring_ends _ _ _ _ Q2). split; [exact C''|].
  destruct (reverse_ends x Px) as (A & _ & _). destruct (reverse_ends f Pf) as (_ & B & _). rewrite A, B. now apply one_point_sym.
Qed.

Lemma ring_two s t : piece s -> piece t -> ring [s; t] -> ring [reverse s; reverse t].
Proof.
  intros Ps Pt (C & E). cbn [last] in *. destruct (reverse_ends s Ps) as (S1 & S2 & _). destruct (reverse_ends t Pt) as (T1 & T2 & _).
  apply chain_cons in C. destruct C as (C & _). split; [apply chain_cons; split; [|exact I]|]; cbn [last]; rewrite ?S1, ?S2, ?T1, ?T2; apply one_point_sym; assumption.
Qed.

(** ** [AddSegment] *)

Lemma add_null o : add_segment o None = Some (no, o).
Proof. reflexivity. Qed.

Lemma fits_dec o s : fits o s \/ ~ fits o s.
Proof.
  unfold fits. destruct (o_closed o); [right; intros (A & _); discriminate|].
  destruct (s_ty s) eqn:T.
  - right. intros (_ & [(A & _)|([A|A] & _)]); congruence.
  - destruct (o_segs o) as [|f l].
    + left. split; [reflexivity|]. right. split; [now left|]. intros l t E. destruct l; discriminate.
    + destruct (point_matches (s_end (last l f)) (s_start s) e8) eqn:M.
      * apply point_matches_spec in M. left. split; [reflexivity|]. right. split; [now left|]. intros m t E. rewrite snoc_form in E.
        apply app_inj_tail in E. destruct E as (_ & E). now rewrite <- E.
      * apply point_matches_not in M. right. intros (_ & [(A & _)|(_ & A)]); [congruence|]. apply M. exact (A _ _ (snoc_form f l)).
  - destruct (o_segs o) as [|f l].
    + left. split; [reflexivity|]. right. split; [now right|]. intros l t E. destruct l; discriminate.
    + destruct (point_matches (s_end (last l f)) (s_start s) e8) eqn:M.
      * apply point_matches_spec in M. left. split; [reflexivity|]. right. split; [now right|]. intros m t E. rewrite snoc_form in E.
        apply app_inj_tail in E. destruct E as (_ & E). now rewrite <- E.
      * apply point_matches_not in M. right. intros (_ & [(A & _)|(_ & A)]); [congruence|]. apply M. exact (A _ _ (snoc_form f l)).
  - destruct (o_segs o); [left; split; [reflexivity|left; split; reflexivity]|]. right. intros (_ & [(_ & A)|([A|A] & _)]); congruence.
Qed.

Lemma piece_types s : piece s -> segty_eqb (s_ty s) SNone = false /\ segty_eqb (s_ty s) SCircle = false.
Proof. intros [T|T]; rewrite T; split; reflexivity. Qed.

Lemma add_refused o s : ~ fits o s -> add_segment o (Some s) = Some (no, o).
Proof.
  intros N. unfold add_segment. destruct (segty_eqb (s_ty s) SNone) eqn:T0; [reflexivity|]. apply ty_eqb_not in T0.
  destruct (o_closed o) eqn:C; [reflexivity|].
  destruct (segty_eqb (s_ty s) SCircle) eqn:T1.
  - apply ty_eqb_spec in T1. destruct (o_segs o) eqn:S; [|reflexivity]. exfalso. apply N. split; [exact C|]. left. now split.
  - apply ty_eqb_not in T1. assert (P : piece s) by (unfold piece; destruct (s_ty s); [congruence|now left|now right|congruence]).
    destruct (o_segs o) as [|f l] eqn:S.
    + exfalso. apply N. split; [exact C|]. right. split; [exact P|]. rewrite S. intros l t E. destruct l; discriminate.
    + destruct (point_matches (s_end (last l f)) (s_start s) e8) eqn:M; [|reflexivity]. apply point_matches_spec in M.
      exfalso. apply N. split; [exact C|]. right. split; [exact P|]. rewrite S. intros m t E. rewrite snoc_form in E.
      apply app_inj_tail in E. destruct E as (_ & E). now rewrite <- E.
Qed.

(** What an accepted segment does, as one statement. *)
Definition box_after (o : outline) (s : seg) : pt * pt :=
  match o_segs o with [] => snd (get_box s (o_bl o) (o_tr o)) | _ => join_box (o_bl o, o_tr o) (seg_box s) end.

Lemma add_open o s : fits o s -> ~ closes o s ->
  add_segment o (Some s) = Some (yes, mkOut (o_segs o ++ [s]) false (o_wind o + wind_of s) (o_bbok o) (fst (box_after o s)) (snd (box_after o s))).
Proof.
  intros (C & [(T & E)|(P & L)]) N; [exfalso; apply N; now left|].
  destruct (piece_types s P) as (T0 & T1). unfold add_segment, box_after. rewrite T0, C, T1.
  destruct (o_segs o) as [|f l] eqn:S; [reflexivity|].
  rewrite (proj2 (point_matches_spec _ _ _) (L _ _ (snoc_form f l))). cbn [negb].
  destruct (point_matches (s_end s) (s_start f) e8) eqn:M; [|reflexivity].
  apply point_matches_spec in M. exfalso. apply N. right. exists f, l. now split.
Qed.

Definition segs_after (o : outline) (s : seg) : list seg :=
  let segs := o_segs o ++ [s] in
  if segty_eqb (s_ty s) SCircle then [s]
  else if ltb 0 (o_wind o + wind_of s) then (if Nat.eqb (length segs) 2 then map reverse segs else rev (map reverse segs)) else segs.
Definition wind_after (o : outline) (s : seg) : R := if segty_eqb (s_ty s) SCircle then o_wind o else o_wind o + wind_of s.

Lemma add_closing o s : fits o s -> closes o s ->
  add_segment o (Some s) =
  match adjust_box (box_after o s) with
  | None => None
  | Some (bl, tr) => Some (yes, mkOut (segs_after o s) true (wind_after o s) true bl tr)
  end.
Proof.
  intros (C & [(T & E)|(P & L)]) K; unfold add_segment, box_after, segs_after, wind_after.
  - rewrite T, C, E. cbn [segty_eqb]. destruct (adjust_box _) as [(bl & tr)|]; reflexivity.
  - destruct (piece_types s P) as (T0 & T1). rewrite T0, C, T1. destruct K as [K|(f & l & S & K)]; [rewrite K in T1; discriminate|].
    rewrite S in *. rewrite (proj2 (point_matches_spec _ _ _) (L _ _ (snoc_form f l))). cbn [negb].
    rewrite (proj2 (point_matches_spec _ _ _) K). destruct (adjust_box _) as [(bl & tr)|]; reflexivity.
Qed.

Lemma closes_dec o s : closes o s \/ ~ closes o s.
Proof.
  unfold closes. destruct (segty_eqb (s_ty s) SCircle) eqn:T; [apply ty_eqb_spec in T; left; now left|]. apply ty_eqb_not in T.
  destruct (o_segs o) as [|f l]; [right; intros [A|(f & l & A & _)]; [congruence|discriminate]|].
  destruct (point_matches (s_end s) (s_start f) e8) eqn:M.
  - apply point_matches_spec in M. left. right. exists f, l. now split.
  - apply point_matches_not in M. right. intros [A|(g & m & A & B)]; [congruence|]. injection A as A1 A2. subst. now apply M.
Qed.

(** All outcomes of adding a segment. *)
Lemma add_cases o s : 
  (~ fits o s /\ add_segment o (Some s) = Some (no, o)) \/
  (fits o s /\ ~ closes o s /\ exists w bl tr, add_segment o (Some s) = Some (yes, mkOut (o_segs o ++ [s]) false w (o_bbok o) bl tr)) \/
  (fits o s /\ closes o s /\ (add_segment o (Some s) = None \/
     exists l w bl tr, add_segment o (Some s) = Some (yes, mkOut l true w true bl tr) /\ (l = o_segs o ++ [s] \/ turned (o_segs o ++ [s]) l))).
Proof.
  destruct (fits_dec o s) as [F|F]; [|left; split; [exact F|now apply add_refused]].
  right. destruct (closes_dec o s) as [K|K]; [right|left; split; [exact F|split; [exact K|]]].
  - split; [exact F|split; [exact K|]]. rewrite (add_closing o s F K). destruct (adjust_box _) as [(bl & tr)|]; [|now left].
    right. exists (segs_after o s), (wind_after o s), bl, tr. split; [reflexivity|]. unfold segs_after.
    destruct (segty_eqb (s_ty s) SCircle) eqn:T.
    + left. destruct F as (_ & [(_ & E)|(P & _)]); [now rewrite E|]. destruct (piece_types s P) as (_ & X). congruence.
    + destruct (ltb _ _); [|now left]. right. destruct (Nat.eqb (length (o_segs o ++ [s])) 2) eqn:L; [|now left].
      apply Nat.eqb_eq in L. right. destruct (o_segs o ++ [s]) as [|a [|b [|? ?]]]; try discriminate. exists a, b. now split.
  - rewrite (add_open o s F K). repeat eexists.
Qed.

(** ** What holds of every outline made by adding segments *)

Lemma chain_add l s : chain l -> (forall m t, l = m ++ [t] -> one_point (s_end t) (s_start s) e8) -> chain (l ++ [s]).
Proof.
  intros C L. destruct l as [|f l]; [exact I|]. pose proof (snoc_form f l) as S. specialize (L _ _ S). rewrite S in C |- *. rewrite <- app_assoc. cbn [app].
  apply chain_snoc. split; [exact C|now apply one_point_sym].
Qed.

Lemma shape_add o a r o' : shape o -> add_segment o a = Some (r, o') -> shape o'.
Proof.
  intros H A. destruct a as [s|]; [|now injection A as _ <-].
  destruct (add_cases o s) as [(_ & E)|[(F & K & w & bl & tr & E)|(F & K & [E|(l & w & bl & tr & E & T)])]]; rewrite E in A; [injection A as _ <-; exact H| | |].
  - injection A as _ <-. unfold shape in *. cbn [o_closed o_segs]. destruct F as (C & [(T & _)|(P & L)]); [exfalso; apply K; now left|].
    rewrite C in H. destruct H as (H1 & H2). split; [apply Forall_app; split; [exact H1|now constructor]|]. now apply chain_add.
  - discriminate.
  - injection A as _ <-. unfold shape in *. cbn [o_closed o_segs]. destruct F as (C & [(T' & Z)|(P & L)]).
    + left. exists s. split; [|exact T']. rewrite Z in T. cbn [app] in T. destruct T as [T|[T|(? & ? & X & _)]]; [exact T| |discriminate].
      cbn in T. now rewrite reverse_round in T by now left.
    + rewrite C in H. destruct H as (H1 & H2). right.
      destruct K as [K|(f & m & S & K)]; [destruct P; congruence|].
      assert (F : Forall piece (o_segs o ++ [s])) by (apply Forall_app; split; [exact H1|now constructor]).
      assert (R : ring (o_segs o ++ [s])).
      { pose proof (chain_add _ _ H2 L) as CH. rewrite S in CH |- *. cbn [app] in *. apply (ring_ends _ _ s (f :: m)); [reflexivity|]. split; [exact CH|now apply one_point_sym]. }
      assert (N : (2 <= length (o_segs o ++ [s]))%nat) by (rewrite app_length, S; cbn; lia).
      destruct T as [T|[T|(x & y & X & T)]]; subst l.
      * now split.
      * split; [|split; [now apply ring_turn|now rewrite rev_length, map_length]].
        apply Forall_rev. rewrite Forall_forall in *. intros x I. apply in_map_iff in I. destruct I as (z & <- & I). exact (proj2 (proj2 (reverse_ends z (F z I)))).
      * rewrite X in F, R. inversion F as [|? ? Px Fy]; subst. inversion Fy as [|? ? Py _]; subst.
        split; [|split; [now apply ring_two|cbn; lia]]. constructor; [exact (proj2 (proj2 (reverse_ends x Px)))|]. constructor; [exact (proj2 (proj2 (reverse_ends y Py)))|constructor].
Qed.

Lemma built_shape P o : built P o -> shape o.
Proof.
  induction 1 as [|o a r o' _ IH _ A]; [|exact (shape_add o a r o' IH A)]. unfold shape. cbn. split; [constructor|exact I].
Qed.

(** [IsContiguous] of an outline. *)
Lemma contiguous_spec o : is_contiguous o = true <->
  o_closed o = true /\ ((exists c l, o_segs o = c :: l /\ s_ty c = SCircle) \/ ring (o_segs o)).
Proof.
  unfold is_contiguous. destruct (o_segs o) as [|f l]; [split; [discriminate|intros (_ & [(? & ? & A & _)|(_ & [])]); discriminate]|].
  destruct (o_closed o); cbn [negb]; [|split; [discriminate|intros (A & _); discriminate]].
  destruct (segty_eqb (s_ty f) SCircle) eqn:T.
  - apply ty_eqb_spec in T. split; [|reflexivity]. intros _. split; [reflexivity|]. left. exists f, l. now split.
  - apply ty_eqb_not in T. rewrite joined_from_spec. split.
    + intros (C & A). split; [reflexivity|]. right. split; [exact C|]. exact (A f l eq_refl).
    + intros (_ & [(c & m & A & B)|(C & A)]); [injection A as A1 A2; subst; contradiction|]. split; [exact C|]. intros s r E. injection E as E _. now subst.
Qed.

Lemma built_contiguous P o : built P o -> is_contiguous o = o_closed o.
Proof.
  intros B. pose proof (built_shape P o B) as S. unfold shape in S. destruct (o_closed o) eqn:C.
  - apply contiguous_spec. split; [exact C|]. destruct S as [(c & E & T)|(_ & R & _)]; [left; exists c, []; now split|now right].
  - unfold is_contiguous. rewrite C. now destruct (o_segs o).
Qed.
