(** Adding to an outline keeps the invariant. *)

From Coq Require Import List Bool Arith Lia Permutation.
From Verif Require Import GhModel GhSpec GhTree GhInv.
Import ListNotations.

(** A place in a tree: the root itself, or one of its cutouts. *)
Inductive ctx := Here | Below (p : nat) (b : bool) (ss : list nat) (c1 c2 : list gt) (hh : list nat).
Definition plug (C : ctx) (n : gt) : gt :=
  match C with Here => n | Below p b ss c1 c2 hh => N p b ss (c1 ++ n :: c2) hh end.
Definition cids (C : ctx) : list nat :=
  match C with Here => [] | Below p b ss c1 c2 hh => p :: ss ++ flat_map ids c1 ++ flat_map ids c2 ++ hh end.
Definition inn (C : ctx) (fl : list nat) : list nat := match C with Here => fl | Below _ _ _ _ _ _ => [] end.

Definition same_top (n n' : gt) : Prop :=
  root n = root n' /\
  match n, n' with L _, L _ => True | N _ b _ _ _, N _ b' _ _ _ => b = b' | _, _ => False end.

Lemma same_top_refl n : same_top n n.
Proof. destruct n; split; reflexivity || exact Logic.I. Qed.
Lemma same_top_trans a b c : same_top a b -> same_top b c -> same_top a c.
Proof. intros [H1 H2] [H3 H4]. split; [congruence|]. destruct a, b, c; auto; try contradiction. congruence. Qed.
Lemma same_top_node n n' : same_top n n' -> is_node n' = is_node n.
Proof. intros [_ H]. destruct n, n'; auto; contradiction. Qed.
Lemma same_top_fits k n n' : same_top n n' -> kfits k n' = kfits k n.
Proof. intros [_ H]. destruct k, n, n'; cbn; auto; contradiction. Qed.
Lemma same_top_plug C n n' : same_top n n' -> same_top (plug C n) (plug C n').
Proof. intros H. destruct C; [assumption|]. split; reflexivity. Qed.

Lemma in_ids_plug C n q : In q (ids (plug C n)) <-> In q (cids C) \/ In q (ids n).
Proof.
  destruct C as [|p b ss c1 c2 hh]; cbn [plug cids ids]; [cbn; tauto|].
  rewrite flat_map_app. cbn [flat_map In]. rewrite !in_app_iff. tauto.
Qed.

Lemma ids_plug C n : Permutation (ids (plug C n)) (cids C ++ ids n).
Proof.
  destruct C as [|p b ss c1 c2 hh]; cbn [plug cids ids]; [reflexivity|].
  rewrite flat_map_app. cbn [flat_map app]. apply perm_skip. rewrite <- !app_assoc. apply Permutation_app_head.
  apply Permutation_app_head. rewrite (Permutation_app_comm (ids n)). rewrite <- !app_assoc. reflexivity.
Qed.

Lemma repr_inner ob C n fl : repr ob (plug C n) fl -> repr ob n (inn C fl).
Proof.
  destruct C as [|p b ss c1 c2 hh]; cbn [plug inn]; [auto|]. inversion 1; subst. auto using in_elt.
Qed.

Lemma repr_plug ob ob' C n n' fl : repr ob (plug C n) fl -> same_top n n' -> repr ob' n' (inn C fl) ->
  (forall q, In q (cids C) -> ob' q = ob q) -> repr ob' (plug C n') fl.
Proof.
  destruct C as [|p b ss c1 c2 hh]; cbn [plug inn cids]; intros R T R' A; [assumption|].
  inversion R as [|? ? ? ? ? ? E Hs Hh Hn Hc]; subst.
  constructor.
  - rewrite A by now left. rewrite E. f_equal. f_equal. rewrite !map_app. cbn [map]. now rewrite (proj1 T).
  - intros q I. rewrite A; [auto|]. right. apply in_or_app; now left.
  - intros q I. rewrite A; [auto|]. right. rewrite !in_app_iff. auto.
  - intros c I. apply in_app_or in I as [I|[<-|I]]; [apply Hn|rewrite (same_top_node _ _ T); apply Hn|apply Hn];
      apply in_or_app; cbn; auto.
  - intros c I. apply in_app_or in I as [I|[<-|I]].
    + apply (frame ob); [apply Hc, in_or_app; auto|]. intros q J. apply A. right. rewrite !in_app_iff.
      right; left. eapply in_flat_ids; eassumption.
    + assumption.
    + apply (frame ob); [apply Hc, in_or_app; cbn; auto|]. intros q J. apply A. right. rewrite !in_app_iff.
      right; right; left. eapply in_flat_ids; eassumption.
Qed.

Definition owners (E : forest) : list nat := flat_map (fun e => own (snd e)) E.
Lemma in_owners h (E : forest) : In h (owners E) <-> exists t, In (t, Some h) E.
Proof.
  unfold owners. rewrite in_flat_map. split.
  - intros ((t, [g|]) & J & K); [|contradiction]. cbn in K. destruct K as [->|[]]. eauto.
  - intros (t & J). exists (t, Some h). split; [assumption|now left].
Qed.

(** A tree changes at some place, swallowing others. *)
Lemma change s s' C n n' o E F : Inv s ((plug C n, o) :: E ++ F) -> same_top n n' -> NoDup (ids n') ->
  (forall q, In q (ids n') -> In q (ids n) \/ In q (fids E) \/ nxt s <= q < nxt s') ->
  repr (obj s') n' (inn C (own o)) ->
  (forall q, In q (cids C) \/ In q (fids F) -> obj s' q = obj s q) ->
  (forall q, obj s' q <> None -> In q (cids C) \/ In q (ids n') \/ In q (fids F)) ->
  (forall g, hs s' g = clr (owners E) (hs s) g) -> nxt s <= nxt s' -> nxh s' = nxh s ->
  Inv s' ((plug C n', o) :: F).
Proof.
  intros I T D' In' R' A Lv H Nx Nh.
  pose proof (i_dup _ _ I) as D. rewrite fids_cons in D.
  assert (D0 := NoDup_app_l _ _ D). apply (Permutation_NoDup (ids_plug C n)) in D0.
  assert (Far : forall q, nxt s <= q -> ~ In q (fids ((plug C n, o) :: E ++ F))).
  { intros q Q J. pose proof (Inv_fids_below _ _ _ I J). lia. }
  assert (OutF : forall q, In q (ids n') -> ~ In q (fids F)).
  { intros q J K. destruct (In' q J) as [J'|[J'|J']].
    - apply (NoDup_app_out _ _ q D); [apply in_ids_plug; now right|]. rewrite fids_app. apply in_or_app; now right.
    - apply NoDup_app_r in D. rewrite fids_app in D. now apply (NoDup_app_out _ _ q D).
    - apply (Far q); [lia|]. rewrite fids_cons, fids_app, !in_app_iff. auto. }
  assert (OutC : forall q, In q (cids C) -> ~ In q (ids n')).
  { intros q K J. destruct (In' q J) as [J'|[J'|J']].
    - now apply (NoDup_app_out _ _ q D0).
    - apply (NoDup_app_out _ _ q D); [apply in_ids_plug; now left|]. rewrite fids_app. apply in_or_app; now left.
    - apply (Far q); [lia|]. rewrite fids_cons, in_app_iff, in_ids_plug. auto. }
  assert (CF : forall q, In q (cids C) -> ~ In q (fids F)).
  { intros q K J. apply (NoDup_app_out _ _ q D); [apply in_ids_plug; now left|]. rewrite fids_app. apply in_or_app; now right. }
  assert (R := i_repr _ _ I (plug C n) o (or_introl eq_refl)).
  assert (NE : forall h, o = Some h -> ~ In h (owners E)).
  { intros h -> J. apply in_owners in J as (t & J). apply (own_unique _ _ _ _ t I). apply in_or_app; now left. }
  change ((plug C n', o) :: F) with ([(plug C n', o)] ++ F).
  change ((plug C n, o) :: E ++ F) with (((plug C n, o) :: E) ++ F) in I.
  apply (Inv_upd s s' ((plug C n, o) :: E) [(plug C n', o)] F (owners E)); try assumption.
  - rewrite fids_cons, app_nil_r. apply (Permutation_NoDup (Permutation_sym (ids_plug C n'))).
    apply NoDup_app_mk; [now apply NoDup_app_l in D0|assumption|assumption].
  - rewrite fids_cons, app_nil_r. intros p J. apply in_ids_plug in J as [J|J]; auto.
  - auto.
  - intros p Lp. rewrite fids_cons, app_nil_r, in_ids_plug. specialize (Lv p Lp). tauto.
  - rewrite fids_cons, app_nil_r. intros p J. apply in_ids_plug in J as [J|J].
    + assert (p < nxt s); [|lia]. eapply Inv_in_below; [exact I|now left|]. apply in_ids_plug. now left.
    + destruct (In' p J) as [J'|[J'|J']]; [| |lia].
      * assert (p < nxt s); [|lia]. eapply Inv_in_below; [exact I|now left|]. apply in_ids_plug. now right.
      * assert (p < nxt s); [|lia]. eapply Inv_fids_below; [exact I|]. rewrite fids_app, fids_cons, !in_app_iff. auto.
  - intros t o' [J|[]]. injection J as <- <-. apply (repr_plug (obj s) _ C n); auto.
  - intros t h [J|[]]. injection J as <- ->. destruct (i_hand _ _ I (plug C n) h) as (k & E' & Fk); [now left|].
    exists k. rewrite H. unfold clr. rewrite (proj2 (has_out _ _) (NE h eq_refl)). rewrite E'.
    pose proof (same_top_plug C _ _ T) as [-> _]. split; [reflexivity|].
    rewrite <- Fk. apply same_top_fits. now apply same_top_plug.
  - intros h J. rewrite H. unfold clr. now rewrite (proj2 (has_out _ _) J).
  - intros h t J K. apply in_owners in J as (t' & J). 
    assert (J2 : In (t', Some h) (((plug C n, o) :: E) ++ F)) by (apply in_or_app; left; now right).
    destruct (pick (t', Some h) E J) as (E' & PE).
    assert (P : Permutation (((plug C n, o) :: E) ++ F) ((t', Some h) :: ((plug C n, o) :: E') ++ F)).
    { rewrite PE. cbn [app]. apply perm_swap. }
    apply (Inv_perm _ _ _ P) in I. apply (own_unique _ _ _ _ t I). apply in_or_app; now right.
  - intros h x J E' V. rewrite H in E'. unfold clr in E'. rewrite (proj2 (has_in _ _) J) in E'.
    destruct (hs s h); [|discriminate]. injection E' as <-. discriminate.
  - intros h t J [K|K].
    + injection K as <- ->. exists (plug C n'). now left.
    + exfalso. apply J. apply in_owners. eauto.
  - intros h Lh. rewrite Nh. apply (i_nxh _ _ I). rewrite H in Lh. unfold clr in Lh.
    destruct (has h (owners E)); [|assumption]. destruct (hs s h); [discriminate|assumption].
Qed.

(** ** New segments only *)

Lemma place s C n o F : Inv s ((plug C n, o) :: F) -> repr (obj s) n (inn C (own o)).
Proof. intros I. apply repr_inner. apply (i_repr _ _ I). now left. Qed.

Lemma grow s C p b ss cs hh o F m s1 l : Inv s ((plug C (N p b ss cs hh), o) :: F) -> new_segs m s = (s1, l) ->
  exists s2, modify p (put_segs (ss ++ l)) s1 = Some s2 /\
    Inv s2 ((plug C (N p b (ss ++ l) cs hh), o) :: F) /\ hs s2 = hs s /\ (forall q, q <> p -> q < nxt s -> obj s2 q = obj s q).
Proof.
  intros I E. destruct (new_segs_do _ _ _ _ E) as (-> & Ex & Eh & En & Eo).
  pose proof (place _ _ _ _ _ I) as R.
  assert (Bel : forall q, In q (ids (N p b ss cs hh)) -> q < nxt s).
  { intros q J. eapply Inv_in_below; [exact I|now left|]. apply in_ids_plug. now right. }
  assert (Dn : NoDup (ids (N p b ss cs hh))).
  { pose proof (Inv_NoDup _ _ _ _ I (or_introl eq_refl)) as D. apply (Permutation_NoDup (ids_plug C _)) in D.
    now apply NoDup_app_r in D. }
  assert (Old : forall q, q < nxt s -> obj s1 q = obj s q).
  { intros q Q. rewrite Eo. destruct (Nat.leb_spec (nxt s) q); [lia|reflexivity]. }
  inversion R as [|? ? ? ? ? ? Ep Hs Hh Hn Hc]; subst. clear R.
  unfold modify. rewrite Old by (apply Bel; now left). rewrite Ep. cbn [bind put_segs].
  eexists. split; [reflexivity|]. cbn [set_obj hs obj]. split; [|split; [assumption|intros q NE Q; rewrite put_ne by assumption; auto]].
  cbn [ids] in Bel, Dn. apply NoDup_cons_iff in Dn as [Dp Dn].
  assert (Keep : forall q, In q (ss ++ flat_map ids cs ++ hh) -> put (obj s1) p
    (Some (Out b (inn C (own o)) (ss ++ seq (nxt s) m) (map root cs) hh)) q = obj s q).
  { intros q J. rewrite put_ne by (intros ->; contradiction). apply Old, Bel. now right. }
  assert (Pb : p < nxt s) by (apply Bel; now left).
  apply (change s _ C (N p b ss cs hh) (N p b (ss ++ seq (nxt s) m) cs hh) o [] F); cbn [set_obj obj hs nxt nxh]; try assumption.
  - now split.
  - cbn [ids]. constructor.
    + rewrite <- app_assoc. intros J. rewrite !in_app_iff, in_seq in J. apply Dp. rewrite !in_app_iff.
      destruct J as [J|[J|[J|J]]]; auto. lia.
    + rewrite <- app_assoc. apply NoDup_app_mk; [now apply NoDup_app_l in Dn| |].
      * apply NoDup_app_mk; [apply seq_NoDup|now apply NoDup_app_r in Dn|].
        intros q J K. apply in_seq in J. assert (q < nxt s); [|lia]. apply Bel. right. apply in_or_app; now right.
      * intros q J K. apply in_app_or in K as [K|K].
        -- apply in_seq in K. assert (q < nxt s); [|lia]. apply Bel. right. apply in_or_app; now left.
        -- now apply (NoDup_app_out _ _ q Dn).
  - intros q. cbn [ids In]. rewrite !in_app_iff, in_seq, Ex. intros J.
    destruct J as [J|[[J|J]|[J|J]]]; auto 6; right; right; lia.
  - constructor.
    + apply put_eq.
    + intros q J. apply in_app_or in J as [J|J].
      * rewrite Keep; [auto|]. apply in_or_app; now left.
      * apply in_seq in J. rewrite put_ne by lia. rewrite Eo.
        destruct (Nat.leb_spec (nxt s) q), (Nat.ltb_spec q (nxt s + m)); cbn [andb]; try reflexivity; lia.
    + intros q J. rewrite Keep; [auto|]. rewrite !in_app_iff; auto.
    + assumption.
    + intros c J. apply (frame (obj s)); [auto|]. intros q K. apply Keep. rewrite !in_app_iff. right; left.
      eapply in_flat_ids; eassumption.
  - intros q J.
    assert (X : In q (ids (plug C (N p b ss cs hh)) ++ fids F) /\ q <> p).
    { pose proof (i_dup _ _ I) as D. rewrite fids_cons in D. split.
      - rewrite in_app_iff, in_ids_plug. tauto.
      - intros ->. destruct J as [J|J].
        + apply NoDup_app_l in D. apply (Permutation_NoDup (ids_plug C _)) in D. apply (NoDup_app_out _ _ p D J). now left.
        + apply (NoDup_app_out _ _ p D); [|exact J]. apply in_ids_plug. right. now left. }
    destruct X as [X NE]. rewrite put_ne by assumption. apply Old. eapply Inv_fids_below; [exact I|exact X].
  - intros q Lq. destruct (Nat.eq_dec q p) as [->|NE]; [right; left; now left|].
    rewrite put_ne in Lq by assumption. rewrite Eo in Lq.
    destruct ((nxt s <=? q) && (q <? nxt s + m)) eqn:X.
    + apply andb_true_iff in X as [X1 X2]. apply Nat.leb_le in X1. apply Nat.ltb_lt in X2.
      right; left. cbn [ids]. right. rewrite !in_app_iff, in_seq. left; right. lia.
    + pose proof (i_live _ _ I q Lq) as J. rewrite fids_cons, in_app_iff, in_ids_plug in J.
      destruct J as [[J|J]|J]; auto. right; left. cbn [ids In] in J |- *.
      rewrite !in_app_iff in J. rewrite !in_app_iff. tauto.
  - intros g. rewrite Eh. reflexivity.
  - lia.
Qed.

(** ** Merging *)

Lemma NoDup_filter' {A} (f : A -> bool) l : NoDup l -> NoDup (filter f l).
Proof. apply NoDup_filter. Qed.

Definition isnew (s : st) (n q : nat) : bool := (nxt s <=? q) && (q <? nxt s + n).
Lemma isnew_true s n q : isnew s n q = true <-> nxt s <= q < nxt s + n.
Proof. unfold isnew. rewrite andb_true_iff, Nat.leb_le, Nat.ltb_lt. tauto. Qed.
Lemma isnew_false s n q : q < nxt s -> isnew s n q = false.
Proof. intros H. unfold isnew. destruct (Nat.leb_spec (nxt s) q); [lia|reflexivity]. Qed.

Definition dropped (keep : nat -> bool) (l : list nat) : list nat := filter (fun p => negb (keep p)) l.
Lemma in_dropped keep l q : In q (dropped keep l) <-> In q l /\ keep q = false.
Proof. unfold dropped. rewrite filter_In. destruct (keep q); cbn; intuition congruence. Qed.

(** The first steps, common to both. *)
Lemma reshape s C p b ss cs hh o F keep n X : Inv s ((plug C (N p b ss cs hh), o) :: F) ->
  exists s1 s2 s3, each del_seg (dropped keep ss) s = Some s1 /\ new_segs n s1 = (s2, seq (nxt s) n) /\
    modify p (put_segs (filter keep ss ++ X ++ seq (nxt s) n)) s2 = Some s3 /\
    nxt s3 = nxt s + n /\ nxh s3 = nxh s /\ (forall g, hs s3 g = hs s g) /\
    obj s3 p = Some (Out b (inn C (own o)) (filter keep ss ++ X ++ seq (nxt s) n) (map root cs) hh) /\
    (forall q, q <> p -> obj s3 q = if isnew s n q then Some (Seg []) else if has q (dropped keep ss) then None else obj s q).
Proof.
  intros I. pose proof (place _ _ _ _ _ I) as R.
  assert (Dn : NoDup (ids (N p b ss cs hh))).
  { pose proof (Inv_NoDup _ _ _ _ I (or_introl eq_refl)) as D. apply (Permutation_NoDup (ids_plug C _)) in D.
    now apply NoDup_app_r in D. }
  assert (Bp : p < nxt s). { eapply Inv_in_below; [exact I|now left|]. apply in_ids_plug. right. now left. }
  inversion R as [|? ? ? ? ? ? Ep Hs Hh Hn Hc]; subst. clear R.
  cbn [ids] in Dn. apply NoDup_cons_iff in Dn as [Dp Dn].
  destruct (each_del_seg (dropped keep ss) s) as (s1 & E1 & W1 & W2 & W3 & W4).
  { apply NoDup_filter'. now apply NoDup_app_l in Dn. }
  { intros q J. apply in_dropped in J as [J _]. auto. }
  destruct (new_segs n s1) as [s2 l] eqn:E2. destruct (new_segs_do _ _ _ _ E2) as (-> & Ex & Eh & En & Eo).
  rewrite W3 in *. exists s1, s2.
  assert (P2 : obj s2 p = obj s p).
  { rewrite Eo. fold (isnew s n p). rewrite isnew_false by assumption. rewrite W1.
    assert (NI : ~ In p (dropped keep ss)). { intros J. apply in_dropped in J as [J _]. apply Dp. apply in_or_app; now left. }
    now rewrite (proj2 (has_out _ _) NI). }
  unfold modify. rewrite P2, Ep. cbn [bind put_segs]. eexists.
  split; [assumption|]. split; [first [assumption|reflexivity]|]. split; [reflexivity|]. cbn [set_obj nxt nxh hs obj].
  split; [assumption|]. split; [congruence|]. split; [intros g; rewrite Eh, W2; reflexivity|]. split; [apply put_eq|].
  intros q NE. rewrite put_ne by assumption. rewrite Eo. fold (isnew s n q). destruct (isnew s n q); [reflexivity|]. apply W1.
Qed.

Lemma merge_outline s C p b ss cs hh o a ba sa ca ha oa F keep n :
  Inv s ((plug C (N p b ss cs hh), o) :: (N a ba sa ca ha, oa) :: F) ->
  exists s' ss', core_merge p a (Merged keep n) s = Some (s', true) /\ Inv s' ((plug C (N p b ss' cs hh), o) :: F) /\
    obj s' a = None /\ (forall g, hs s' g = clr (own oa) (hs s) g).
Proof.
  intros I. destruct (reshape _ _ _ _ _ _ _ _ _ keep n (filter keep sa) I)
    as (s1 & s2 & s3 & E1 & E2 & E3 & Nx & Nh & Hs3 & Op & Oq).
  pose proof (place _ _ _ _ _ I) as R. inversion R as [|? ? ? ? ? ? Ep Hss Hhh Hn Hc]; subst. clear R.
  pose proof (i_repr _ _ I (N a ba sa ca ha) oa (or_intror (or_introl eq_refl))) as R.
  pose proof R as Ra. inversion R as [|? ? ? ? ? ? Ea Hsa Hha Hna Hca]; subst. clear R.
  pose proof (i_dup _ _ I) as D. rewrite fids_cons in D.
  assert (D0 := NoDup_app_l _ _ D). apply (Permutation_NoDup (ids_plug C _)) in D0.
  assert (Dn := NoDup_app_r _ _ D0). assert (Dr := NoDup_app_r _ _ D). rewrite fids_cons in Dr.
  assert (Da := NoDup_app_l _ _ Dr).
  assert (Bel : forall q, In q (cids C) \/ In q (ids (N p b ss cs hh)) \/ In q (ids (N a ba sa ca ha)) \/ In q (fids F) -> q < nxt s).
  { intros q J. eapply Inv_fids_below; [exact I|]. rewrite !fids_cons, !in_app_iff, in_ids_plug. tauto. }
  assert (NA : forall q, In q (cids C) \/ In q (ids (N p b ss cs hh)) \/ In q (fids F) -> ~ In q (ids (N a ba sa ca ha))).
  { intros q J K. destruct J as [J|[J|J]].
    - apply (NoDup_app_out _ _ q D); [apply in_ids_plug; now left|]. rewrite fids_cons. apply in_or_app; now left.
    - apply (NoDup_app_out _ _ q D); [apply in_ids_plug; now right|]. rewrite fids_cons. apply in_or_app; now left.
    - now apply (NoDup_app_out _ _ q Dr). }
  assert (NP : forall q, In q (cids C) \/ In q (fids F) -> ~ In q (ids (N p b ss cs hh))).
  { intros q J K. destruct J as [J|J].
    - now apply (NoDup_app_out _ _ q D0).
    - apply (NoDup_app_out _ _ q D); [apply in_ids_plug; now right|]. rewrite fids_cons. apply in_or_app; now right. }
  clear D D0 Dr.
  set (n1 := N p b ss cs hh) in *. set (ta := N a ba sa ca ha) in *.
  set (ta' := N a ba (dropped keep sa) ca ha).
  assert (Pn : In p (ids n1)) by now left. assert (An : In a (ids ta)) by now left.
  assert (PA : a <> p). { intros ->. apply (NA p); auto. }
  assert (SubA : forall q, In q (ids ta') -> In q (ids ta)).
  { intros q. unfold ta', ta. cbn [ids In]. rewrite !in_app_iff, in_dropped. tauto. }
  assert (InSs : forall q, In q ss -> In q (ids n1)). { intros q J. right. apply in_or_app; now left. }
  assert (InSa : forall q, In q sa -> In q (ids ta)). { intros q J. right. apply in_or_app; now left. }
  (* what lies in the other outline is untouched by the first steps *)
  assert (A3 : forall q, In q (ids ta) -> obj s3 q = obj s q).
  { intros q J. rewrite Oq by (intros ->; now apply (NA p); auto). rewrite isnew_false by (apply Bel; auto).
    assert (NI : ~ In q (dropped keep ss)). { intros K. apply in_dropped in K as [K _]. apply (NA q); auto. }
    now rewrite (proj2 (has_out _ _) NI). }
  assert (E4 : modify a (put_segs (dropped keep sa)) s3 =
    Some (set_obj a (Some (Out ba (own oa) (dropped keep sa) (map root ca) ha)) s3)).
  { unfold modify. rewrite A3 by assumption. rewrite Ea. reflexivity. }
  set (s4 := set_obj a (Some (Out ba (own oa) (dropped keep sa) (map root ca) ha)) s3) in *.
  assert (A4 : forall q, In q (ids ta) -> q <> a -> obj s4 q = obj s q).
  { intros q J NE. unfold s4. cbn [set_obj obj]. rewrite put_ne by assumption. auto. }
  assert (Da' : NoDup (ids ta')).
  { unfold ta'. cbn [ids]. unfold ta in Da. cbn [ids] in Da. apply NoDup_cons_iff in Da as [D1 D2]. constructor.
    - intros J. apply D1. rewrite !in_app_iff in J. rewrite in_dropped in J. rewrite !in_app_iff. tauto.
    - apply NoDup_app_mk; [apply NoDup_filter'; now apply NoDup_app_l in D2|now apply NoDup_app_r in D2|].
      intros q J. apply in_dropped in J as [J _]. now apply (NoDup_app_out _ _ q D2). }
  assert (NEa : forall q, In q (sa ++ flat_map ids ca ++ ha) -> q <> a).
  { intros q J ->. unfold ta in Da. cbn [ids] in Da. apply NoDup_cons_iff in Da as [D1 _]. contradiction. }
  destruct (del_do ta' (own oa) s4) as (s5 & E5 & W1 & W2 & W3 & W4).
  { constructor.
    - apply put_eq.
    - intros q J. apply in_dropped in J as [J _]. rewrite A4; [auto|auto|]. apply NEa. apply in_or_app; now left.
    - intros q J. rewrite A4; [auto| |apply NEa; rewrite !in_app_iff; auto]. right. rewrite !in_app_iff; auto.
    - assumption.
    - intros c J. apply (frame (obj s)); [auto|]. intros q K. pose proof (in_flat_ids _ _ _ J K) as K'. apply A4.
      + right. rewrite !in_app_iff; auto.
      + apply NEa. rewrite !in_app_iff; auto. }
  { assumption. }
  { intros q J. unfold s4. cbn [set_obj nxt]. rewrite Nx. assert (q < nxt s) by (apply Bel; auto). lia. }
  { destruct oa; repeat constructor. intros []. }
  { destruct oa as [g|]; [|intros ? []]. intros g' [<-|[]]. unfold s4. cbn [set_obj hs]. rewrite Hs3.
    destruct (i_hand _ _ I ta g) as (k & E & _); [right; now left|]. rewrite E. discriminate. }
  exists s5, (filter keep ss ++ filter keep sa ++ seq (nxt s) n).
  assert (Eq : core_merge p a (Merged keep n) s = Some (s5, true)).
  { unfold core_merge. rewrite Ep, Ea. cbn [bind is_out andb segs_of]. fold (dropped keep ss) (dropped keep sa).
    rewrite E1. cbn [bind]. rewrite E2. rewrite E3. cbn [bind]. rewrite E4. cbn [bind].
    change a with (root ta') at 1. rewrite E5. reflexivity. }
  split; [assumption|].
  assert (H5 : forall g, hs s5 g = clr (own oa) (hs s) g).
  { intros g. rewrite W2. unfold clr. unfold s4. cbn [set_obj hs]. now rewrite Hs3. }
  assert (N5 : nxt s5 = nxt s + n) by (rewrite W3; assumption).
  assert (Away : forall q, q <> a -> q <> p -> ~ In q (ids ta') ->
    obj s5 q = if isnew s n q then Some (Seg []) else if has q (dropped keep ss) then None else obj s q).
  { intros q N1 N2 N3. rewrite W1. rewrite (proj2 (has_out _ _) N3). unfold s4. cbn [set_obj obj].
    rewrite put_ne by assumption. now apply Oq. }
  assert (Same : forall q, In q (cids C) \/ In q (flat_map ids cs ++ hh) \/ In q (fids F) -> obj s5 q = obj s q).
  { intros q J. assert (J2 : In q (cids C) \/ In q (ids n1) \/ In q (fids F)).
    { destruct J as [J|[J|J]]; auto. right; left. right. apply in_or_app; now right. }
    pose proof (NA q J2) as NAq. rewrite Away.
    - rewrite isnew_false by (apply Bel; tauto).
      assert (NI : ~ In q (dropped keep ss)).
      { intros K. apply in_dropped in K as [K _]. destruct J as [J|[J|J]]; [apply (NP q); auto| |apply (NP q); auto].
        unfold n1 in Dn. cbn [ids] in Dn. apply NoDup_cons_iff in Dn as [_ Dn]. now apply (NoDup_app_out _ _ q Dn). }
      now rewrite (proj2 (has_out _ _) NI).
    - intros ->. now apply NAq.
    - intros ->. destruct J as [J|[J|J]]; [apply (NP p); auto| |apply (NP p); auto].
      unfold n1 in Dn. cbn [ids] in Dn. apply NoDup_cons_iff in Dn as [Dn _]. apply Dn. apply in_or_app; now right.
    - intros K. apply NAq. auto. }
  split; [|split].
  - apply (change s s5 C n1 (N p b (filter keep ss ++ filter keep sa ++ seq (nxt s) n) cs hh) o [(ta, oa)] F).
    + assumption.
    + now split.
    + unfold n1 in *. cbn [ids] in *. apply NoDup_cons_iff in Dn as [D1 D2]. constructor.
      * rewrite !in_app_iff, !filter_In, in_seq. intros J.
        assert (X : ~ In p sa) by (intros K; apply (NA p); auto).
        assert (p < nxt s) by (apply Bel; auto). rewrite !in_app_iff in D1.
        destruct J as [[J|[J|J]]|[J|J]]; try tauto. lia.
      * apply NoDup_app_mk; [| now apply NoDup_app_r in D2|].
        -- apply NoDup_app_mk; [apply NoDup_filter'; now apply NoDup_app_l in D2| |].
           ++ apply NoDup_app_mk; [apply NoDup_filter'; unfold ta in Da; cbn [ids] in Da; apply NoDup_cons_iff in Da as [_ Da]; now apply NoDup_app_l in Da|apply seq_NoDup|].
              intros q J K. apply filter_In in J as [J _]. apply in_seq in K. assert (q < nxt s) by (apply Bel; auto 6). lia.
           ++ intros q J K. apply filter_In in J as [J _]. apply in_app_or in K as [K|K].
              ** apply filter_In in K as [K _]. apply (NA q); auto.
              ** apply in_seq in K. assert (q < nxt s) by (apply Bel; auto 6). lia.
        -- intros q J K. assert (Kn : In q (p :: ss ++ flat_map ids cs ++ hh)) by (right; apply in_or_app; now right).
           apply in_app_or in J as [J|J]; [apply filter_In in J as [J _]; now apply (NoDup_app_out _ _ q D2)|].
           apply in_app_or in J as [J|J].
           ++ apply filter_In in J as [J _]. apply (NA q); auto.
           ++ apply in_seq in J. assert (q < nxt s) by (apply Bel; auto). lia.
    + intros q. unfold n1. cbn [ids In]. rewrite !in_app_iff, !filter_In, in_seq, N5. intros J.
      destruct J as [J|[[J|[J|J]]|[J|J]]]; try tauto.
      right; left. rewrite fids_cons, app_nil_r. apply InSa. tauto.
    + constructor.
      * rewrite W1. assert (X : ~ In p (ids ta')) by (intros K; apply (NA p); auto).
        rewrite (proj2 (has_out _ _) X). unfold s4. cbn [set_obj obj]. rewrite put_ne by congruence. assumption.
      * intros q J. apply in_app_or in J as [J|J]; [|apply in_app_or in J as [J|J]].
        -- apply filter_In in J as [J Kq]. rewrite Away.
           ++ rewrite isnew_false by (apply Bel; auto).
              assert (NI : ~ In q (dropped keep ss)) by (intros K; apply in_dropped in K; destruct K; congruence).
              rewrite (proj2 (has_out _ _) NI). auto.
           ++ intros ->. apply (NA a); auto.
           ++ intros ->. unfold n1 in Dn. cbn [ids] in Dn. apply NoDup_cons_iff in Dn as [Dn _]. apply Dn. apply in_or_app; now left.
           ++ intros K. apply (NA q); auto.
        -- apply filter_In in J as [J Kq]. rewrite Away.
           ++ rewrite isnew_false by (apply Bel; auto).
              assert (NI : ~ In q (dropped keep ss)). { intros K; apply in_dropped in K as [K _]. apply (NA q); auto. }
              rewrite (proj2 (has_out _ _) NI). auto.
           ++ apply NEa. apply in_or_app; now left.
           ++ intros ->. apply (NA p); auto.
           ++ intros K. destruct K as [K|K]; [symmetry in K; revert K; apply NEa; apply in_or_app; now left|].
              apply in_app_or in K as [K|K]; [apply in_dropped in K; destruct K; congruence|].
              unfold ta in Da. cbn [ids] in Da. apply NoDup_cons_iff in Da as [_ Da]. now apply (NoDup_app_out _ _ q Da).
        -- apply in_seq in J. rewrite Away.
           ++ assert (X : isnew s n q = true) by (apply isnew_true; lia). now rewrite X.
           ++ intros ->. assert (a < nxt s) by (apply Bel; auto). lia.
           ++ intros ->. assert (p < nxt s) by (apply Bel; auto). lia.
           ++ intros K. assert (q < nxt s) by (apply Bel; auto). lia.
      * intros q J. rewrite Same; [auto|]. right; left. apply in_or_app; now right.
      * assumption.
      * intros c J. apply (frame (obj s)); [auto|]. intros q K. apply Same. right; left. apply in_or_app; left.
        eapply in_flat_ids; eassumption.
    + intros q J. apply Same. tauto.
    + intros q Lq. cbn [ids In]. rewrite !in_app_iff, !filter_In, in_seq.
      destruct (Nat.eq_dec q p) as [->|N1]; [tauto|].
      rewrite W1 in Lq. destruct (has q (ids ta')) eqn:X; [congruence|]. apply has_out in X.
      assert (N2 : q <> a). { intros ->. apply X. now left. }
      unfold s4 in Lq. cbn [set_obj obj] in Lq. rewrite put_ne in Lq by assumption. rewrite Oq in Lq by assumption.
      destruct (isnew s n q) eqn:Y; [apply isnew_true in Y; right; left; right; left; right; right; lia|].
      destruct (has q (dropped keep ss)) eqn:Z; [congruence|]. apply has_out in Z. rewrite in_dropped in Z.
      pose proof (i_live _ _ I q Lq) as J. rewrite !fids_cons, !in_app_iff, in_ids_plug in J. unfold n1, ta in J. cbn [ids In] in J.
      rewrite !in_app_iff in J. unfold ta' in X. cbn [ids In] in X. rewrite !in_app_iff, in_dropped in X.
      destruct (keep q); destruct J as [[J|J]|[J|J]]; tauto || (intuition congruence).
    + intros g. rewrite H5. unfold owners. cbn [flat_map snd]. now rewrite app_nil_r.
    + lia.
    + rewrite W4. unfold s4. cbn [set_obj nxh]. assumption.
  - rewrite W1. rewrite (proj2 (has_in a (ids ta'))); [reflexivity|now left].
  - assumption.
Qed.

Lemma merge_circle s C p b ss cs hh o c oa F keep n :
  Inv s ((plug C (N p b ss cs hh), o) :: (L c, oa) :: F) ->
  exists s' ss', core_mergec p c (Merged keep n) s = Some (s', true) /\ Inv s' ((plug C (N p b ss' cs hh), o) :: F) /\
    obj s' c = None /\ (forall g, hs s' g = clr (own oa) (hs s) g).
Proof.
  intros I. destruct (reshape _ _ _ _ _ _ _ _ _ keep n [] I) as (s1 & s2 & s3 & E1 & E2 & E3 & Nx & Nh & Hs3 & Op & Oq).
  cbn [app] in E3, Op.
  pose proof (place _ _ _ _ _ I) as R. inversion R as [|? ? ? ? ? ? Ep Hss Hhh Hn Hc]; subst. clear R.
  pose proof (i_repr _ _ I (L c) oa (or_intror (or_introl eq_refl))) as R.
  inversion R as [? ? Ea|]; subst. clear R.
  pose proof (i_dup _ _ I) as D. rewrite fids_cons in D.
  assert (D0 := NoDup_app_l _ _ D). apply (Permutation_NoDup (ids_plug C _)) in D0.
  assert (Dn := NoDup_app_r _ _ D0). assert (Dr := NoDup_app_r _ _ D). rewrite fids_cons in Dr.
  assert (Bel : forall q, In q (cids C) \/ In q (ids (N p b ss cs hh)) \/ q = c \/ In q (fids F) -> q < nxt s).
  { intros q J. eapply Inv_fids_below; [exact I|]. rewrite !fids_cons, !in_app_iff, in_ids_plug. cbn [ids In].
    destruct J as [J|[J|[->|J]]]; tauto. }
  assert (NA : forall q, In q (cids C) \/ In q (ids (N p b ss cs hh)) \/ In q (fids F) -> q <> c).
  { intros q J ->. destruct J as [J|[J|J]].
    - apply (NoDup_app_out _ _ c D); [apply in_ids_plug; now left|]. rewrite fids_cons. now left.
    - apply (NoDup_app_out _ _ c D); [apply in_ids_plug; now right|]. rewrite fids_cons. now left.
    - apply (NoDup_app_out _ _ c Dr); [now left|assumption]. }
  assert (NP : forall q, In q (cids C) \/ In q (fids F) -> ~ In q (ids (N p b ss cs hh))).
  { intros q J K. destruct J as [J|J].
    - now apply (NoDup_app_out _ _ q D0).
    - apply (NoDup_app_out _ _ q D); [apply in_ids_plug; now right|]. rewrite fids_cons. now right. }
  clear D D0 Dr. set (n1 := N p b ss cs hh) in *.
  assert (Pn : In p (ids n1)) by now left.
  assert (PA : p <> c) by (apply NA; auto).
  assert (InSs : forall q, In q ss -> In q (ids n1)). { intros q J. right. apply in_or_app; now left. }
  assert (O3 : obj s3 c = obj s c).
  { rewrite Oq by congruence. rewrite isnew_false by (apply Bel; auto).
    assert (NI : ~ In c (dropped keep ss)). { intros K. apply in_dropped in K as [K _]. apply (NA c); auto. }
    now rewrite (proj2 (has_out _ _) NI). }
  destruct (del_do (L c) (own oa) s3) as (s5 & E5 & W1 & W2 & W3 & W4).
  { constructor. now rewrite O3. }
  { repeat constructor. intros []. }
  { intros q [<-|[]]. rewrite Nx. assert (c < nxt s) by (apply Bel; auto). lia. }
  { destruct oa; repeat constructor. intros []. }
  { destruct oa as [g|]; [|intros ? []]. intros g' [<-|[]]. rewrite Hs3.
    destruct (i_hand _ _ I (L c) g) as (k & E & _); [right; now left|]. rewrite E. discriminate. }
  exists s5, (filter keep ss ++ seq (nxt s) n).
  assert (Eq : core_mergec p c (Merged keep n) s = Some (s5, true)).
  { unfold core_mergec. rewrite Ep, Ea. cbn [bind is_out is_seg negb andb segs_of]. fold (dropped keep ss).
    rewrite E1. cbn [bind]. rewrite E2. rewrite E3. cbn [bind].
    change c with (root (L c)) at 1. rewrite E5. reflexivity. }
  split; [assumption|].
  assert (H5 : forall g, hs s5 g = clr (own oa) (hs s) g).
  { intros g. rewrite W2. unfold clr. now rewrite Hs3. }
  assert (N5 : nxt s5 = nxt s + n) by (rewrite W3; assumption).
  assert (Away : forall q, q <> c -> q <> p ->
    obj s5 q = if isnew s n q then Some (Seg []) else if has q (dropped keep ss) then None else obj s q).
  { intros q N1 N2. rewrite W1. cbn [ids has]. destruct (Nat.eqb_spec q c); [contradiction|]. cbn [orb]. now apply Oq. }
  assert (Same : forall q, In q (cids C) \/ In q (flat_map ids cs ++ hh) \/ In q (fids F) -> obj s5 q = obj s q).
  { intros q J. assert (J2 : In q (cids C) \/ In q (ids n1) \/ In q (fids F)).
    { destruct J as [J|[J|J]]; auto. right; left. right. apply in_or_app; now right. }
    rewrite Away.
    - rewrite isnew_false by (apply Bel; tauto).
      assert (NI : ~ In q (dropped keep ss)).
      { intros K. apply in_dropped in K as [K _]. destruct J as [J|[J|J]]; [apply (NP q); auto| |apply (NP q); auto].
        unfold n1 in Dn. cbn [ids] in Dn. apply NoDup_cons_iff in Dn as [_ Dn]. now apply (NoDup_app_out _ _ q Dn). }
      now rewrite (proj2 (has_out _ _) NI).
    - now apply NA.
    - intros ->. destruct J as [J|[J|J]]; [apply (NP p); auto| |apply (NP p); auto].
      unfold n1 in Dn. cbn [ids] in Dn. apply NoDup_cons_iff in Dn as [Dn _]. apply Dn. apply in_or_app; now right. }
  split; [|split].
  - apply (change s s5 C n1 (N p b (filter keep ss ++ seq (nxt s) n) cs hh) o [(L c, oa)] F).
    + assumption.
    + now split.
    + unfold n1 in *. cbn [ids] in *. apply NoDup_cons_iff in Dn as [D1 D2]. constructor.
      * rewrite !in_app_iff, !filter_In, in_seq. intros J.
        assert (p < nxt s) by (apply Bel; auto). rewrite !in_app_iff in D1.
        destruct J as [[J|J]|[J|J]]; try tauto. lia.
      * apply NoDup_app_mk; [| now apply NoDup_app_r in D2|].
        -- apply NoDup_app_mk; [apply NoDup_filter'; now apply NoDup_app_l in D2|apply seq_NoDup|].
           intros q J K. apply filter_In in J as [J _]. apply in_seq in K. assert (q < nxt s) by (apply Bel; auto 6). lia.
        -- intros q J K. assert (Kn : In q (p :: ss ++ flat_map ids cs ++ hh)) by (right; apply in_or_app; now right).
           apply in_app_or in J as [J|J]; [apply filter_In in J as [J _]; now apply (NoDup_app_out _ _ q D2)|].
           apply in_seq in J. assert (q < nxt s) by (apply Bel; auto). lia.
    + intros q. unfold n1. cbn [ids In]. rewrite !in_app_iff, !filter_In, in_seq, N5. intros J.
      destruct J as [J|[[J|J]|[J|J]]]; try tauto.
    + constructor.
      * rewrite W1. cbn [ids has]. destruct (Nat.eqb_spec p c); [contradiction|]. cbn [orb]. assumption.
      * intros q J. apply in_app_or in J as [J|J].
        -- apply filter_In in J as [J Kq]. rewrite Away.
           ++ rewrite isnew_false by (apply Bel; auto).
              assert (NI : ~ In q (dropped keep ss)) by (intros K; apply in_dropped in K; destruct K; congruence).
              rewrite (proj2 (has_out _ _) NI). auto.
           ++ apply NA; auto.
           ++ intros ->. unfold n1 in Dn. cbn [ids] in Dn. apply NoDup_cons_iff in Dn as [Dn _]. apply Dn. apply in_or_app; now left.
        -- apply in_seq in J. rewrite Away.
           ++ assert (X : isnew s n q = true) by (apply isnew_true; lia). now rewrite X.
           ++ intros ->. assert (c < nxt s) by (apply Bel; auto). lia.
           ++ intros ->. assert (p < nxt s) by (apply Bel; auto). lia.
      * intros q J. rewrite Same; [auto|]. right; left. apply in_or_app; now right.
      * assumption.
      * intros d J. apply (frame (obj s)); [auto|]. intros q K. apply Same. right; left. apply in_or_app; left.
        eapply in_flat_ids; eassumption.
    + intros q J. apply Same. tauto.
    + intros q Lq. cbn [ids In]. rewrite !in_app_iff, !filter_In, in_seq.
      destruct (Nat.eq_dec q p) as [->|N1]; [tauto|].
      destruct (Nat.eq_dec q c) as [->|N2]; [rewrite W1 in Lq; cbn in Lq; rewrite Nat.eqb_refl in Lq; cbn in Lq; congruence|].
      rewrite Away in Lq by assumption.
      destruct (isnew s n q) eqn:Y; [apply isnew_true in Y; right; left; right; left; right; lia|].
      destruct (has q (dropped keep ss)) eqn:Z; [congruence|]. apply has_out in Z. rewrite in_dropped in Z.
      pose proof (i_live _ _ I q Lq) as J. rewrite !fids_cons, !in_app_iff, in_ids_plug in J. unfold n1 in J. cbn [ids In] in J.
      rewrite !in_app_iff in J.
      destruct (keep q); destruct J as [[J|J]|[J|J]]; tauto || (intuition congruence).
    + intros g. rewrite H5. unfold owners. cbn [flat_map snd]. now rewrite app_nil_r.
    + lia.
    + rewrite W4. assumption.
  - rewrite W1. cbn [ids has]. now rewrite Nat.eqb_refl.
  - assumption.
Qed.

(** Nothing merged: new segments at most. *)
Lemma swap_inv s a b F : Inv s (a :: b :: F) -> Inv s (b :: a :: F).
Proof. apply Inv_perm. apply perm_swap. Qed.

Lemma no_merge_outline s C p b ss cs hh o a ba sa ca ha oa F m k :
  Inv s ((plug C (N p b ss cs hh), o) :: (N a ba sa ca ha, oa) :: F) ->
  exists s' ss' sa', core_merge p a (NotMerged m k) s = Some (s', false) /\
    Inv s' ((plug C (N p b ss' cs hh), o) :: (N a ba sa' ca ha, oa) :: F) /\ hs s' = hs s.
Proof.
  intros I. pose proof (place _ _ _ _ _ I) as R. inversion R as [|? ? ? ? ? ? Ep _ _ _ _]; subst. clear R.
  pose proof (i_repr _ _ I (N a ba sa ca ha) oa (or_intror (or_introl eq_refl))) as R.
  inversion R as [|? ? ? ? ? ? Ea _ _ _ _]; subst. clear R.
  unfold core_merge. rewrite Ep, Ea. cbn [bind is_out andb segs_of].
  destruct (new_segs m s) as [s1 l1] eqn:E1. destruct (grow _ _ _ _ _ _ _ _ _ _ _ _ I E1) as (s2 & E2 & I2 & H2 & O2).
  rewrite E2. cbn [bind]. destruct (new_segs k s2) as [s3 l2] eqn:E3.
  apply swap_inv in I2. change (N a ba sa ca ha) with (plug Here (N a ba sa ca ha)) in I2.
  destruct (grow _ _ _ _ _ _ _ _ _ _ _ _ I2 E3) as (s4 & E4 & I4 & H4 & O4).
  rewrite E4. cbn [bind]. exists s4, (ss ++ l1), (sa ++ l2). split; [reflexivity|]. split; [now apply swap_inv|congruence].
Qed.

Lemma no_merge_circle s C p b ss cs hh o c oa F m k :
  Inv s ((plug C (N p b ss cs hh), o) :: (L c, oa) :: F) ->
  exists s' ss', core_mergec p c (NotMerged m k) s = Some (s', false) /\
    Inv s' ((plug C (N p b ss' cs hh), o) :: (L c, oa) :: F) /\ hs s' = hs s.
Proof.
  intros I. pose proof (place _ _ _ _ _ I) as R. inversion R as [|? ? ? ? ? ? Ep _ _ _ _]; subst. clear R.
  pose proof (i_repr _ _ I (L c) oa (or_intror (or_introl eq_refl))) as R.
  inversion R as [? ? Ea|]; subst. clear R.
  unfold core_mergec. rewrite Ep, Ea. cbn [bind is_out is_seg negb andb segs_of].
  destruct (new_segs m s) as [s1 l1] eqn:E1. destruct (grow _ _ _ _ _ _ _ _ _ _ _ _ I E1) as (s2 & E2 & I2 & H2 & O2).
  rewrite E2. cbn [bind]. exists s2, (ss ++ l1). auto.
Qed.
