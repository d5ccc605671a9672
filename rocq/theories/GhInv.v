(** Everything there is, as trees with their owners; the invariant of careful programs. *)

From Coq Require Import List Bool Arith Lia Permutation.
From Verif Require Import GhModel GhSpec GhTree.
Import ListNotations.

Definition forest := list (gt * option nat).
Definition fids (F : forest) : list nat := flat_map (fun e => ids (fst e)) F.
Definition own (o : option nat) : list nat := match o with Some h => [h] | None => [] end.

Definition kfits (k : kind) (t : gt) : bool :=
  match k, t with
  | KSeg, L _ => true
  | KOut, N _ _ _ _ _ => true
  | KPcb, N _ b _ _ _ => b
  | _, _ => false
  end.

Record Inv (s : st) (F : forest) : Prop := mkInv {
  i_dup : NoDup (fids F);
  i_live : forall p, obj s p <> None -> In p (fids F);
  i_repr : forall t o, In (t, o) F -> repr (obj s) t (own o);
  i_hand : forall t h, In (t, Some h) F -> exists k, hs s h = Some (mkHnd k true (Some (root t))) /\ kfits k t = true;
  i_valid : forall h x, hs s h = Some x -> hv x = true -> exists t, In (t, Some h) F;
  i_nxt : forall p, obj s p <> None -> p < nxt s;
  i_nxh : forall h, hs s h <> None -> h < nxh s }.

Lemma in_fids t o (F : forest) p : In (t, o) F -> In p (ids t) -> In p (fids F).
Proof. intros H1 H2. apply in_flat_map. now exists (t, o). Qed.
Lemma fids_app F G : fids (F ++ G) = fids F ++ fids G.
Proof. apply flat_map_app. Qed.
Lemma fids_cons t o F : fids ((t, o) :: F) = ids t ++ fids F.
Proof. reflexivity. Qed.

Lemma Inv_perm s F F' : Permutation F F' -> Inv s F -> Inv s F'.
Proof.
  intros P [D L R H V Nx Nh]. assert (P' : Permutation (fids F) (fids F')) by (now apply Permutation_flat_map).
  constructor; try assumption.
  - now apply (Permutation_NoDup P').
  - intros p Lp. apply (Permutation_in _ P'). auto.
  - intros t o I. apply R. now apply (Permutation_in _ (Permutation_sym P)).
  - intros t h I. apply H. now apply (Permutation_in _ (Permutation_sym P)).
  - intros h x E Vx. destruct (V h x E Vx) as (t & I). exists t. now apply (Permutation_in _ P).
Qed.

Lemma pick {A} (x : A) l : In x l -> exists r, Permutation l (x :: r).
Proof. intros I. apply in_split in I as (l1 & l2 & ->). exists (l1 ++ l2). symmetry. apply Permutation_middle. Qed.

Lemma own_unique s t h F t' : Inv s ((t, Some h) :: F) -> ~ In (t', Some h) F.
Proof.
  intros I J. destruct (i_hand _ _ I t h) as (k & E & _); [now left|].
  destruct (i_hand _ _ I t' h) as (k' & E' & _); [now right|].
  rewrite E in E'. injection E' as _ E'. pose proof (i_dup _ _ I) as D. rewrite fids_cons in D.
  apply (NoDup_app_out _ _ (root t) D); [apply root_in|]. rewrite E'. eapply in_fids; [exact J|apply root_in].
Qed.

(** Replacing some trees by others. *)
Lemma Inv_upd s s' G G' F (T : list nat) : Inv s (G ++ F) ->
  NoDup (fids G') -> (forall p, In p (fids G') -> ~ In p (fids F)) ->
  (forall p, In p (fids F) -> obj s' p = obj s p) ->
  (forall p, obj s' p <> None -> In p (fids G') \/ In p (fids F)) ->
  nxt s <= nxt s' -> (forall p, In p (fids G') -> p < nxt s') ->
  (forall t o, In (t, o) G' -> repr (obj s') t (own o)) ->
  (forall t h, In (t, Some h) G' -> exists k, hs s' h = Some (mkHnd k true (Some (root t))) /\ kfits k t = true) ->
  (forall h, ~ In h T -> hs s' h = hs s h) ->
  (forall h t, In h T -> ~ In (t, Some h) F) ->
  (forall h x, In h T -> hs s' h = Some x -> hv x = true -> exists t, In (t, Some h) G') ->
  (forall h t, ~ In h T -> In (t, Some h) G -> exists t', In (t', Some h) G') ->
  (forall h, hs s' h <> None -> h < nxh s') ->
  Inv s' (G' ++ F).
Proof.
  intros I D1 D2 O L' N1 N2 R' H' K T1 T2 T3 M. destruct I as [D L R H V Nx Nh].
  rewrite fids_app in D. assert (DF := NoDup_app_r _ _ D). constructor.
  - rewrite fids_app. apply NoDup_app_mk; auto.
  - intros p Lp. rewrite fids_app. apply in_or_app. auto.
  - intros t o J. apply in_app_or in J as [J|J]; [auto|].
    apply (frame (obj s)); [apply R; apply in_or_app; now right|]. intros p Ip. apply O. eapply in_fids; eassumption.
  - intros t h J. apply in_app_or in J as [J|J]; [auto|].
    destruct (in_dec Nat.eq_dec h T) as [J'|J']; [exfalso; eapply T1; eassumption|].
    rewrite K by assumption. apply H. apply in_or_app; now right.
  - intros h x E Vx. destruct (in_dec Nat.eq_dec h T) as [J|J].
    + destruct (T2 h x J E Vx) as (t & J'). exists t. apply in_or_app; now left.
    + rewrite K in E by assumption. destruct (V h x E Vx) as (t & J'). apply in_app_or in J' as [J'|J'].
      * destruct (T3 h t J J') as (t' & J''). exists t'. apply in_or_app; now left.
      * exists t. apply in_or_app; now right.
  - intros p Lp. destruct (L' p Lp) as [J|J]; [auto|]. rewrite O in Lp by assumption. specialize (Nx p Lp). lia.
  - assumption.
Qed.

Lemma Inv_hs s s' F : Inv s F -> obj s' = obj s -> nxt s' = nxt s -> nxh s' = nxh s -> (forall h, hs s' h = hs s h) -> Inv s' F.
Proof.
  intros [D L R H V Nx Nh] E1 E2 E3 E4. constructor; rewrite ?E1, ?E2, ?E3; try assumption.
  - intros t h J. rewrite E4. auto.
  - intros h x E. rewrite E4 in E. eauto.
  - intros h. rewrite E4. auto.
Qed.

Lemma Inv_in_live s F t o q : Inv s F -> In (t, o) F -> In q (ids t) -> obj s q <> None.
Proof. intros I J Iq. eapply repr_live; [eapply (i_repr _ _ I); eassumption|assumption]. Qed.
Lemma Inv_in_below s F t o q : Inv s F -> In (t, o) F -> In q (ids t) -> q < nxt s.
Proof. intros I J Iq. apply (i_nxt _ _ I). eapply Inv_in_live; eassumption. Qed.
Lemma Inv_NoDup s F t o : Inv s F -> In (t, o) F -> NoDup (ids t).
Proof.
  intros I J. destruct (pick _ _ J) as (r & P). apply (Inv_perm _ _ _ P) in I. pose proof (i_dup _ _ I) as D.
  rewrite fids_cons in D. now apply NoDup_app_l in D.
Qed.
Lemma Inv_fids_below s F q : Inv s F -> In q (fids F) -> q < nxt s.
Proof. intros I J. apply in_flat_map in J as ((t, o) & J1 & J2). eapply Inv_in_below; eassumption. Qed.

Lemma empty_inv : Inv empty [].
Proof. constructor; cbn; try congruence; try constructor; try contradiction. Qed.

(** ** Handles *)

Definition new_tree (k : kind) (p : nat) : gt :=
  match k with KSeg => L p | KOut => N p false [] [] [] | KPcb => N p true [] [] [] end.
Lemma new_tree_ids k p : ids (new_tree k p) = [p].
Proof. destruct k; reflexivity. Qed.
Lemma new_tree_root k p : root (new_tree k p) = p.
Proof. destruct k; reflexivity. Qed.
Lemma new_tree_fits k p : kfits k (new_tree k p) = true.
Proof. destruct k; reflexivity. Qed.
Lemma new_tree_repr ob k p fl : ob p = Some (with_flags fl (fresh k)) -> repr ob (new_tree k p) fl.
Proof. destruct k; intros E; constructor; cbn in *; try assumption; contradiction. Qed.

Lemma fresh_flags k : flags (fresh k) = [].
Proof. destruct k; reflexivity. Qed.

(** A handle which has no object gets a new one. *)
Lemma give_new s F h k q : Inv s F -> hs s h = Some (mkHnd k false q) ->
  exists s3, attach_flag (nxt s) h (alloc (fresh k) (set_hnd h (Some (mkHnd k false (Some (nxt s)))) s)) = Some s3 /\
    Inv s3 ((new_tree k (nxt s), Some h) :: F).
Proof.
  intros I E. unfold attach_flag. cbn [alloc set_hnd obj nxt hs nxh]. rewrite put_eq. cbn [bind].
  unfold write_flag. cbn [alloc set_hnd hs]. rewrite put_eq. cbn [bind hk hp]. rewrite fresh_flags. cbn [has app].
  eexists. split; [reflexivity|].
  assert (NF : ~ In (nxt s) (fids F)). { intros J. pose proof (Inv_fids_below _ _ _ I J). lia. }
  apply (Inv_upd s _ [] [(new_tree k (nxt s), Some h)] F [h]); cbn [alloc set_obj set_hnd obj hs nxt nxh app]; try assumption.
  - rewrite fids_cons, new_tree_ids. repeat constructor. intros [].
  - rewrite fids_cons, new_tree_ids. intros p [<-|[]]. assumption.
  - intros p J. rewrite !put_ne; [reflexivity| |]; intros ->; contradiction.
  - intros p Lp. destruct (Nat.eq_dec p (nxt s)) as [->|NE].
    + left. rewrite fids_cons, new_tree_ids. now left.
    + right. rewrite !put_ne in Lp by assumption. now apply (i_live _ _ I).
  - lia.
  - rewrite fids_cons, new_tree_ids. intros p [<-|[]]. lia.
  - intros t o [J|[]]. injection J as <- <-. apply new_tree_repr. cbn [own]. apply put_eq.
  - intros t g [J|[]]. injection J as <- <-. exists k. rewrite put_eq, new_tree_root, new_tree_fits. auto.
  - intros g NI. rewrite !put_ne; [reflexivity| |]; intros ->; apply NI; now left.
  - intros g t [<-|[]] J. destruct (i_hand _ _ I t h J) as (k' & E' & _). rewrite E in E'. discriminate.
  - intros g x [<-|[]] _ _. exists (new_tree k (nxt s)). now left.
  - intros g t _ [].
  - intros g Lg. destruct (Nat.eq_dec g h) as [->|NE].
    + apply (i_nxh _ _ I). rewrite E. discriminate.
    + rewrite !put_ne in Lg by assumption. now apply (i_nxh _ _ I).
Qed.

Lemma make_ok s F k c : Inv s F -> exists s' F', make k c s = Some (s', true) /\ Inv s' F' /\
  (F' = F \/ exists t, F' = (t, Some (nxh s)) :: F).
Proof.
  intros I. unfold make. set (s1 := mkSt (obj s) (nxt s) (put (hs s) (nxh s) (Some (mkHnd k false None))) (S (nxh s))).
  assert (I1 : Inv s1 F).
  { apply (Inv_upd s s1 [] [] F [nxh s]); cbn; try assumption; try apply NoDup_nil; try contradiction; auto.
    - intros p Lp. right. now apply (i_live _ _ I).
    - intros h NI. apply put_ne. intros ->. apply NI. now left.
    - intros h t [<-|[]] J. destruct (i_hand _ _ I t _ J) as (k' & E & _).
      assert (X : nxh s < nxh s) by (apply (i_nxh _ _ I); rewrite E; discriminate). lia.
    - intros h x [<-|[]] E. rewrite put_eq in E. injection E as <-. discriminate.
    - intros h Lh. destruct (Nat.eq_dec h (nxh s)) as [->|NE]; [lia|]. rewrite put_ne in Lh by assumption.
      pose proof (i_nxh _ _ I h Lh). lia. }
  destruct c; [|exists s1, F; auto].
  unfold new_obj. cbn [hs s1]. rewrite put_eq. cbn [bind has_obj hv hk].
  destruct (give_new s1 F (nxh s) k None I1) as (s3 & E3 & I3); [cbn; apply put_eq|].
  fold s1. rewrite E3. cbn [bind]. exists s3, ((new_tree k (nxt s1), Some (nxh s)) :: F).
  split; [reflexivity|]. split; [assumption|]. right. now exists (new_tree k (nxt s1)).
Qed.

(** A valid handle and its tree. *)
Lemma handle_tree s F h x p : Inv s F -> hs s h = Some x -> has_obj x = Some p ->
  exists t F', Permutation F ((t, Some h) :: F') /\ root t = p /\ x = mkHnd (hk x) true (Some p) /\ kfits (hk x) t = true.
Proof.
  intros I E V. unfold has_obj in V. destruct (hv x) eqn:Vx; [|discriminate].
  destruct (i_valid _ _ I h x E Vx) as (t & J). destruct (pick _ _ J) as (F' & P). exists t, F'.
  destruct (i_hand _ _ I t h J) as (k & E' & Fk). rewrite E in E'. injection E' as ->. cbn in V. injection V as <-. auto.
Qed.

Lemma handle_none s F h x : Inv s F -> hs s h = Some x -> has_obj x = None -> hv x = false.
Proof.
  intros I E V. unfold has_obj in V. destruct (hv x) eqn:Vx; [|reflexivity].
  destruct (i_valid _ _ I h x E Vx) as (t & J). destruct (i_hand _ _ I t h J) as (k & E' & _).
  rewrite E in E'. injection E' as ->. discriminate.
Qed.

(** Deleting the tree of a handle, before or after its flag was taken off. *)
Lemma del_tree s t o F : Inv s ((t, o) :: F) -> exists s', del (root t) s = Some s' /\ wiped (ids t) (own o) s s' /\ Inv s' F.
Proof.
  intros I. destruct (del_do t (own o) s) as (s' & E & W).
  - apply (i_repr _ _ I). now left.
  - eapply Inv_NoDup; [exact I|now left].
  - intros q J. eapply Inv_in_below; [exact I|now left|exact J].
  - destruct o; repeat constructor. intros [].
  - destruct o as [h|]; [|intros ? []]. intros g [<-|[]]. destruct (i_hand _ _ I t h) as (k & E & _); [now left|].
    rewrite E. discriminate.
  - exists s'. split; [assumption|]. split; [assumption|]. destruct W as (W1 & W2 & W3 & W4).
    pose proof (i_dup _ _ I) as D. rewrite fids_cons in D.
    apply (Inv_upd s s' [(t, o)] [] F (own o)); try assumption; try (cbn; contradiction); try (cbn; apply NoDup_nil).
    + intros p J. rewrite W1. destruct (has p (ids t)) eqn:X; [|reflexivity]. apply has_in in X. exfalso.
      now apply (NoDup_app_out _ _ p D X).
    + intros p Lp. rewrite W1 in Lp. destruct (has p (ids t)) eqn:X; [congruence|]. apply has_out in X.
      pose proof (i_live _ _ I p Lp) as J. rewrite fids_cons in J. apply in_app_or in J as [J|J]; [contradiction|auto].
    + rewrite W3. lia.
    + intros g NI. rewrite W2. unfold clr. now rewrite (proj2 (has_out _ _) NI).
    + destruct o as [h|]; [|intros ? ? []]. intros g t' [<-|[]] J. now apply (own_unique _ _ _ _ t' I).
    + destruct o as [h|]; [|intros ? ? []]. intros g x [<-|[]] E'. rewrite W2 in E'. unfold clr in E'. cbn in E'.
      rewrite Nat.eqb_refl in E'. cbn in E'. destruct (hs s h); [|discriminate]. injection E' as <-. discriminate.
    + intros g t' NI [J|[]]. injection J as <- ->. exfalso. apply NI. now left.
    + intros g Lg. rewrite W4. apply (i_nxh _ _ I). rewrite W2 in Lg. unfold clr in Lg.
      destruct (has g (own o)); [|assumption]. destruct (hs s g); [discriminate|assumption].
Qed.

(** Taking a flag off. *)
Lemma let_go s t h F : Inv s ((t, Some h) :: F) -> exists k s1, hs s h = Some (mkHnd k true (Some (root t))) /\
  detach_flag (root t) h s = Some s1 /\ hs s1 h = Some (mkHnd k false (Some (root t))) /\
  (forall g, g <> h -> hs s1 g = hs s g) /\ (forall q, q <> root t -> obj s1 q = obj s q) /\
  Inv s1 ((t, None) :: F).
Proof.
  intros I. destruct (i_hand _ _ I t h) as (k & E & Fk); [now left|].
  assert (R : repr (obj s) t [h]) by (apply (i_repr _ _ I t (Some h)); now left).
  destruct (repr_root _ _ _ R) as (g & Eg & Fg & _).
  exists k. unfold detach_flag. rewrite Eg. cbn [bind]. rewrite Fg. cbn [has rem1]. rewrite Nat.eqb_refl. cbn [orb].
  unfold write_flag. rewrite E. cbn [bind hk hp]. eexists. split; [reflexivity|]. split; [reflexivity|].
  cbn [set_obj set_hnd hs obj]. rewrite put_eq. split; [reflexivity|]. split; [intros; now apply put_ne|].
  split; [intros; now apply put_ne|].
  pose proof (Inv_NoDup _ _ _ _ I (or_introl eq_refl)) as Dt.
  pose proof (i_dup _ _ I) as D. rewrite fids_cons in D.
  change ((t, None) :: F) with ([(t, None)] ++ F).
  apply (Inv_upd s _ [(t, Some h)] [(t, None)] F [h]); try assumption; cbn [set_obj set_hnd hs obj nxt nxh].
  - now rewrite fids_cons, app_nil_r.
  - rewrite fids_cons, app_nil_r. intros p J. now apply (NoDup_app_out _ _ p D).
  - intros p J. apply put_ne. intros ->. apply (NoDup_app_out _ _ _ D (root_in t) J).
  - intros p Lp. destruct (Nat.eq_dec p (root t)) as [->|NE].
    + left. rewrite fids_cons, app_nil_r. apply root_in.
    + rewrite put_ne in Lp by assumption. pose proof (i_live _ _ I p Lp) as J. rewrite fids_cons in J.
      rewrite fids_cons, app_nil_r. now apply in_app_or.
  - lia.
  - rewrite fids_cons, app_nil_r. intros p J. eapply Inv_in_below; [exact I|now left|exact J].
  - intros t' o' [J|[]]. injection J as <- <-. cbn [own]. now apply (repr_flag _ _ [h]).
  - intros t' g' [J|[]]. discriminate.
  - intros g' NI. apply put_ne. intros ->. apply NI. now left.
  - intros g' t' [<-|[]]. now apply (own_unique _ _ _ _ t' I).
  - intros g' x [<-|[]] E'. rewrite put_eq in E'. injection E' as <-. discriminate.
  - intros g' t' NI [J|[]]. injection J as <- <-. exfalso. apply NI. now left.
  - intros g' Lg. destruct (Nat.eq_dec g' h) as [->|NE]; [apply (i_nxh _ _ I); rewrite E; discriminate|].
    rewrite put_ne in Lg by assumption. now apply (i_nxh _ _ I).
Qed.

(** Changing a handle which is not valid and stays so. *)
Lemma Inv_hnd s F h x v : Inv s F -> hs s h = Some x -> hv x = false ->
  match v with Some y => hv y = false | None => True end -> Inv (set_hnd h v s) F.
Proof.
  intros I E V V'. apply (Inv_upd s (set_hnd h v s) [] [] F [h]); cbn; try assumption; try apply NoDup_nil; try contradiction; auto.
  - intros p Lp. right. now apply (i_live _ _ I).
  - intros g NI. apply put_ne. intros ->. apply NI. now left.
  - intros g t [<-|[]] J. destruct (i_hand _ _ I t _ J) as (k & E' & _). rewrite E in E'. injection E' as ->. discriminate.
  - intros g y [<-|[]] E' Vy. rewrite put_eq in E'. subst v. congruence.
  - intros g Lg. destruct (Nat.eq_dec g h) as [->|NE]; [apply (i_nxh _ _ I); rewrite E; discriminate|].
    rewrite put_ne in Lg by assumption. now apply (i_nxh _ _ I).
Qed.

Lemma destroy_ok s F h x : Inv s F -> hs s h = Some x -> exists s' F', destroy h s = Some (s', true) /\ Inv s' F' /\
  match has_obj x with
  | Some p => exists t, Permutation F ((t, Some h) :: F') /\ root t = p /\ (forall q, obj s' q = if has q (ids t) then None else obj s q)
  | None => F' = F /\ obj s' = obj s
  end /\ (forall g, hs s' g = if g =? h then None else hs s g).
Proof.
  intros I E. unfold destroy. rewrite E. cbn [bind]. destruct (has_obj x) as [p|] eqn:V.
  - destruct (handle_tree _ _ _ _ _ I E V) as (t & F' & P & <- & Ex & _). apply (Inv_perm _ _ _ P) in I.
    destruct (let_go _ _ _ _ I) as (k & s1 & _ & E1 & H1 & H2 & H3 & I1). rewrite E1. cbn [bind].
    destruct (del_tree _ _ _ _ I1) as (s2 & E2 & W & I2). rewrite E2. cbn [bind].
    destruct W as (W1 & W2 & _). cbn [own] in W2. unfold clr in W2. cbn in W2.
    exists (set_hnd h None s2), F'. split; [reflexivity|].
    split; [eapply Inv_hnd; [assumption|rewrite W2; exact H1|reflexivity|exact Logic.I]|]. split.
    + exists t. split; [assumption|]. split; [reflexivity|]. intros q. cbn. rewrite W1.
      destruct (has q (ids t)) eqn:X; [reflexivity|]. apply H3. intros ->. apply has_out in X. apply X, root_in.
    + intros g. cbn. unfold put. destruct (Nat.eqb_spec g h) as [->|NE]; [reflexivity|]. rewrite W2. now apply H2.
  - cbn [bind]. exists (set_hnd h None s), F. split; [reflexivity|].
    split; [eapply Inv_hnd; [assumption|exact E|eapply handle_none; eassumption|exact Logic.I]|].
    split; [now split|]. intros g. reflexivity.
Qed.

Lemma new_ok s F h x : Inv s F -> hs s h = Some x -> exists s' t F', new_obj h s = Some (s', true) /\ Inv s' ((t, Some h) :: F') /\
  match has_obj x with Some p => exists t0, Permutation F ((t0, Some h) :: F') /\ root t0 = p /\ obj s' p = None | None => F' = F end.
Proof.
  intros I E. unfold new_obj. rewrite E. cbn [bind]. destruct (has_obj x) as [p|] eqn:V.
  - destruct (handle_tree _ _ _ _ _ I E V) as (t & F' & P & <- & Ex & _). apply (Inv_perm _ _ _ P) in I.
    destruct (del_tree _ _ _ _ I) as (s1 & E1 & W & I1). rewrite E1. cbn [bind].
    destruct W as (W1 & W2 & W3 & W4).
    assert (H1 : hs s1 h = Some (mkHnd (hk x) false (Some (root t)))).
    { rewrite W2. unfold clr. cbn. rewrite Nat.eqb_refl. cbn. rewrite E, Ex. reflexivity. }
    destruct (give_new _ _ _ _ _ I1 H1) as (s3 & E3 & I3). rewrite E3. cbn [bind].
    exists s3, (new_tree (hk x) (nxt s1)), F'. split; [reflexivity|]. split; [assumption|]. exists t.
    split; [assumption|]. split; [reflexivity|].
    destruct (obj s3 (root t)) eqn:X; [|reflexivity]. exfalso.
    assert (J : In (root t) (fids ((new_tree (hk x) (nxt s1), Some h) :: F'))) by (apply (i_live _ _ I3); rewrite X; discriminate).
    rewrite fids_cons, new_tree_ids in J. destruct J as [J|J].
    + assert (root t < nxt s) by (eapply Inv_in_below; [exact I|now left|apply root_in]). lia.
    + pose proof (i_dup _ _ I) as D. rewrite fids_cons in D. now apply (NoDup_app_out _ _ _ D (root_in t)).
  - cbn [bind]. assert (E' : hs s h = Some (mkHnd (hk x) false (hp x))).
    { rewrite E. f_equal. rewrite <- (handle_none _ _ _ _ I E V). destruct x; reflexivity. }
    destruct (give_new _ _ _ _ _ I E') as (s3 & E3 & I3). rewrite E3. cbn [bind].
    exists s3, (new_tree (hk x) (nxt s)), F. auto.
Qed.

Lemma del_obj_ok s F h x : Inv s F -> hs s h = Some x -> exists s' b F', del_obj h s = Some (s', b) /\ Inv s' F' /\
  match has_obj x with Some p => exists t0, Permutation F ((t0, Some h) :: F') | None => F' = F end.
Proof.
  intros I E. unfold del_obj. rewrite E. cbn [bind]. destruct (has_obj x) as [p|] eqn:V.
  - destruct (handle_tree _ _ _ _ _ I E V) as (t & F' & P & <- & Ex & _). apply (Inv_perm _ _ _ P) in I.
    destruct (let_go _ _ _ _ I) as (k & s1 & _ & E1 & H1 & H2 & H3 & I1). rewrite E1. cbn [bind].
    destruct (del_tree _ _ _ _ I1) as (s2 & E2 & W & I2). rewrite E2. cbn [bind].
    destruct W as (W1 & W2 & _). cbn [own] in W2. unfold clr in W2. cbn in W2. rewrite W2, H1. cbn [bind hk hv].
    eexists _, true, F'. split; [reflexivity|]. split; [|now exists t].
    eapply Inv_hnd; [assumption|rewrite W2; exact H1|reflexivity|reflexivity].
  - exists s, false, F. auto.
Qed.

Lemma detach_ok s F h x : Inv s F -> hs s h = Some x -> exists s' F', detach h s = Some (s', true) /\ Inv s' F' /\
  match has_obj x with Some p => exists t F0, Permutation F ((t, Some h) :: F0) /\ F' = (t, None) :: F0 | None => F' = F end.
Proof.
  intros I E. unfold detach. rewrite E. cbn [bind]. destruct (has_obj x) as [p|] eqn:V.
  - destruct (handle_tree _ _ _ _ _ I E V) as (t & F' & P & <- & Ex & _). apply (Inv_perm _ _ _ P) in I.
    destruct (let_go _ _ _ _ I) as (k & s1 & _ & E1 & H1 & H2 & H3 & I1). rewrite E1. cbn [bind].
    eexists _, ((t, None) :: F'). split; [reflexivity|]. split; [|now exists t, F'].
    eapply Inv_hnd; [assumption|exact H1|reflexivity|reflexivity].
  - cbn [bind]. eexists _, F. split; [reflexivity|]. split; [|reflexivity].
    eapply Inv_hnd; [assumption|exact E|eapply handle_none; eassumption|reflexivity].
Qed.
