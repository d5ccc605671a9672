(* A check that a history is sane, for the concrete cases. *)
From Coq Require Import List Bool ZArith Lia.
From Verif Require Import HandleModel HandleSpec HandleFacts HandleOps.
Import ListNotations.
Open Scope Z_scope.

Definition typeb (s : st) (o : nat) (t : Z) : bool := match obj s o with Some x => o_type x =? t | None => false end.
Definition entityb (s : st) (o : nat) : bool := match obj s o with Some x => negb (o_type x =? -1) | None => false end.
Definition handleb (s : st) (h : nat) (t : Z) : bool := match hnd s h with Some x => h_type x =? t | None => false end.
Definition ehandleb (s : st) (h : nat) : bool := match hnd s h with Some x => negb (h_type x =? -1) | None => false end.
Definition storesb (s : st) (m e : nat) : bool := has e (ents s m).
Definition unstoredb (s : st) (e : nat) : bool := forallb (fun m => negb (storesb s m e)) (seq 0 (length (objs s))).
Definition opt {A} (f : A -> bool) (x : option A) : bool := match x with Some a => f a | None => true end.

Definition saneb (s : st) (o : op) : bool :=
  match o with
  | MakeEntity t => negb (t =? -1)
  | MakeModel | DNew => true
  | Delete e => entityb s e && unstoredb s e
  | DeleteModel m | MClear m | MDel m _ | MUnlink m _ => typeb s m (-1)
  | MNew m t => typeb s m (-1) && negb (t =? -1)
  | MAdd m e => typeb s m (-1) && entityb s e && forallb (fun k => Nat.eqb k m || negb (storesb s k e)) (seq 0 (length (objs s)))
  | HNew t p _ => zhas t handle_types && opt (fun m => typeb s m (-1)) p
  | HNewVia t d _ => zhas t handle_types && handleb s d (-1)
  | HDestroy h | HDetach h | HNewEntity h => ehandleb s h
  | HAttach h e => ehandleb s h && entityb s e
  | HDel h => ehandleb s h && opt (unstoredb s) (attached s h)
  | HSetParent h p => ehandleb s h && opt (fun m => typeb s m (-1)) p
  | HSetParentVia h d => ehandleb s h && handleb s d (-1)
  | HRaw h => ehandleb s h || handleb s h (-1)
  | DDestroy d => handleb s d (-1)
  | DNewEntity d t => handleb s d (-1) && (zhas t api_types || match attached s d with None => true | Some _ => false end)
  end.
Fixpoint sane_runb (l : list op) (s : st) : bool :=
  match l with
  | [] => true
  | o :: r => saneb s o && match run o s with Some s1 => sane_runb r s1 | None => true end
  end.

Lemma typeb_ok s o t : typeb s o t = true -> of_type s o t.
Proof. unfold typeb. destruct (obj s o) as [x|] eqn:O; [|discriminate]. intros H. apply Z.eqb_eq in H. exists x. auto. Qed.
Lemma entityb_ok s o : entityb s o = true -> entity s o.
Proof.
  unfold entityb. destruct (obj s o) as [x|] eqn:O; [|discriminate]. intros H. apply negb_true_iff, Z.eqb_neq in H. exists (o_type x). split; [exists x; auto|assumption].
Qed.
Lemma handleb_ok s h t : handleb s h t = true -> handle s h t.
Proof. unfold handleb. destruct (hnd s h) as [x|] eqn:O; [|discriminate]. intros H. apply Z.eqb_eq in H. exists x. auto. Qed.
Lemma ehandleb_ok s h : ehandleb s h = true -> ehandle s h.
Proof.
  unfold ehandleb. destruct (hnd s h) as [x|] eqn:O; [|discriminate]. intros H. apply negb_true_iff, Z.eqb_neq in H. exists (h_type x). split; [exists x; auto|assumption].
Qed.
Lemma storesb_ok s m e : storesb s m e = true <-> stores s m e.
Proof. unfold storesb. now rewrite has_in, stores_ents. Qed.
Lemma stores_lt s m e : stores s m e -> In m (seq 0 (length (objs s))).
Proof. intros (x & O & _). apply in_seq. apply obj_lt in O. lia. Qed.
Lemma unstoredb_ok s e : unstoredb s e = true -> forall m, ~ stores s m e.
Proof.
  unfold unstoredb. rewrite forallb_forall. intros H m Hs. specialize (H m (stores_lt _ _ _ Hs)). apply storesb_ok in Hs. rewrite Hs in H. discriminate.
Qed.
Lemma zhas_ok t l : zhas t l = true -> In t l.
Proof. unfold zhas. rewrite existsb_exists. intros (y & H & E). apply Z.eqb_eq in E. now subst y. Qed.

Lemma saneb_ok s o : saneb s o = true -> sane s o.
Proof.
  destruct o; cbn [saneb sane]; intros H; repeat match goal with X : _ && _ = true |- _ => apply andb_prop in X; destruct X end; auto using typeb_ok, ehandleb_ok.
  - now apply negb_true_iff, Z.eqb_neq in H.
  - split; [now apply entityb_ok|now apply unstoredb_ok].
  - now apply typeb_ok.
  - split; [now apply typeb_ok|]. now apply Z.eqb_neq, negb_true_iff.
  - split; [now apply typeb_ok|]. split; [now apply entityb_ok|]. intros k Hk.
    match goal with X : forallb _ _ = true |- _ => rewrite forallb_forall in X; specialize (X k (stores_lt _ _ _ Hk)); apply storesb_ok in Hk; rewrite Hk in X; cbn in X end.
    rewrite orb_false_r in *. now apply Nat.eqb_eq.
  - now apply typeb_ok.
  - now apply typeb_ok.
  - now apply typeb_ok.
  - split; [now apply zhas_ok|]. intros m ->. now apply typeb_ok.
  - split; [now apply zhas_ok|]. now apply handleb_ok.
  - split; [now apply ehandleb_ok|now apply entityb_ok].
  - split; [now apply ehandleb_ok|]. intros e m A. rewrite A in *. now apply unstoredb_ok.
  - split; [now apply ehandleb_ok|]. intros m ->. now apply typeb_ok.
  - split; [now apply ehandleb_ok|now apply handleb_ok].
  - apply orb_prop in H. destruct H; [left; now apply ehandleb_ok|right; now apply handleb_ok].
  - now apply handleb_ok.
  - split; [now apply handleb_ok|]. intros A. match goal with X : _ || _ = true |- _ => apply orb_prop in X; destruct X as [X|X] end; [now apply zhas_ok|].
    destruct (attached s d); [discriminate|congruence].
Qed.
Lemma sane_runb_ok l : forall s, sane_runb l s = true -> sane_run l s.
Proof.
  induction l as [|o l IH]; intros s H; cbn [sane_runb sane_run] in *; [exact I|]. apply andb_prop in H. destruct H as [H1 H2].
  split; [now apply saneb_ok|]. intros s1 E. rewrite E in H2. auto.
Qed.

(* the state after a history *)
Definition after (l : list op) : st := match runs l empty with Some s => s | None => empty end.
Definition finishes (l : list op) : bool := match runs l empty with Some _ => true | None => false end.
Lemma after_reached l : sane_runb l empty && finishes l = true -> reached (after l).
Proof.
  intros H. apply andb_prop in H. destruct H as [A B]. exists l. split; [now apply sane_runb_ok|]. unfold after, finishes in *. now destruct (runs l empty).
Qed.
