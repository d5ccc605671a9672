(** Programs with geometry handles: some which go well, and some which do not. *)

From Coq Require Import List Bool Arith ZArith Lia.
From Verif Require Import GhModel GhSpec GhTree GhInv GhFacts GhRun GhList GhListFacts.
Import ListNotations.

Definition stored : cutans := mkCut false false (NotMerged 0 0, false) [].

(** A board with a segment, a cutout with its own segment, a drill hole, and a circle
    merged into the edge. *)
Definition board : list op :=
  [Make KPcb true; Make KSeg true; AddSegment 0 (ByHandle 1) true;
   Make KOut true; Make KSeg true; AddSegment 2 (ByHandle 3) true; AddCutout 0 (ByHandle 2) stored;
   Make KSeg true; AddHole 0 (ByHandle 4) stored;
   Make KSeg true; MergeCircle 0 (ByHandle 5) (Merged (fun _ => false) 2)].
Definition after (l : list op) : st := match run l empty with Some s => s | None => empty end.

(** ** Deciding whether a program is careful *)

Definition owns_b (s : st) (p h : nat) : bool :=
  match hs s h with Some (mkHnd _ true (Some q)) => q =? p | _ => false end.
Definition nobodys_b (s : st) (p : nat) : bool :=
  match obj s p with
  | None => false
  | Some _ =>
      forallb (fun q => match obj s q with Some g => negb (has p (listed g)) | None => true end) (seq 0 (nxt s)) &&
      forallb (fun h => negb (owns_b s p h)) (seq 0 (nxh s))
  end.
Definition class_b (s : st) (h : nat) (out : bool) : bool :=
  match hs s h with Some x => Bool.eqb (match hk x with KSeg => false | _ => true end) out | None => false end.
Definition arg_b (s : st) (h : nat) (out : bool) (a : arg) : bool :=
  match a with
  | ByHandle g => negb (g =? h) && class_b s g out
  | ByPtr p => nobodys_b s p && match obj s p with Some g => Bool.eqb (is_out g) out | None => false end
  end.
Definition there_b (s : st) (h : nat) : bool := match hs s h with Some _ => true | None => false end.
Definition careful_b (s : st) (o : op) : bool :=
  match o with
  | Make _ _ => true
  | Destroy h | New h | Del h | Detach h => there_b s h
  | Attach h p => there_b s h && nobodys_b s p
  | Copy _ => false
  | AddSegment h a _ => class_b s h true && arg_b s h false a
  | Merge h a _ => class_b s h true && arg_b s h true a
  | MergeCircle h a _ => class_b s h true && arg_b s h false a
  | AddCutout h a _ => class_b s h true && arg_b s h true a
  | AddHole h a _ => class_b s h true && arg_b s h false a
  end.
Fixpoint careful_run_b (l : list op) (s : st) : bool :=
  match l with
  | [] => true
  | o :: r => careful_b s o && match exec o s with Some (s', _) => careful_run_b r s' | None => true end
  end.

Lemma there_ok s h : there_b s h = true -> hs s h <> None.
Proof. unfold there_b. destruct (hs s h); [discriminate|discriminate]. Qed.
Lemma class_ok s h out : class_b s h out = true -> if out then outline_handle s h else segment_handle s h.
Proof.
  unfold class_b. destruct (hs s h) as [x|] eqn:E; [|discriminate]. intros B. apply eqb_prop in B.
  destruct out; exists x; (split; [assumption|]); destruct (hk x); congruence.
Qed.
Lemma nobodys_ok s F p : Inv s F -> nobodys_b s p = true -> nobodys s p.
Proof.
  intros I. unfold nobodys_b. destruct (obj s p) eqn:E; [|discriminate]. intros B. apply andb_prop in B as [B1 B2].
  rewrite forallb_forall in B1, B2. split; [unfold live; congruence|]. split.
  - intros (q & g' & Eq & Q). assert (Lq : q < nxt s).
    { assert (L' : live s q) by (unfold live; congruence). destruct (live_tree _ _ _ I L') as (t & o & J & Jq). eapply Inv_in_below; eassumption. }
    specialize (B1 q). rewrite Eq in B1. assert (X : negb (has p (listed g')) = true) by (apply B1, in_seq; lia).
    apply has_in in Q. rewrite Q in X. discriminate.
  - intros h (x & Ex & Vx & Px). assert (Lh : h < nxh s) by (apply (i_nxh _ _ I); congruence).
    assert (X : negb (owns_b s p h) = true) by (apply B2, in_seq; lia). unfold owns_b in X. rewrite Ex in X. destruct x as [k v q]. cbn in Vx, Px.
    subst v q. rewrite Nat.eqb_refl in X. discriminate.
Qed.
Lemma arg_ok s F h out a : Inv s F -> arg_b s h out a = true -> good_arg s h out a.
Proof.
  intros I. destruct a as [g|p]; cbn [arg_b good_arg]; intros B; apply andb_prop in B as [B1 B2].
  - split; [|now apply class_ok]. intros ->. rewrite Nat.eqb_refl in B1. discriminate.
  - split; [now apply (nobodys_ok s F)|]. destruct (obj s p) as [g|]; [|discriminate]. exists g. split; [reflexivity|]. now apply eqb_prop.
Qed.
Lemma careful_ok s F o : Inv s F -> careful_b s o = true -> careful s o.
Proof.
  intros I. destruct o; cbn [careful_b careful]; intros B; try exact Logic.I; try (now apply there_ok); try discriminate;
    apply andb_prop in B as [B1 B2]; (split; [first [now apply there_ok|exact (class_ok s h true B1)]|]).
  1: now apply (nobodys_ok s F). all: eapply arg_ok; eassumption.
Qed.
Lemma careful_run_ok l : forall s F, Inv s F -> careful_run_b l s = true -> careful_run l s.
Proof.
  induction l as [|o r IH]; intros s F I B; cbn [careful_run_b careful_run] in *; [exact Logic.I|]. apply andb_prop in B as [B1 B2].
  pose proof (careful_ok _ _ _ I B1) as K. split; [assumption|]. intros s' b E. rewrite E in B2.
  destruct (exec_ok _ _ _ I K) as (s1 & b1 & F1 & E1 & I1 & _). rewrite E in E1. injection E1 as <- <-. eapply IH; eassumption.
Qed.
Lemma careful_by l : careful_run_b l empty = true -> careful_run l empty.
Proof. apply (careful_run_ok l empty []). exact empty_inv. Qed.

(** The state such a program ends in. *)
Lemma reached_after l : careful_run_b l empty = true -> reached (after l).
Proof.
  intros B. apply careful_by in B. exists l. split; [assumption|]. unfold after. destruct (careful_safe l B) as (s & E & _). now rewrite E.
Qed.

Lemma board_careful : careful_run board empty.
Proof. apply careful_by. vm_compute. reflexivity. Qed.
Lemma board_reached : reached (after board).
Proof. apply reached_after. vm_compute. reflexivity. Qed.
Lemma board_owns : owns (after board) 0 0.
Proof. eexists. split; [vm_compute; reflexivity|]. auto. Qed.

(** The board lists two new segments, the cutout and the drill hole; the cutout lists
    its segment; the first segment and the circle are gone. *)
Lemma board_lists :
  obj (after board) 0 = Some (Out true [0] [6; 7] [2] [4]) /\ obj (after board) 2 = Some (Out false [] [3] [] []) /\
  obj (after board) 1 = None /\ obj (after board) 5 = None /\ obj (after board) 3 = Some (Seg []) /\ obj (after board) 4 = Some (Seg []) /\
  hs (after board) 2 = Some (mkHnd KOut false None).
Proof. vm_compute. auto 10. Qed.

Lemma board_inside : inside (after board) 0 3 /\ inside (after board) 0 6.
Proof.
  split.
  - apply (in_listed _ 0 2 3); [eexists; split; [vm_compute; reflexivity|cbn; auto]|].
    apply (in_listed _ 2 3 3); [eexists; split; [vm_compute; reflexivity|cbn; auto]|apply in_self].
  - apply (in_listed _ 0 6 6); [eexists; split; [vm_compute; reflexivity|cbn; auto]|apply in_self].
Qed.

Lemma board_closed : run (board ++ [Destroy 0]) empty <> None /\ obj (after (board ++ [Destroy 0])) 3 = None /\
  Forall keeps_all (board ++ [Destroy 0]).
Proof. split; [vm_compute; discriminate|]. split; [vm_compute; reflexivity|]. unfold board. cbn [app]. repeat constructor. Qed.

(** One more call on the board: a segment which is refused, and one which is taken. *)
Definition before_add : list op := board ++ [Make KSeg true].
Lemma before_add_reached : reached (after before_add).
Proof. apply reached_after. vm_compute. reflexivity. Qed.
Lemma before_add_owns : owns (after before_add) 6 8.
Proof. eexists. split; [vm_compute; reflexivity|]. auto. Qed.
Lemma add_careful y : careful (after before_add) (AddSegment 0 (ByHandle 6) y).
Proof.
  split; [eexists; split; [vm_compute; reflexivity|discriminate]|]. split; [discriminate|]. eexists. split; [vm_compute; reflexivity|reflexivity].
Qed.
Lemma add_answers : (forall s b, exec (AddSegment 0 (ByHandle 6) true) (after before_add) = Some (s, b) -> b = true) /\
  (forall s b, exec (AddSegment 0 (ByHandle 6) false) (after before_add) = Some (s, b) -> b = false).
Proof.
  assert (A : forall y, option_map snd (exec (AddSegment 0 (ByHandle 6) y) (after before_add)) = Some y) by (intros []; vm_compute; reflexivity).
  split; intros s b E; [pose proof (A true) as X|pose proof (A false) as X]; rewrite E in X; now injection X.
Qed.

(** Detached, attached to another handle, destroyed by that one. *)
Definition moved : list op := board ++ [Detach 0; Make KPcb false; Attach 6 0; Destroy 0; Destroy 6].
Lemma moved_careful : careful_run moved empty.
Proof. apply careful_by. vm_compute. reflexivity. Qed.
Lemma moved_gone : obj (after moved) 0 = None /\ obj (after (board ++ [Detach 0; Make KPcb false; Attach 6 0; Destroy 0])) 0 <> None.
Proof. split; [vm_compute; reflexivity|vm_compute; discriminate]. Qed.

(** ** What is not careful goes wrong *)

Definition crashes (l : list op) : Prop := run l empty = None.
Definition fine (l : list op) : Prop := run l empty <> None.
Lemma by_test l b : (match run l empty with Some _ => true | None => false end) = b -> if b then fine l else crashes l.
Proof. unfold fine, crashes. destruct (run l empty); intros <-; [discriminate|reflexivity]. Qed.

(** A second handle attached to an object which already has one: the first destroys it,
    the second is told and holds its peace. *)
Lemma attached_twice : fine [Make KOut true; Make KOut false; Attach 1 0; Destroy 1; Destroy 0].
Proof. apply (by_test _ true). vm_compute. reflexivity. Qed.

(** A handle attached to a cutout of an outline destroys it, and then the outline does. *)
Definition attached_cutout : list op :=
  [Make KOut true; Make KOut true; AddCutout 0 (ByHandle 1) stored; Attach 1 1].
Lemma attached_cutout_crashes : fine (attached_cutout ++ [Destroy 0; Destroy 1]) /\ crashes (attached_cutout ++ [Destroy 1; Destroy 0]).
Proof. split; [apply (by_test _ true)|apply (by_test _ false)]; vm_compute; reflexivity. Qed.

(** A copy of a handle: it takes the object with it when it goes, and the handle is told;
    but it is not told when the handle goes first. *)
Lemma copied_crashes : crashes [Make KSeg true; Copy 0; Destroy 0; Destroy 1] /\
  fine [Make KSeg true; Copy 0; Destroy 1; Destroy 0] /\ hs (after [Make KSeg true; Copy 0; Destroy 1]) 0 = Some (mkHnd KSeg false (Some 0)).
Proof.
  split; [apply (by_test _ false); vm_compute; reflexivity|]. split; [apply (by_test _ true)|]; vm_compute; reflexivity.
Qed.

(** An outline as its own cutout. *)
Lemma own_cutout_crashes : fine [Make KOut true; AddCutout 0 (ByHandle 0) stored] /\
  crashes [Make KOut true; AddCutout 0 (ByPtr 0) stored; Destroy 0].
Proof. split; [apply (by_test _ true)|apply (by_test _ false)]; vm_compute; reflexivity. Qed.

(** The pointer of a handle, given away while the handle keeps it. *)
Lemma given_twice_crashes : crashes [Make KOut true; Make KSeg true; AddSegment 0 (ByPtr 1) true; Destroy 1; Destroy 0] /\
  fine [Make KOut true; Make KSeg true; AddSegment 0 (ByPtr 1) true; Detach 1; Destroy 1; Destroy 0].
Proof. split; [apply (by_test _ false)|apply (by_test _ true)]; vm_compute; reflexivity. Qed.

(** A handle attached to a cutout, whose board is destroyed. *)
Definition orphan : list op :=
  [Make KPcb true; Make KPcb true; AddCutout 0 (ByHandle 1) stored; Attach 1 1; Destroy 0].
Lemma orphan_left : fine orphan /\ left_over (after orphan) 1 1.
Proof.
  split; [apply (by_test _ true); vm_compute; reflexivity|]. eexists. split; [vm_compute; reflexivity|].
  split; [reflexivity|]. split; [reflexivity|]. intros X. apply X. vm_compute. reflexivity.
Qed.
