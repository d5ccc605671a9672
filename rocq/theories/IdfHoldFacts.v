(** Facts about the outlines which a section holds (IdfHold.v, IdfHoldSpec.v). *)

From Verif Require Import Base IdfText IdfPlace IdfHold IdfHoldSpec.
From Coq Require Import Lia.
Local Open Scope nat_scope.

Lemma may_iff s : may_edit s = true <-> may_change s.
Proof.
  unfold may_edit, may_change. destruct (h_parent s) as [c|].
  - split.
    + intros H. exists c. split; [reflexivity|]. destruct (h_owner s); [auto| |]; destruct (h_comp s), c; cbn in H; intuition congruence.
    + intros (d & E & H). injection E as <-. destruct (h_owner s), (h_comp s), c; cbn; intuition congruence.
  - split; [discriminate|]. intros (c & E & _). discriminate.
Qed.

Lemma same_iff a b : same a b = true <-> a = b.
Proof.
  destruct a as [x|], b as [y|]; cbn; try (split; congruence). rewrite Nat.eqb_eq. split; congruence.
Qed.
Lemma same_false a b : same a b = false <-> a <> b.
Proof. rewrite <- not_true_iff_false, same_iff. reflexivity. Qed.

Lemma inside p l : existsb (same p) l = true <-> In p l.
Proof.
  rewrite existsb_exists. split.
  - intros (q & I & E). apply same_iff in E. subst. exact I.
  - intros I. exists p. split; [exact I|]. apply same_iff. reflexivity.
Qed.

Lemma add_iff p s : (fst (hold_step (AddOut p) s) = true <-> may_change s /\ ~ In p (h_list s)) /\
  snd (hold_step (AddOut p) s) = (if fst (hold_step (AddOut p) s) then with_list (h_list s ++ [p]) s else s).
Proof.
  cbn. unfold add_held. pose proof (may_iff s) as M. pose proof (inside p (h_list s)) as I.
  destruct (may_edit s), (existsb (same p) (h_list s)); cbn; split; try reflexivity; split; intuition congruence.
Qed.

Lemma erase_at p a b : ~ In p a -> erase_first p (a ++ p :: b) = Some (a ++ b).
Proof.
  induction a as [|q a IH]; cbn; intros N.
  - rewrite (proj2 (same_iff p p) eq_refl). reflexivity.
  - rewrite (proj2 (same_false q p)) by (intros ->; tauto). rewrite IH by tauto. reflexivity.
Qed.

Lemma split_at (l : list (option nat)) i : i < length l -> exists p, nth_error l i = Some p /\ l = firstn i l ++ p :: skipn (S i) l /\ length (firstn i l) = i.
Proof.
  intros L. destruct (nth_error l i) as [p|] eqn:E; [|apply nth_error_None in E; lia]. exists p. split; [reflexivity|]. split; [|apply firstn_length_le; lia].
  revert i L E. induction l as [|q l IH]; intros [|i] L E; cbn in *; try lia; try discriminate; [congruence|]. f_equal. apply IH; [lia|exact E].
Qed.

Lemma remove_iff c s i : NoDup (h_list s) -> removes c (h_list s) i ->
  exists p a b, h_list s = a ++ p :: b /\ length a = i /\
    (fst (hold_step c s) = true <-> i <> 0 \/ length (h_list s) = 1) /\
    snd (hold_step c s) = (if fst (hold_step c s)
      then with_list (a ++ b) (match c with DropAt _ => deleted [p] s | _ => s end) else s).
Proof.
  intros ND R. destruct c as [p|p|j| |o]; cbn in R; try contradiction.
  - destruct p as [x|]; [|contradiction]. assert (L : i < length (h_list s)) by (apply nth_error_Some; congruence).
    destruct (split_at _ _ L) as (p & N & E & LA). rewrite R in N. injection N as <-.
    set (a := firstn i (h_list s)) in *. set (b := skipn (S i) (h_list s)) in *. clearbody a b. exists (Some x), a, b. split; [exact E|]. split; [exact LA|].
    assert (NI : ~ In (Some x) a). { rewrite E in ND. apply NoDup_remove_2 in ND. intros I. apply ND, in_or_app. auto. }
    cbn [hold_step]. unfold take_held. destruct a as [|f a]; cbn [app] in E.
    + rewrite E. rewrite (proj2 (same_iff _ _) eq_refl). cbn [length] in LA. subst i. destruct b as [|q b]; cbn.
      * split; [intuition|reflexivity].
      * split; [|reflexivity]. split; [discriminate|]. intros [H|H]; [congruence|discriminate].
    + pose proof (erase_at (Some x) (f :: a) b NI) as X. cbn [app] in X. rewrite E, X.
      rewrite (proj2 (same_false (Some x) f)) by (intros K; apply NI; left; congruence). cbn [fst snd app].
      split; [|reflexivity]. split; [intros _; left; cbn in LA; lia|reflexivity].
  - destruct R as (<- & L). destruct (split_at _ _ L) as (p & N & E & LA). pose proof (nth_error_nth _ _ None N) as NT.
    exists p, (firstn i (h_list s)), (skipn (S i) (h_list s)). split; [exact E|]. split; [exact LA|]. cbn [hold_step]. unfold drop_held.
    destruct (h_list s) as [|f l] eqn:H; [cbn in L; lia|]. rewrite (proj2 (Nat.leb_gt _ _) L). destruct (Nat.eqb_spec i 0) as [->|NZ].
    + cbn in N. injection N as <-. destruct l as [|q l]; cbn; (split; [|reflexivity]); [intuition|]. split; [discriminate|]. intros [K|K]; [congruence|discriminate].
    + rewrite NT. cbn [fst snd]. split; [|reflexivity]. split; [auto|reflexivity].
Qed.

(** Calls which name no outline which is held do nothing. *)
Lemma erase_none p l : ~ In p l -> erase_first p l = None.
Proof.
  induction l as [|q l IH]; cbn; intros N; [reflexivity|]. rewrite (proj2 (same_false q p)) by (intros ->; tauto). rewrite IH by tauto. reflexivity.
Qed.
Lemma absent s : (forall p, p = None \/ ~ In p (h_list s) -> hold_step (TakeOut p) s = (false, s)) /\
  (forall i, length (h_list s) <= i -> hold_step (DropAt i) s = (false, s)).
Proof.
  split.
  - intros p H. cbn. unfold take_held. destruct p as [x|]; [|reflexivity]. destruct H as [H|H]; [discriminate|].
    destruct (h_list s) as [|f l] eqn:E; [reflexivity|]. rewrite (proj2 (same_false _ _)) by (intros K; apply H; left; congruence).
    rewrite erase_none by exact H. reflexivity.
  - intros i L. cbn. unfold drop_held. destruct (h_list s) as [|f l]; [reflexivity|]. rewrite (proj2 (Nat.leb_le _ _) L). reflexivity.
Qed.

(** ** What every call keeps *)

Lemma in_case (x : option nat) l : In x l \/ ~ In x l.
Proof. pose proof (inside x l). destruct (existsb (same x) l); intuition congruence. Qed.

(** What a call does to the list and to the deleted ones. *)
Lemma step_cases c s : NoDup (h_list s) ->
  (h_list (snd (hold_step c s)) = h_list s /\ h_gone (snd (hold_step c s)) = h_gone s) \/
  (exists p, c = AddOut p /\ ~ In p (h_list s) /\ h_list (snd (hold_step c s)) = h_list s ++ [p] /\ h_gone (snd (hold_step c s)) = h_gone s) \/
  (exists p a b, h_list s = a ++ p :: b /\ (a <> [] \/ h_list s = [p]) /\ h_list (snd (hold_step c s)) = a ++ b /\
     ((c = TakeOut p /\ h_gone (snd (hold_step c s)) = h_gone s) \/ ((exists i, c = DropAt i) /\ h_gone (snd (hold_step c s)) = h_gone s ++ real [p]))) \/
  (c = WipeAll /\ h_list (snd (hold_step c s)) = [] /\ h_gone (snd (hold_step c s)) = h_gone s ++ real (h_list s)).
Proof.
  intros ND.
  assert (RM : forall i, removes c (h_list s) i -> (forall x, c = TakeOut (Some x) -> nth_error (h_list s) i = Some (Some x)) ->
    (h_list (snd (hold_step c s)) = h_list s /\ h_gone (snd (hold_step c s)) = h_gone s) \/
    (exists p a b, h_list s = a ++ p :: b /\ (a <> [] \/ h_list s = [p]) /\ h_list (snd (hold_step c s)) = a ++ b /\
     ((c = TakeOut p /\ h_gone (snd (hold_step c s)) = h_gone s) \/ ((exists i, c = DropAt i) /\ h_gone (snd (hold_step c s)) = h_gone s ++ real [p])))).
  { intros i R TK. destruct (remove_iff c s i ND R) as (p & a & b & E & LA & OK & S). destruct (fst (hold_step c s)); rewrite S; [|left; auto].
    right. exists p, a, b. split; [exact E|]. split.
    - destruct (proj1 OK eq_refl) as [NZ|ONE]; [left; intros ->; cbn in LA; lia|]. right. rewrite E in *. destruct a as [|? a]; [destruct b; [reflexivity|discriminate]|].
      cbn in ONE. rewrite app_length in ONE. cbn in ONE. lia.
    - split; [reflexivity|]. destruct c as [q|q|j| |o]; cbn in R; try contradiction.
      + left. destruct q as [x|]; [|contradiction]. split; [|reflexivity]. f_equal. rewrite E, nth_error_app2, LA, Nat.sub_diag in R by lia. cbn in R. congruence.
      + right. split; [eauto|reflexivity]. }
  destruct c as [p|p|i| |o].
  - destruct (add_iff p s) as (A & S). destruct (fst (hold_step (AddOut p) s)); rewrite S; [|left; auto]. right. left. exists p. repeat split. apply A. reflexivity.
  - destruct (absent s) as (AB & _). destruct p as [x|]; [|rewrite AB by auto; left; auto]. destruct (in_case (Some x) (h_list s)) as [I|N]; [|rewrite AB by auto; left; auto].
    apply In_nth_error in I as (i & I). destruct (RM i I) as [H|H]; [intros y E; congruence|left; exact H|right; right; left; exact H].
  - destruct (absent s) as (_ & AB). destruct (le_lt_dec (length (h_list s)) i) as [L|L]; [rewrite AB by exact L; left; auto|].
    destruct (RM i) as [H|H]; [split; [reflexivity|exact L]|discriminate|left; exact H|right; right; left; exact H].
  - cbn. unfold wipe_held. destruct (may_edit s); cbn; [right; right; right; auto|left; auto].
  - cbn. unfold own_held. destruct (may_edit s); cbn; left; auto.
Qed.

Lemma nodup_end (l : list (option nat)) p : NoDup l -> ~ In p l -> NoDup (l ++ [p]).
Proof.
  induction l as [|e l IH]; cbn; intros N I; [constructor; [intros []|constructor]|]. inversion N as [|? ? NI N']; subst.
  constructor; [|apply IH; tauto]. intros J. apply in_app_or in J as [J|[J|[]]]; [tauto|]. apply I. left. congruence.
Qed.

Lemma step_nodup c s : NoDup (h_list s) -> NoDup (h_list (snd (hold_step c s))).
Proof.
  intros ND. destruct (step_cases c s ND) as [(-> & _)|[(p & _ & N & -> & _)|[(p & a & b & E & _ & -> & _)|(_ & -> & _)]]].
  - exact ND.
  - apply nodup_end; assumption.
  - rewrite E in ND. exact (NoDup_remove_1 _ _ _ ND).
  - constructor.
Qed.
Lemma run_nodup cs : forall s, NoDup (h_list s) -> NoDup (h_list (hold_run cs s)).
Proof. induction cs as [|c cs IH]; cbn; intros s N; [exact N|apply IH, step_nodup, N]. Qed.

Lemma run_app a : forall b s, hold_run (a ++ b) s = hold_run b (hold_run a s).
Proof. induction a as [|c a IH]; cbn; intros; [reflexivity|apply IH]. Qed.

(** The first outline stays the first. *)
Lemma first_stays cs : forall s x l, NoDup (h_list s) -> h_list s = x :: l ->
  (exists l', h_list (hold_run cs s) = x :: l') \/
  (exists a c b l', cs = a ++ c :: b /\ h_list (hold_run a s) = x :: l' /\ h_list (hold_run (a ++ [c]) s) = [] /\ (l' = [] \/ c = WipeAll)).
Proof.
  induction cs as [|c cs IH]; intros s x l ND E; [left; exists l; exact E|]. pose proof (step_nodup c s ND) as ND'.
  assert (K : forall l', h_list (snd (hold_step c s)) = x :: l' -> (exists l', h_list (hold_run (c :: cs) s) = x :: l') \/
    (exists a d b l', c :: cs = a ++ d :: b /\ h_list (hold_run a s) = x :: l' /\ h_list (hold_run (a ++ [d]) s) = [] /\ (l' = [] \/ d = WipeAll))).
  { intros l' E'. destruct (IH _ x l' ND' E') as [H|(a & d & b & m & C & F & G & W)]; [left; exact H|]. right. exists (c :: a), d, b, m. cbn. rewrite C. auto. }
  destruct (step_cases c s ND) as [(H & _)|[(p & _ & _ & H & _)|[(p & a & b & F & W & H & _)|(-> & H & _)]]].
  - apply (K l). congruence.
  - apply (K (l ++ [p])). rewrite H, E. reflexivity.
  - destruct a as [|f a].
    + destruct W as [W|W]; [congruence|]. right. cbn [app] in F, H. exists [], c, cs, []. cbn [app hold_run].
      split; [reflexivity|]. split; [congruence|]. split; [|auto]. rewrite H. congruence.
    + rewrite E in F. cbn in F. injection F as <- _. apply (K (a ++ b)). rewrite H. reflexivity.
  - right. exists [], WipeAll, cs, l. auto.
Qed.

(** ** Outlines are deleted once *)

Lemma real_app a b : real (a ++ b) = real a ++ real b.
Proof. unfold real. apply flat_map_app. Qed.
Lemma in_real x l : In x (real l) <-> In (Some x) l.
Proof.
  unfold real. rewrite in_flat_map. split.
  - intros ([y|] & I & J); cbn in J; [destruct J as [->|[]]; exact I|destruct J].
  - intros I. exists (Some x). cbn. auto.
Qed.

Definition owned_once (s : held) : Prop := NoDup (h_list s) /\ NoDup (h_gone s ++ real (h_list s)).

Lemma once_step c s : owned_once s -> (forall x, c = AddOut (Some x) -> ~ In x (h_gone s)) -> owned_once (snd (hold_step c s)).
Proof.
  intros (ND & O) F. split; [apply step_nodup, ND|].
  destruct (step_cases c s ND) as [(-> & ->)|[(p & C & N & -> & ->)|[(p & a & b & E & _ & -> & [(_ & ->)|(_ & ->)])|(_ & -> & ->)]]].
  - exact O.
  - rewrite real_app. destruct p as [x|]; cbn [real flat_map app]; [|rewrite app_nil_r; exact O].
    rewrite app_assoc. apply NoDup_Add with (a := x) (l := h_gone s ++ real (h_list s)).
    + pose proof (Add_app x (h_gone s ++ real (h_list s)) []) as A. rewrite app_nil_r in A. exact A.
    + split; [exact O|]. intros I. apply in_app_or in I as [I|I]; [exact (F x C I)|]. apply in_real in I. tauto.
  - rewrite E in O. rewrite real_app in *. cbn [real flat_map] in O. destruct p as [x|]; [|exact O]. cbn [app] in O. fold (real b) in O.
    rewrite app_assoc in *. exact (NoDup_remove_1 _ _ _ O).
  - rewrite E in O. rewrite real_app in *. destruct p as [x|]; cbn [real flat_map app] in *; [|rewrite app_nil_r; exact O]. fold (real b) in O.
    rewrite app_assoc in O. pose proof (NoDup_remove _ _ _ O) as (O1 & O2). rewrite <- !app_assoc. cbn [app].
    apply NoDup_Add with (a := x) (l := h_gone s ++ real a ++ real b); [apply Add_app|]. rewrite app_assoc. auto.
  - rewrite app_nil_r. exact O.
Qed.

Lemma once_run cs : forall s, owned_once s -> careful cs s -> owned_once (hold_run cs s).
Proof.
  induction cs as [|c cs IH]; intros s O F; [exact O|]. cbn. apply IH.
  - apply once_step; [exact O|]. intros x ->. exact (F [] x cs eq_refl).
  - intros a x b E. subst cs. exact (F (c :: a) x b eq_refl).
Qed.

Lemma once cs par comp : careful cs (hold_new par comp) -> NoDup (h_gone (clear_held (hold_run cs (hold_new par comp)))).
Proof. intros F. apply (once_run cs (hold_new par comp)); [split; constructor|exact F]. Qed.

(** Each outline which was accepted is deleted, if it was not taken out. *)
Lemma kept_step c s x : NoDup (h_list s) -> c <> TakeOut (Some x) -> In x (h_gone s ++ real (h_list s)) ->
  In x (h_gone (snd (hold_step c s)) ++ real (h_list (snd (hold_step c s)))).
Proof.
  intros ND NT I.
  destruct (step_cases c s ND) as [(-> & ->)|[(p & C & N & -> & ->)|[(p & a & b & E & _ & -> & [(C & ->)|(_ & ->)])|(_ & -> & ->)]]].
  - exact I.
  - rewrite real_app, app_assoc. apply in_or_app. auto.
  - rewrite E in I. rewrite real_app in *. rewrite !in_app_iff in *. destruct I as [I|[I|I]]; [auto|auto|]. destruct p as [y|]; cbn in I; [|auto].
    destruct I as [->|I]; [congruence|auto].
  - rewrite E in I. rewrite real_app in *. rewrite !in_app_iff in *. destruct I as [I|[I|I]]; [auto|auto|]. destruct p as [y|]; cbn in *; tauto.
  - rewrite app_nil_r. exact I.
Qed.
Lemma kept_run cs x : forall s, NoDup (h_list s) -> ~ In (TakeOut (Some x)) cs -> In x (h_gone s ++ real (h_list s)) ->
  In x (h_gone (hold_run cs s) ++ real (h_list (hold_run cs s))).
Proof.
  induction cs as [|c cs IH]; cbn; intros s ND N I; [exact I|]. apply IH; [apply step_nodup, ND|tauto|]. apply kept_step; [exact ND|intros ->; tauto|exact I].
Qed.

Lemma no_leak a x b par comp : fst (hold_step (AddOut (Some x)) (hold_run a (hold_new par comp))) = true -> ~ In (TakeOut (Some x)) b ->
  In x (h_gone (clear_held (hold_run (a ++ AddOut (Some x) :: b) (hold_new par comp)))).
Proof.
  intros A N. rewrite run_app. cbn [hold_run clear_held h_gone]. set (s := hold_run a (hold_new par comp)) in *.
  assert (ND : NoDup (h_list s)) by (apply run_nodup; constructor). apply kept_run; [apply step_nodup, ND|exact N|].
  destruct (add_iff (Some x) s) as (_ & S). rewrite A in S. rewrite S. cbn. apply in_or_app. right. apply in_real. apply in_or_app. right. left. reflexivity.
Qed.

(** Somebody who may not change a section may take outlines from it. *)
Lemma not_owner s a p b : NoDup (h_list s) -> ~ may_change s -> h_list s = a ++ p :: b -> a <> [] ->
  (forall q, hold_step (AddOut q) s = (false, s)) /\ hold_step WipeAll s = (false, s) /\ (forall o, hold_step (OwnBy o) s = (false, s)) /\
  hold_step (DropAt (length a)) s = (true, with_list (a ++ b) (deleted [p] s)) /\
  (forall x, p = Some x -> hold_step (TakeOut p) s = (true, with_list (a ++ b) s)).
Proof.
  intros ND NC E NA. assert (M : may_edit s = false) by (apply not_true_iff_false; rewrite may_iff; exact NC).
  split; [intros q; cbn; unfold add_held; rewrite M; reflexivity|]. split; [cbn; unfold wipe_held; rewrite M; reflexivity|].
  split; [intros o; cbn; unfold own_held; rewrite M; reflexivity|].
  assert (LA : length a <> 0) by (destruct a; cbn; congruence).
  assert (K : forall c, removes c (h_list s) (length a) -> hold_step c s = (true, with_list (a ++ b) (match c with DropAt _ => deleted [p] s | _ => s end))).
  { intros c R. destruct (remove_iff c s _ ND R) as (q & a' & b' & E' & L' & OK & S). rewrite E in E'.
    assert (P : a' = a /\ q = p /\ b' = b).
    { clear - E E' L'. revert a' L' E'. generalize a. clear. intros a. induction a as [|y a IH]; intros [|y' a'] L E; cbn in *; try lia.
      - injection E as -> ->. auto.
      - injection E as -> E. destruct (IH a' ltac:(lia) E) as (-> & -> & ->). auto. }
    destruct P as (-> & -> & ->). assert (F : fst (hold_step c s) = true) by (apply OK; auto). rewrite F in S. rewrite <- S, <- F. apply surjective_pairing. }
  split.
  - apply (K (DropAt (length a))). split; [reflexivity|]. rewrite E, app_length. cbn. lia.
  - intros x ->. apply (K (TakeOut (Some x))). cbn. rewrite E, nth_error_app2, Nat.sub_diag by lia. reflexivity.
Qed.

(** [SetOwner] and [Clear]. *)
Lemma owners s :
  (forall o, (fst (hold_step (OwnBy o) s) = true <-> may_change s) /\ h_list (snd (hold_step (OwnBy o) s)) = h_list s /\
     h_gone (snd (hold_step (OwnBy o) s)) = h_gone s) /\
  (fst (hold_step WipeAll s) = true <-> may_change s) /\
  (fst (hold_step WipeAll s) = true -> h_list (snd (hold_step WipeAll s)) = []) /\
  (forall c, h_owner (snd (hold_step c s)) =
     match c with OwnBy o => if fst (hold_step c s) then o else h_owner s | WipeAll => if fst (hold_step c s) then Unowned else h_owner s | _ => h_owner s end).
Proof.
  pose proof (may_iff s) as M. split; [|split; [|split]].
  - intros o. cbn. unfold own_held. destruct (may_edit s); cbn; intuition congruence.
  - cbn. unfold wipe_held. destruct (may_edit s); cbn; intuition congruence.
  - cbn. unfold wipe_held. destruct (may_edit s); cbn; [reflexivity|discriminate].
  - intros [p|p|i| |o]; cbn.
    + unfold add_held. destruct (may_edit s); [|reflexivity]. destruct (existsb (same p) (h_list s)); reflexivity.
    + unfold take_held. destruct p as [x|]; [|reflexivity]. destruct (h_list s) as [|f l]; [reflexivity|]. destruct (same (Some x) f); [destruct l; reflexivity|].
      destruct (erase_first (Some x) (f :: l)); reflexivity.
    + unfold drop_held. destruct (h_list s) as [|f l]; [reflexivity|]. destruct (_ <=? i); [reflexivity|]. destruct (i =? 0); [destruct l; reflexivity|reflexivity].
    + unfold wipe_held. destruct (may_edit s); reflexivity.
    + unfold own_held. destruct (may_edit s); reflexivity.
Qed.

Lemma step_fixed c s : h_parent (snd (hold_step c s)) = h_parent s /\ h_comp (snd (hold_step c s)) = h_comp s.
Proof.
  destruct c as [p|p|i| |o]; cbn.
  - unfold add_held. destruct (may_edit s); [|auto]. destruct (existsb (same p) (h_list s)); auto.
  - unfold take_held. destruct p as [x|]; [|auto]. destruct (h_list s) as [|f l]; [auto|]. destruct (same (Some x) f); [destruct l; auto|].
    destruct (erase_first (Some x) (f :: l)); auto.
  - unfold drop_held. destruct (h_list s) as [|f l]; [auto|]. destruct (_ <=? i); [auto|]. destruct (i =? 0); [destruct l; auto|auto].
  - unfold wipe_held. destruct (may_edit s); auto.
  - unfold own_held. destruct (may_edit s); auto.
Qed.

(** What is given away can not be taken back. *)
Lemma given_away cs : forall s, ~ may_change s -> h_owner (hold_run cs s) = h_owner s /\ ~ may_change (hold_run cs s).
Proof.
  induction cs as [|c cs IH]; intros s N; [auto|]. cbn [hold_run]. destruct (owners s) as (O & W & _ & H). specialize (H c).
  assert (E : h_owner (snd (hold_step c s)) = h_owner s).
  { rewrite H. destruct c as [p|p|i| |o]; try reflexivity.
    - destruct (fst (hold_step WipeAll s)); [exfalso; apply N, W; reflexivity|reflexivity].
    - destruct (O o) as (OO & _). destruct (fst (hold_step (OwnBy o) s)); [exfalso; apply N, OO; reflexivity|reflexivity]. }
  destruct (step_fixed c s) as (P & C). destruct (IH (snd (hold_step c s))) as (A & B).
  - unfold may_change in *. rewrite E, P, C. exact N.
  - split; [congruence|exact B].
Qed.
