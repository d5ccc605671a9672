From Coq Require Import List Bool Arith Lia Sorting.Permutation.
From Verif Require Import DrModel DrSpec.
Import ListNotations.

Section Facts.
Context {D : Type}.
Variable meet : D -> D -> answer.

Lemma picked_refl (l : list D) : picked l l.
Proof. induction l; constructor; auto. Qed.

Lemma picked_in (k l : list D) x : picked k l -> In x k -> In x l.
Proof. induction 1 as [|y k l H IH|y k l H IH]; cbn; intros I; [auto|destruct I; auto|auto]. Qed.

Lemma picked_trans (a b c : list D) : picked b c -> picked a b -> picked a c.
Proof.
  intros H; revert a; induction H as [|x k l H IH|x k l H IH]; intros a A; [exact A| |constructor; auto].
  inversion A; subst; constructor; auto.
Qed.

Lemma picked_app (a b c d : list D) : picked a b -> picked c d -> picked (a ++ c) (b ++ d).
Proof. induction 1; intros; cbn; [auto|constructor; auto|constructor; auto]. Qed.

Lemma picked_length (k l : list D) : picked k l -> length k <= length l.
Proof. induction 1; cbn; lia. Qed.

Lemma picked_split (k l : list D) p x q : picked k l -> k = p ++ x :: q -> exists p0 q0, l = p0 ++ x :: q0 /\ picked q q0.
Proof.
  intros H; revert p; induction H as [|y k l H IH|y k l H IH]; intros p E.
  - destruct p; discriminate.
  - destruct p as [|z p]; cbn in E; injection E as -> E.
    + subst k. exists [], l. auto.
    + destruct (IH p E) as (p0 & q0 & -> & K). exists (z :: p0), q0. auto.
  - destruct (IH p E) as (p0 & q0 & -> & K). exists (y :: p0), q0. auto.
Qed.

Lemma picked_nothing (l : list D) : picked [] l.
Proof. induction l; constructor; auto. Qed.

Lemma scan_cases s l :
  (scan meet s l = AllClear /\ forall d, In d l -> meet s d = Clear) \/
  (scan meet s l = FlagSeen /\ exists d, In d l /\ meet s d = Flagged) \/
  (exists b d a, scan meet s l = HitAt b d a /\ l = b ++ d :: a /\ meet s d = Hit).
Proof.
  induction l as [|d l IH]; cbn [scan].
  - left; split; [reflexivity|intros d []].
  - destruct (meet s d) eqn:M.
    + right; right. exists [], d, l. auto.
    + destruct IH as [[-> H]|[[-> (x & I & F)]|(b & x & a & -> & -> & F)]].
      * left; split; [reflexivity|]. intros y [<-|I]; auto.
      * right; left; split; [reflexivity|]. exists x; split; [right; exact I|exact F].
      * right; right. exists (d :: b), x, a. auto.
    + right; left. split; [reflexivity|]. exists d; split; [left; reflexivity|exact M].
Qed.

Lemma sweep_spec m l : exists h k f, sweep meet m l = (h, k, f) /\ Permutation l (h ++ k) /\ picked k l /\
  (forall d, In d h -> meet m d = Hit) /\
  (f = false -> forall d, In d k -> meet m d = Clear) /\
  (f = true -> exists d, In d k /\ meet m d = Flagged).
Proof.
  induction l as [|d l IH]; cbn [sweep].
  - exists [], [], false. repeat split; [constructor|constructor|intros d []|intros _ d []|discriminate].
  - destruct IH as (h & k & f & -> & P & K & H & C & F). destruct (meet m d) eqn:M.
    + exists (d :: h), k, f. repeat split; [cbn; constructor; exact P|constructor; exact K| |exact C|exact F].
      intros y [<-|I]; auto.
    + exists h, (d :: k), f. repeat split; [apply Permutation_cons_app; exact P|constructor; exact K|exact H| |].
      * intros E y [<-|I]; auto.
      * intros E. destruct (F E) as (y & I & Q). exists y; split; [right; exact I|exact Q].
    + exists [], (d :: l), true. repeat split; [reflexivity|apply picked_refl|intros y []|discriminate|].
      intros _. exists d; split; [left; reflexivity|exact M].
Qed.

Lemma linked_more (l k : list D) a b : (forall x, In x l -> In x k) -> linked meet l a b -> linked meet k a b.
Proof. intros I; induction 1; [constructor; auto|econstructor; eauto]. Qed.

Lemma linked_trans (l : list D) a b c : linked meet l b c -> linked meet l a b -> linked meet l a c.
Proof. intros H; induction H as [I|x y H IH I O]; intros A; [exact A|]. eapply linked_next; [exact (IH A)|exact I|exact O]. Qed.

Lemma linked_in (l : list D) a b : linked meet l a b -> In a l /\ In b l.
Proof. induction 1; intuition. Qed.

Lemma linked_sym (l : list D) a b : symmetric meet l -> linked meet l a b -> linked meet l b a.
Proof.
  intros S; induction 1 as [I|x y H IH I O]; [constructor; exact I|].
  eapply linked_trans; [exact IH|]. eapply linked_next; [constructor; exact I|exact (proj1 (linked_in _ _ _ IH))|].
  apply S; [exact (proj1 (linked_in _ _ _ IH))|exact I|exact O].
Qed.

Lemma grow_spec s fuel : forall done todo pre rest,
  length todo + length pre + length rest <= fuel ->
  (forall m, In m (done ++ todo) -> linked meet (done ++ todo) s m) ->
  (forall m d, In m done -> In d (pre ++ rest) -> meet m d = Clear) ->
  exists b pre' rest' f, grow meet fuel done todo pre rest = Some (b, pre', rest', f) /\
    Permutation (done ++ todo ++ pre ++ rest) (b ++ pre' ++ rest') /\ picked pre' pre /\ picked rest' rest /\
    (exists more, b = (done ++ todo) ++ more) /\
    (forall m, In m b -> linked meet b s m) /\
    (f = false -> forall m d, In m b -> In d (pre' ++ rest') -> meet m d = Clear) /\
    (f = true -> exists m d, In m b /\ In d (pre' ++ rest') /\ meet m d = Flagged).
Proof.
  induction fuel as [|n IH]; intros done todo pre rest L K C.
  - destruct todo as [|m t]; [|cbn in L; lia]. cbn [grow]. rewrite app_nil_r in *.
    exists done, pre, rest, false. split; [reflexivity|]. split; [reflexivity|]. split; [apply picked_refl|]. split; [apply picked_refl|].
    split; [exists []; now rewrite app_nil_r|]. split; [exact K|]. split; [intros _; exact C|discriminate].
  - destruct todo as [|m t].
    { cbn [grow]. rewrite app_nil_r in *.
      exists done, pre, rest, false. split; [reflexivity|]. split; [reflexivity|]. split; [apply picked_refl|]. split; [apply picked_refl|].
      split; [exists []; now rewrite app_nil_r|]. split; [exact K|]. split; [intros _; exact C|discriminate]. }
    cbn [grow].
    destruct (sweep_spec m pre) as (h1 & p1 & f1 & -> & P1 & K1 & H1 & C1 & F1).
    destruct (sweep_spec m rest) as (h2 & p2 & f2 & E2 & P2 & K2 & H2 & C2 & F2).
    assert (Km : linked meet (done ++ m :: t) s m) by (apply K; apply in_or_app; right; left; reflexivity).
    assert (Grow : forall h, (forall d, In d h -> meet m d = Hit) -> forall x, In x ((done ++ m :: t) ++ h) -> linked meet ((done ++ m :: t) ++ h) s x).
    { intros h Hh x I. apply in_app_or in I as [I|I].
      - eapply linked_more; [|apply K; exact I]. intros y J; apply in_or_app; left; exact J.
      - eapply linked_next; [eapply linked_more; [|exact Km]; intros y J; apply in_or_app; left; exact J| |apply Hh; exact I].
        apply in_or_app; right; exact I. }
    destruct f1.
    { exists (done ++ m :: t ++ h1), p1, rest, true. split; [reflexivity|]. split.
      { rewrite P1. rewrite <- !app_assoc. apply Permutation_app_head. cbn [app]. constructor. rewrite <- !app_assoc. apply Permutation_app_head.
        rewrite !app_assoc. reflexivity. }
      split; [exact K1|]. split; [apply picked_refl|].
      assert (Eb : done ++ m :: t ++ h1 = (done ++ m :: t) ++ h1) by (rewrite <- app_assoc; reflexivity).
      rewrite Eb. split; [exists h1; reflexivity|]. split; [apply Grow; exact H1|]. split; [discriminate|].
      intros _. destruct (F1 eq_refl) as (d & I & Q). exists m, d. split; [|split; [apply in_or_app; left; exact I|exact Q]].
      apply in_or_app; left; apply in_or_app; right; left; reflexivity. }
    rewrite E2. specialize (C1 eq_refl).
    assert (H12 : forall d, In d (h1 ++ h2) -> meet m d = Hit) by (intros d I; apply in_app_or in I as [I|I]; auto).
    assert (Eb : done ++ m :: t ++ h1 ++ h2 = (done ++ m :: t) ++ h1 ++ h2) by (rewrite <- app_assoc; reflexivity).
    assert (PP : Permutation (done ++ (m :: t) ++ pre ++ rest) ((done ++ m :: t ++ h1 ++ h2) ++ p1 ++ p2)).
    { rewrite P1, P2. rewrite <- !app_assoc. apply Permutation_app_head. cbn [app]. constructor. rewrite <- !app_assoc. apply Permutation_app_head.
      apply Permutation_app_head. rewrite !app_assoc. apply Permutation_app_tail. apply Permutation_app_comm. }
    destruct f2.
    { exists (done ++ m :: t ++ h1 ++ h2), p1, p2, true. split; [reflexivity|]. split; [exact PP|]. split; [exact K1|]. split; [exact K2|].
      rewrite Eb. split; [exists (h1 ++ h2); reflexivity|]. split; [apply Grow; exact H12|]. split; [discriminate|].
      intros _. destruct (F2 eq_refl) as (d & I & Q). exists m, d. split; [|split; [apply in_or_app; right; exact I|exact Q]].
      apply in_or_app; left; apply in_or_app; right; left; reflexivity. }
    specialize (C2 eq_refl).
    destruct (IH (done ++ [m]) (t ++ h1 ++ h2) p1 p2) as (b & pre' & rest' & f & -> & P & K1' & K2' & (more & M) & B & G1 & G2).
    { apply Permutation_length in P1. apply Permutation_length in P2. rewrite !app_length in *. cbn in L. lia. }
    { assert (E : (done ++ [m]) ++ t ++ h1 ++ h2 = (done ++ m :: t) ++ h1 ++ h2) by (rewrite <- !app_assoc; reflexivity).
      rewrite E. apply Grow; exact H12. }
    { intros x d I J. apply in_app_or in I as [I|[<-|[]]].
      - apply C; [exact I|]. apply in_app_or in J as [J|J]; apply in_or_app; [left; eapply picked_in; eauto|right; eapply picked_in; eauto].
      - apply in_app_or in J as [J|J]; auto. }
    exists b, pre', rest', f. split; [reflexivity|]. split.
    { rewrite PP, <- P. rewrite <- !app_assoc. cbn [app]. rewrite <- !app_assoc. reflexivity. }
    split; [eapply picked_trans; eauto|]. split; [eapply picked_trans; eauto|].
    split. { exists ((h1 ++ h2) ++ more). rewrite M. rewrite <- !app_assoc. cbn [app]. reflexivity. }
    split; [exact B|]. split; [exact G1|exact G2].
Qed.

(** The state of the walk. *)
Record good (pre rest : list D) (bs : list (list D)) : Prop := {
  g_out : forall b m d, In b bs -> In m b -> In d (pre ++ rest) -> meet m d = Clear;
  g_pre : forall p x q d, pre = p ++ x :: q -> In d (q ++ rest) -> meet x d = Clear;
  g_two : forall b, In b bs -> 2 <= length b /\ exists s, forall m, In m b -> linked meet b s m;
  g_ord : forall p b q c m d, bs = p ++ b :: q -> In c q -> In m b -> In d c -> meet m d = Clear }.

Definition outcome (drills : list D) (r : merged) : Prop :=
  exists l bs f, r = Merged l bs f /\ Permutation drills (l ++ concat bs) /\ picked l drills /\
    (forall b, In b bs -> 2 <= length b) /\
    (f = false -> good l [] bs) /\
    (f = true -> exists a b, pair_of drills a b /\ meet a b = Flagged).

Lemma concat_end (bs : list (list D)) b : concat (bs ++ [b]) = concat bs ++ b.
Proof. rewrite concat_app. cbn. now rewrite app_nil_r. Qed.

Lemma last_split {T} (bs : list T) b p x q : bs ++ [b] = p ++ x :: q -> (q = [] /\ x = b /\ p = bs) \/ (exists q', q = q' ++ [b] /\ bs = p ++ x :: q').
Proof.
  intros E. destruct q as [|y q _] using rev_ind.
  - left. apply app_inj_tail in E as [-> ->]. auto.
  - right. exists q. rewrite app_comm_cons, app_assoc in E. apply app_inj_tail in E as [-> ->]. auto.
Qed.

Lemma walk_ok drills n : forall old pre rest bs,
  2 * length rest + (match old with None => 1 | Some _ => 2 end) <= n ->
  (match old with None => True | Some s => forall d, In d rest -> meet s d = Clear end) ->
  Permutation drills ((pre ++ rest) ++ concat bs) -> picked (pre ++ rest) drills ->
  good pre rest bs ->
  outcome drills (walk meet n old pre rest bs).
Proof.
  induction n as [|n IH]; intros old pre rest bs L O P K G; [destruct old; lia|].
  assert (Two : forall b, In b bs -> 2 <= length b) by (intros b I; exact (proj1 (g_two _ _ _ G b I))).
  cbn [walk]. destruct old as [s0|].
  - destruct (scan_cases s0 rest) as [[-> _]|[[_ (d & I & F)]|(b & d & a & _ & -> & F)]].
    + apply IH; auto. lia.
    + rewrite (O d I) in F. discriminate.
    + rewrite (O d) in F; [discriminate|apply in_or_app; right; left; reflexivity].
  - destruct rest as [|s r].
    + rewrite app_nil_r in *. exists pre, bs, false. split; [reflexivity|]. split; [exact P|]. split; [exact K|]. split; [exact Two|]. split; [intros _; exact G|discriminate].
    + destruct (scan_cases s r) as [[-> H]|[[-> (d & I & F)]|(b & d & a & -> & -> & F)]].
      * assert (E : (pre ++ [s]) ++ r = pre ++ s :: r) by (rewrite <- app_assoc; reflexivity).
        apply IH; [cbn in L; lia|exact I|rewrite E; exact P|rewrite E; exact K|]. destruct G as [g1 g2 g3 g4]. split; [rewrite E; exact g1| |exact g3|exact g4].
        intros p x q d Ep Id. apply last_split in Ep as [(-> & -> & ->)|(q' & -> & ->)]; [apply H; exact Id|].
        apply (g2 p x q' d eq_refl). rewrite <- app_assoc in Id. exact Id.
      * exists (pre ++ s :: r), bs, true. split; [reflexivity|]. split; [exact P|]. split; [exact K|]. split; [exact Two|]. split; [discriminate|].
        intros _. exists s, d. split; [|exact F]. apply in_split in I as (r1 & r2 & ->). exists (pre ++ r1 ++ r2 ++ concat bs). rewrite P. rewrite <- !app_assoc. cbn [app]. rewrite <- Permutation_middle. constructor.
        rewrite <- app_assoc. cbn [app]. rewrite app_assoc. rewrite <- Permutation_middle. constructor. now rewrite <- !app_assoc.
      * destruct (grow_spec s (S (S (length pre + length (b ++ a)))) [] [s; d] pre (b ++ a)) as (bd & pre' & rest' & f & E & Pg & K1 & K2 & (more & M) & B & C1 & C2).
        { cbn; lia. }
        { assert (Is : linked meet [s; d] s s) by (constructor; left; reflexivity).
          intros m [<-|[<-|[]]]; [exact Is|]. eapply linked_next; [exact Is|right; left; reflexivity|exact F]. }
        { intros m x []. }
        cbn [length app] in E, Pg, M. rewrite E.
        assert (P2 : Permutation drills ((pre' ++ rest') ++ concat (bs ++ [bd]))).
        { rewrite P, concat_end. rewrite (Permutation_app_comm (concat bs)). rewrite (app_assoc (pre' ++ rest')). apply Permutation_app_tail.
          rewrite (Permutation_app_comm (pre' ++ rest')). rewrite <- Pg. rewrite <- Permutation_middle. constructor. rewrite app_assoc. rewrite <- Permutation_middle. constructor. now rewrite app_assoc. }
        assert (K3 : picked (pre' ++ rest') drills).
        { eapply picked_trans; [exact K|]. apply picked_app; [exact K1|]. constructor. eapply picked_trans; [|exact K2].
          apply picked_app; [apply picked_refl|constructor; apply picked_refl]. }
        assert (Two2 : forall x, In x (bs ++ [bd]) -> 2 <= length x).
        { intros x I. apply in_app_or in I as [I|[<-|[]]]; [auto|]. rewrite M. cbn; lia. }
        destruct f.
        { exists (pre' ++ rest'), (bs ++ [bd]), true. split; [reflexivity|]. split; [exact P2|]. split; [exact K3|]. split; [exact Two2|]. split; [discriminate|].
          intros _. destruct (C2 eq_refl) as (m & x & I & J & Q). exists m, x. split; [|exact Q]. rewrite concat_end in P2.
          apply in_split in I as (b1 & b2 & ->). apply in_split in J as (j1 & j2 & J). rewrite J in P2.
          exists (j1 ++ j2 ++ concat bs ++ b1 ++ b2). rewrite P2. rewrite <- !app_assoc. cbn [app]. rewrite <- Permutation_middle.
          rewrite (perm_swap x m). constructor. rewrite !app_assoc. rewrite <- Permutation_middle. constructor. now rewrite <- !app_assoc. }
        specialize (C1 eq_refl).
        apply IH; [| |exact P2|exact K3|].
        { apply picked_length in K2. rewrite app_length in *. cbn in L. rewrite app_length in L. cbn in L. lia. }
        { intros x I. apply C1; [rewrite M; left; reflexivity|apply in_or_app; right; exact I]. }
        destruct G as [g1 g2 g3 g4].
        assert (Sub : forall x, In x (pre' ++ rest') -> In x (pre ++ s :: b ++ d :: a)).
        { intros x I. apply in_app_or in I as [I|I]; apply in_or_app; [left; eapply picked_in; eauto|right; right].
          eapply picked_in in I; [|exact K2]. apply in_app_or in I as [I|I]; apply in_or_app; [left; exact I|right; right; exact I]. }
        assert (Sub2 : forall x, In x bd -> In x (pre ++ s :: b ++ d :: a)).
        { intros x I. assert (J : In x (s :: d :: pre ++ b ++ a)) by (eapply Permutation_in; [symmetry; exact Pg|apply in_or_app; left; exact I]).
          cbn in J. rewrite !in_app_iff in *. cbn. rewrite in_app_iff. cbn. tauto. }
        split.
        { intros c m x I Im Ix. apply in_app_or in I as [I|[<-|[]]]; [eapply g1; eauto|auto]. }
        { intros p x q y Ep Iy. destruct (picked_split _ _ _ _ _ K1 Ep) as (p0 & q0 & E0 & Kq). apply (g2 p0 x q0 y E0).
          apply in_app_or in Iy as [Iy|Iy]; apply in_or_app; [left; eapply picked_in; eauto|right; right].
          eapply picked_in in Iy; [|exact K2]. rewrite in_app_iff in *. cbn. tauto. }
        { intros c I. apply in_app_or in I as [I|[<-|[]]]; [apply g3; exact I|]. split; [apply Two2; apply in_or_app; right; left; reflexivity|exists s; exact B]. }
        { intros p c q c' m x Ep Ic Im Ix. apply last_split in Ep as [(-> & -> & ->)|(q' & -> & ->)]; [destruct Ic|].
          apply in_app_or in Ic as [Ic|[<-|[]]]; [eapply g4; eauto|]. eapply g1; [apply in_or_app; right; left; reflexivity|exact Im|]. apply Sub2; exact Ix. }
Qed.

Theorem merge_outcome drills : outcome drills (merge meet drills).
Proof.
  apply walk_ok; [cbn; lia|exact I|cbn; now rewrite app_nil_r|apply picked_refl|].
  split; [intros b m d []|intros p x q d E; destruct p; discriminate|intros b []|intros p b q c m d E; destruct p; discriminate].
Qed.

(** Without flags: the groups. *)
Lemma nodup_r {T} (a b : list T) : NoDup (a ++ b) -> NoDup b.
Proof. induction a as [|x a IH]; cbn; [auto|]. intros N. inversion N; auto. Qed.

Lemma nodup_l {T} (a b : list T) : NoDup (a ++ b) -> NoDup a.
Proof.
  induction a as [|x a IH]; cbn; [constructor|]. intros N. inversion N as [|? ? H1 H2]; subst. constructor; [|auto].
  intros I; apply H1; apply in_or_app; left; exact I.
Qed.

Lemma split_two {T} (l : list T) a b : In a l -> In b l -> a <> b -> (exists p q r, l = p ++ a :: q ++ b :: r) \/ (exists p q r, l = p ++ b :: q ++ a :: r).
Proof.
  intros A B N. apply in_split in A as (p & q & ->). apply in_app_or in B as [B|[B|B]]; [|contradiction|].
  - apply in_split in B as (p1 & p2 & ->). right. exists p1, p2, q. rewrite <- app_assoc. reflexivity.
  - apply in_split in B as (q1 & q2 & ->). left. exists p, q1, q2. reflexivity.
Qed.

Lemma good_sorted drills l bs : told_apart drills -> symmetric meet drills -> NoDup drills ->
  Permutation drills (l ++ concat bs) -> picked l drills -> (forall b, In b bs -> 2 <= length b) -> good l [] bs ->
  sorted_out meet drills l bs.
Proof.
  intros dec S N P K T G. pose proof (fun x => picked_in l drills x K) as InL. destruct G as [g1 g2 g3 g4]. setoid_rewrite app_nil_r in g1. 
  assert (N2 : NoDup (l ++ concat bs)) by (eapply Permutation_NoDup; eauto).
  assert (InB : forall b x, In b bs -> In x b -> In x drills).
  { intros b x I J. eapply Permutation_in; [symmetry; exact P|]. apply in_or_app; right. apply in_concat. eauto. }
  assert (Where : forall x, In x drills -> In x l \/ exists b, In b bs /\ In x b).
  { intros x I. eapply Permutation_in in I; [|exact P]. apply in_app_or in I as [I|I]; [auto|right]. now apply in_concat in I. }
  assert (NotBoth : forall x b, In x l -> In b bs -> In x b -> False).
  { intros x b I J J2. apply in_split in I as (p & q & ->). rewrite <- app_assoc in N2. cbn in N2. apply NoDup_remove_2 in N2. apply N2.
    rewrite !in_app_iff. right; right. apply in_concat. eauto. }
  assert (Sb : forall b, In b bs -> symmetric meet b) by (intros b Ib u v Iu Iv; apply S; eauto).
  (* no drill overlaps one of another group *)
  assert (LL : forall x y, In x l -> In y l -> x <> y -> ~ overlap meet x y).
  { intros x y I J E O. destruct (split_two l x y I J E) as [(p & q & r & ->)|(p & q & r & ->)].
    - unfold overlap in O. rewrite (g2 p x (q ++ y :: r) y eq_refl) in O; [discriminate|]. rewrite app_nil_r. apply in_or_app; right; left; reflexivity.
    - apply S in O; [|auto|auto]. unfold overlap in O. rewrite (g2 p y (q ++ x :: r) x eq_refl) in O; [discriminate|]. rewrite app_nil_r. apply in_or_app; right; left; reflexivity. }
  assert (LB : forall x b y, In x l -> In b bs -> In y b -> ~ overlap meet x y).
  { intros x b y I J1 J2 O. apply S in O; [|auto|exact (InB b y J1 J2)]. unfold overlap in O. rewrite (g1 b y x J1 J2 I) in O. discriminate. }
  assert (BB : forall b x y, In b bs -> In x b -> In y drills -> overlap meet x y -> In y b).
  { intros b x y I J Jy O. destruct (Where y Jy) as [Y|(c & Ic & Y)].
    - exfalso. unfold overlap in O. rewrite (g1 b x y I J Y) in O. discriminate.
    - destruct (in_split _ _ I) as (p & q & E). rewrite E in Ic. apply in_app_or in Ic as [Ic|[Ic|Ic]].
      + exfalso. assert (Ic' : In c bs) by (rewrite E; apply in_or_app; left; exact Ic). apply in_split in Ic as (p1 & p2 & ->). apply S in O; [|exact (InB b x I J)|exact Jy]. unfold overlap in O.
        rewrite (g4 p1 c (p2 ++ b :: q) b y x) in O; [discriminate|rewrite E, <- app_assoc; reflexivity|apply in_or_app; right; left; reflexivity|exact Y|exact J].
      + subst c. exact Y.
      + exfalso. unfold overlap in O. rewrite (g4 p b q c x y E Ic J Y) in O. discriminate. }
  split; [exact P|]. split; [exact K|]. split; [exact T|]. split.
  - intros x I. split.
    + intros Il y J E. destruct (Where y J) as [Y|(b & Ib & Y)]; [apply LL; auto|eapply LB; eauto].
    + intros H. destruct (Where x I) as [X|(b & Ib & X)]; [exact X|exfalso].
      destruct (g3 b Ib) as (L2 & s & B).
      (* some other drill of the bundle is next to x *)
      assert (Other : exists y, In y b /\ y <> x).
      { assert (Nb : NoDup b).
        { apply in_split in Ib as (p & q & ->). rewrite concat_app in N2. cbn in N2. apply nodup_r in N2. apply nodup_r in N2. now apply nodup_l in N2. }
        destruct b as [|u [|v w]]; cbn in L2; try lia. destruct X as [<-|X].
        - exists v. split; [right; left; reflexivity|]. intros ->. inversion Nb as [|? ? Q _]; apply Q; left; reflexivity.
        - exists u. split; [left; reflexivity|]. intros ->. inversion Nb as [|? ? Q _]; apply Q; exact X. }
      destruct Other as (y & Iy & Ny).
      assert (Ls : linked meet b x y).
      { eapply linked_trans; [exact (B y Iy)|]. apply linked_sym; [exact (Sb b Ib)|exact (B x X)]. }
      clear B. revert Ny. induction Ls as [_|u v Ls IH Iv O]; [congruence|]. intros Nv.
      destruct (linked_in _ _ _ Ls) as (_ & Iu).
      assert (Dx : u = x \/ u <> x).
      { apply dec; eauto. }
      destruct Dx as [->|Nu]; [apply (H v (InB b v Ib Iv) Nv O)|apply IH; [exact Iu|exact Nu]].
  - intros x y I J E. split.
    + intros (b & Ib & X & Y). destruct (g3 b Ib) as (_ & s & B). eapply linked_more; [exact (fun z => InB b z Ib)|].
      eapply linked_trans; [exact (B y Y)|]. apply linked_sym; [exact (Sb b Ib)|exact (B x X)].
    + intros Lk.
      assert (Q : x = y \/ exists b, In b bs /\ In x b /\ In y b).
      { clear J E. induction Lk as [_|u v Lk IH Iv O]; [left; reflexivity|].
        destruct IH as [<-|(b & Ib & X & U)].
        - destruct (Where x I) as [X|(b & Ib & X)].
          + destruct (dec v x Iv I) as [->|N3]; [left; reflexivity|exfalso]. destruct (Where v Iv) as [V|(b & Ib & V)]; [exact (LL x v X V (fun e => N3 (eq_sym e)) O)|exact (LB x b v X Ib V O)].
          + right. exists b. split; [exact Ib|]. split; [exact X|]. eapply BB; eauto.
        - right. exists b. split; [exact Ib|]. split; [exact X|]. eapply BB; eauto. }
      destruct Q as [Q|Q]; [contradiction|exact Q].
Qed.

End Facts.
