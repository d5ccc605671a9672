(** Facts about the lists handed out as arrays. *)

From Coq Require Import Lia ZifyBool ZifyNat.
From Verif Require Import Base Spec IoModel HeaderModel CacheModel.
Open Scope Z_scope.

(** ** What a plain list of comments answers *)

Definition list_step (l : list str) (op : comment_call) : answer * list str :=
  match op with
  | AddComment s => (ABool true, l ++ [s])
  | DelComment i => if (0 <=? i) && (i <? Z.of_nat (length l)) then (ABool true, firstn (Z.to_nat i) l ++ skipn (Z.to_nat i + 1) l)
                    else (ABool false, l)
  | ClearComments => (ABool true, [])
  | GetNComments => (ANum (Z.of_nat (length l)), l)
  | GetComment i => (AText (if 0 <=? i then nth_error l (Z.to_nat i) else None), l)
  | GetComments => (AArray (match l with [] => None | _ => Some (map Some l) end), l)
  end.

Fixpoint list_run (l : list str) (ops : list comment_call) : list answer :=
  match ops with
  | [] => []
  | op :: r => fst (list_step l op) :: list_run (snd (list_step l op)) r
  end.

(** ** Proofs *)

(** Allocation numbers are fresh. *)
Record fresh (c : cached) : Prop := {
  f_nodup : NoDup (map fst (c_items c));
  f_items : forall p, In p (map fst (c_items c)) -> (p < c_next c)%nat;
  f_cache : forall p, In p (c_cache c) -> (p < c_next c)%nat }.

(** The vector is right or has another size. *)
Definition good_cache (c : cached) : Prop :=
  c_cache c = [] \/ (length (c_items c) < length (c_cache c))%nat \/ c_cache c = map fst (c_items c).

Lemma deref_at (items : list (nat * str)) : NoDup (map fst items) -> map (deref items) (map fst items) = map (fun x => Some (snd x)) items.
Proof.
  intros ND. rewrite map_map.
  assert (G : forall pre l, items = pre ++ l -> map (fun x => deref items (fst x)) l = map (fun x => Some (snd x)) l).
  { intros pre l. revert pre. induction l as [|[p s] l IH]; intros pre E; [reflexivity|]. cbn [map fst snd]. f_equal.
    - subst items. clear IH. induction pre as [|[q t] pre IH]; cbn [app deref].
      + rewrite Nat.eqb_refl. reflexivity.
      + cbn [app map fst] in ND. inversion ND as [|? ? NI ND']. subst.
        destruct (Nat.eqb_spec p q) as [->|]; [|auto].
        exfalso. apply NI. rewrite map_app. apply in_or_app. right. left. reflexivity.
    - apply (IH (pre ++ [(p, s)])). rewrite <- app_assoc. exact E. }
  apply (G []). reflexivity.
Qed.

Lemma deref_none items p : ~ In p (map fst items) -> deref items p = None.
Proof.
  induction items as [|[q s] r IH]; [reflexivity|]. cbn [map fst In deref]. intros H.
  destruct (Nat.eqb_spec p q) as [->|]; [exfalso; auto|]. apply IH. auto.
Qed.

Lemma get_array_right c : fresh c -> good_cache c ->
  get_array c = (match c_items c with [] => None | l => Some (map (fun x => Some (snd x)) l) end, snd (get_array c)) /\
  fresh (snd (get_array c)) /\ good_cache (snd (get_array c)) /\ c_items (snd (get_array c)) = c_items c.
Proof.
  intros F G. unfold get_array. destruct (c_items c) as [|x r] eqn:E; cbn [snd].
  - auto.
  - set (items := x :: r) in *.
    assert (CE : (if (length (c_cache c) =? length items)%nat then c_cache c else map fst items) = map fst items).
    { destruct (Nat.eqb_spec (length (c_cache c)) (length items)) as [L|]; [|reflexivity].
      destruct G as [G|[G|G]]; rewrite ?E in G; [|lia|exact G]. rewrite G in L. discriminate. }
    rewrite CE. split; [|split; [|split]].
    + rewrite deref_at; [reflexivity|]. rewrite <- E. apply F.
    + destruct F as [F1 F2 F3]. rewrite E in *. split; cbn [c_items c_cache c_next]; auto.
    + right; right. reflexivity.
    + reflexivity.
Qed.

Lemma push_fresh s c : fresh c -> fresh (push s c).
Proof.
  intros [F1 F2 F3]. split; cbn [push c_items c_cache c_next].
  - rewrite map_app. cbn [map fst]. apply NoDup_rev in F1. rewrite <- (rev_involutive (_ ++ _)). apply NoDup_rev.
    rewrite rev_app_distr. cbn [rev app]. constructor; [|exact F1]. intros I. apply in_rev in I. apply F2 in I. lia.
  - intros p. rewrite map_app. intros I. apply in_app_or in I. destruct I as [I|[<-|[]]]; [apply F2 in I|cbn]; lia.
  - intros p I. apply F3 in I. lia.
Qed.

Lemma NoDup_firstn_skipn {A} (l : list A) i j : (i <= j)%nat -> NoDup l -> NoDup (firstn i l ++ skipn j l).
Proof.
  intros H ND. revert i j H. induction ND as [|x l NI ND IH]; intros i j H.
  - rewrite firstn_nil, skipn_nil. constructor.
  - destruct i as [|i]; cbn [firstn app].
    + destruct j as [|j]; cbn [skipn]; [constructor; assumption|]. apply (IH 0%nat j). lia.
    + destruct j as [|j]; [lia|]. cbn [skipn]. constructor; [|apply IH; lia].
      intros I. apply NI. apply in_app_or in I. destruct I as [I|I].
      * rewrite <- (firstn_skipn i l). apply in_or_app. auto.
      * rewrite <- (firstn_skipn j l). apply in_or_app. auto.
Qed.

Lemma in_firstn_skipn {A} (l : list A) i j x : In x (firstn i l ++ skipn j l) -> In x l.
Proof.
  intros I. apply in_app_or in I. destruct I as [I|I].
  - rewrite <- (firstn_skipn i l). apply in_or_app. auto.
  - rewrite <- (firstn_skipn j l). apply in_or_app. auto.
Qed.

Lemma comment_step_right c op : fresh c -> good_cache c ->
  fst (comment_step c op) = fst (list_step (map snd (c_items c)) op) /\
  map snd (c_items (snd (comment_step c op))) = snd (list_step (map snd (c_items c)) op) /\
  fresh (snd (comment_step c op)) /\ good_cache (snd (comment_step c op)).
Proof.
  intros F G. destruct op as [s|i| | |i|]; cbn [comment_step list_step].
  - cbn [fst snd drop_cache push c_items]. repeat split.
    + rewrite map_app. reflexivity.
    + apply (push_fresh s) in F. apply F.
    + apply (push_fresh s) in F. apply F.
    + intros p [].
    + left. reflexivity.
  - rewrite map_length.
    destruct ((i <? 0) || (Z.of_nat (length (c_items c)) <=? i)) eqn:E.
    + replace ((0 <=? i) && (i <? Z.of_nat (length (c_items c)))) with false by lia. auto.
    + replace ((0 <=? i) && (i <? Z.of_nat (length (c_items c)))) with true by lia. cbn [fst snd c_items].
      split; [reflexivity|]. split.
      { rewrite map_app, firstn_map, skipn_map. replace (Z.to_nat i + 1)%nat with (S (Z.to_nat i)) by lia. reflexivity. }
      destruct F as [F1 F2 F3]. split; [split|]; cbn [c_items c_cache c_next].
      * rewrite map_app, <- firstn_map, <- skipn_map. apply NoDup_firstn_skipn; [lia|exact F1].
      * intros p. rewrite map_app, <- firstn_map, <- skipn_map. intros I. apply in_firstn_skipn in I. auto.
      * exact F3.
      * assert (L : (length (firstn (Z.to_nat i) (c_items c) ++ skipn (S (Z.to_nat i)) (c_items c)) < length (c_items c))%nat).
        { rewrite app_length, firstn_length, skipn_length. lia. }
        destruct G as [G|[G|G]]; unfold good_cache; cbn [c_items c_cache].
        -- left. exact G.
        -- right. left. lia.
        -- right. left. rewrite G, map_length. exact L.
  - cbn [fst snd c_items]. split; [reflexivity|]. split; [reflexivity|]. destruct F as [F1 F2 F3]. split; [split|]; cbn [c_items c_cache c_next].
    + constructor.
    + intros p [].
    + exact F3.
    + unfold good_cache. cbn [c_items c_cache]. destruct (c_cache c); [left; reflexivity|right; left; cbn; lia].
  - rewrite map_length. auto.
  - cbn [fst snd]. destruct ((i <? 0) || (Z.of_nat (length (c_items c)) <=? i)) eqn:E; cbn [fst snd].
    + split; [|auto]. f_equal. destruct (0 <=? i) eqn:E0; [|reflexivity].
      symmetry. apply nth_error_None. rewrite map_length. lia.
    + split; [|auto]. f_equal. replace (0 <=? i) with true by lia. rewrite nth_error_map. reflexivity.
  - destruct (get_array_right c F G) as (E & F' & G' & IE). destruct (get_array c) as [a c'] eqn:EG. cbn [fst snd] in *.
    apply pair_equal_spec in E. destruct E as [-> _].
    split; [|split; [rewrite IE; reflexivity|split; assumption]].
    f_equal. destruct (c_items c) as [|x r]; [reflexivity|]. cbn [map]. do 2 f_equal. rewrite map_map. reflexivity.
Qed.

Lemma comment_history ops : comment_run c_new ops = list_run [] ops.
Proof.
  assert (G : forall c, fresh c -> good_cache c -> comment_run c ops = list_run (map snd (c_items c)) ops).
  { induction ops as [|op r IH]; intros c F C; [reflexivity|]. cbn [comment_run list_run].
    destruct (comment_step_right c op F C) as (E1 & E2 & F' & C'). destruct (comment_step c op) as [a c']. cbn [fst snd] in *.
    rewrite E1, IH by assumption. rewrite E2. reflexivity. }
  apply (G c_new).
  - split; cbn; [constructor|intros p []|intros p []].
  - left. reflexivity.
Qed.

(** *** Header lines *)

Lemma push_all_items l : forall c, fresh c ->
  fresh (push_all l c) /\ map snd (c_items (push_all l c)) = map snd (c_items c) ++ l /\ c_cache (push_all l c) = c_cache c /\
  (forall p, In p (map fst (c_items (push_all l c))) -> In p (map fst (c_items c)) \/ (c_next c <= p)%nat).
Proof.
  induction l as [|s l IH]; intros c F; cbn [push_all].
  - rewrite app_nil_r. auto.
  - destruct (IH (push s c) (push_fresh s c F)) as (F' & E & EC & FR). split; [exact F'|]. rewrite E, EC.
    cbn [push c_items c_cache]. rewrite map_app, <- app_assoc. cbn [map snd app]. repeat split.
    intros p I. apply FR in I. cbn [push c_items c_next] in I. rewrite map_app in I.
    destruct I as [I|I]; [|right; lia]. apply in_app_or in I. destruct I as [I|[<-|[]]]; [auto|]. right. cbn. lia.
Qed.

(** The member [startSection] after a call. *)
Definition lines_after (l : list str) (op : header_call) : list str :=
  match op with HAdd t => AddToHeader l t | HGet => l | HClear => [] | HLoad x => l ++ x end.

Lemma AddToHeader_app l t : AddToHeader l t = l ++ AddToHeader [] t.
Proof.
  unfold AddToHeader. destruct t as [|c r]; [rewrite app_nil_r; reflexivity|].
  destruct (_ <? _)%nat; [reflexivity|]. destruct (_ <? _)%nat; [reflexivity|]. rewrite app_nil_r. reflexivity.
Qed.

Lemma header_step_lines c op : fresh c -> fresh (snd (header_step c op)) /\
  map snd (c_items (snd (header_step c op))) = lines_after (map snd (c_items c)) op.
Proof.
  intros F. destruct op as [t| | |l]; cbn [header_step lines_after].
  - destruct t as [|x r]; [cbn; auto|]. set (t := x :: r). cbn [snd].
    assert (F0 : fresh (drop_cache c)) by (destruct F as [F1 F2 F3]; split; cbn [drop_cache c_items c_cache c_next]; [exact F1|exact F2|intros p []]).
    destruct (push_all_items (AddToHeader [] t) _ F0) as (F' & E & _). split; [exact F'|].
    rewrite E, (AddToHeader_app (map snd (c_items c))). reflexivity.
  - unfold get_array. destruct (c_items c) as [|x r] eqn:E; cbn [snd]; [rewrite E; auto|]. cbn [c_items]. split; [|reflexivity].
    destruct F as [F1 F2 F3]. rewrite E in *. split; cbn [c_items c_cache c_next]; auto.
    intros p. destruct (_ =? _)%nat; auto.
  - cbn [snd c_items]. split; [|reflexivity]. destruct F as [F1 F2 F3]. split; cbn [c_items c_cache c_next]; [constructor|intros p []|exact F3].
  - cbn [snd]. destruct (push_all_items l c F) as (F' & E & _). auto.
Qed.

Lemma header_lines ops : map snd (c_items (header_run c_new ops)) = fold_left lines_after ops [].
Proof.
  assert (G : forall c, fresh c -> map snd (c_items (header_run c ops)) = fold_left lines_after ops (map snd (c_items c))).
  { induction ops as [|op r IH]; intros c F; [reflexivity|]. cbn [header_run fold_left].
    destruct (header_step_lines c op F) as [F' E]. rewrite IH by exact F'. rewrite E. reflexivity. }
  apply (G c_new). split; cbn; [constructor|intros p []|intros p []].
Qed.

Lemma header_fresh ops : forall c, fresh c -> fresh (header_run c ops).
Proof.
  induction ops as [|op r IH]; intros c F; [exact F|]. cbn [header_run]. apply IH. apply header_step_lines. exact F.
Qed.

Lemma c_new_fresh : fresh c_new.
Proof. split; cbn; [constructor|intros p []|intros p []]. Qed.

Lemma header_run_app a b : forall c, header_run c (a ++ b) = header_run (header_run c a) b.
Proof. induction a as [|op a IH]; intros c; [reflexivity|]. cbn [app header_run]. apply IH. Qed.

(** Without [Clear], and with lines appended only to an empty list, the array is
    right. *)
Definition adds_only (op : header_call) : Prop := match op with HAdd _ | HGet => True | _ => False end.

Lemma header_array_right l0 ops : Forall adds_only ops ->
  forall ls, ls = fold_left lines_after (HLoad l0 :: ops) [] ->
  fst (header_step (header_run c_new (HLoad l0 :: ops)) HGet) = match ls with [] => None | _ => Some (map Some ls) end.
Proof.
  intros A ls ->. rewrite <- header_lines. cbn [header_run header_step snd].
  destruct (push_all_items l0 c_new c_new_fresh) as (F & _ & EC & _).
  assert (GC : good_cache (push_all l0 c_new)) by (left; rewrite EC; reflexivity).
  revert F GC. generalize (push_all l0 c_new). induction A as [|op r HA _ IH]; intros c F GC; cbn [header_run].
  - destruct (get_array_right c F GC) as (E & _ & _ & _). destruct (get_array c) as [a c']. cbn [fst snd] in *.
    apply pair_equal_spec in E. destruct E as [-> _]. destruct (c_items c); [reflexivity|]. cbn [map]. rewrite map_map. reflexivity.
  - apply IH; [apply header_step_lines; exact F|]. destruct op as [t| | |l]; cbn [adds_only] in HA; try contradiction; cbn [header_step].
    + destruct t as [|x t]; [exact GC|]. left. cbn [snd].
      assert (F0 : fresh (drop_cache c)) by (destruct F as [F1 F2 F3]; split; cbn [drop_cache c_items c_cache c_next]; [exact F1|exact F2|intros p []]).
      destruct (push_all_items (AddToHeader [] (x :: t)) _ F0) as (_ & _ & -> & _). reflexivity.
    + apply get_array_right; assumption.
Qed.

(** [Clear], then as many lines as were last handed out: every entry of the array
    is a pointer to a released string. *)
Lemma header_array_stale ops l ls : ls = fold_left lines_after ops [] -> ls <> [] -> length l = length ls ->
  fst (header_step (header_run c_new (ops ++ [HGet; HClear; HLoad l])) HGet) = Some (repeat None (length l)).
Proof.
  intros EL NE L. rewrite header_run_app. pose proof (header_fresh ops _ c_new_fresh) as F.
  pose proof (header_lines ops) as EI. rewrite <- EL in EI. set (c := header_run c_new ops) in *. clearbody c.
  cbn [header_run].
  destruct (header_step_lines c HGet F) as [F1 E1]. cbn [lines_after] in E1.
  assert (LC : length (c_cache (snd (header_step c HGet))) = length l).
  { cbn [header_step]. unfold get_array. destruct (c_items c) as [|x r] eqn:E; [cbn in EI; congruence|]. cbn [snd c_cache].
    assert (LL : length (x :: r) = length l) by (rewrite L, <- EI, map_length; reflexivity).
    destruct (Nat.eqb_spec (length (c_cache c)) (length (x :: r))) as [->|]; [exact LL|]. rewrite map_length. exact LL. }
  set (c1 := snd (header_step c HGet)) in *. clearbody c1.
  change (snd (header_step c1 HClear)) with (mkCached [] (c_cache c1) (c_next c1)).
  set (c2 := mkCached [] (c_cache c1) (c_next c1)).
  assert (F2 : fresh c2) by (apply (header_step_lines c1 HClear F1)).
  cbn [header_step snd]. destruct (push_all_items l c2 F2) as (F3 & E3 & EC3 & FR). cbn [c2 c_items map app] in E3.
  unfold get_array. destruct (c_items (push_all l c2)) as [|x r] eqn:E.
  - cbn [map] in E3. rewrite <- E3 in L. cbn in L. destruct ls; [congruence|discriminate].
  - cbn [fst]. rewrite EC3. cbn [c2 c_cache]. rewrite LC.
    assert (LL : length (x :: r) = length l) by (rewrite <- E3, map_length; reflexivity).
    rewrite LL, Nat.eqb_refl. f_equal. rewrite <- LC.
    assert (N : forall p, In p (c_cache c1) -> deref (x :: r) p = None).
    { intros p I. apply deref_none. intros J. apply FR in J. destruct J as [[]|J]. cbn [c2 c_next] in J.
      apply (f_cache c1 F1) in I. lia. }
    clear - N. revert N. generalize (x :: r) as items, (c_cache c1) as l0. intros items l0 N.
    induction l0 as [|p l0 IH]; [reflexivity|]. cbn [map length repeat]. rewrite N by (left; reflexivity). f_equal. apply IH.
    intros q I. apply N. right. exact I.
Qed.
