(** What is kept when outlines are merged, and cutouts and holes which are added. *)

From Coq Require Import Reals List Bool Arith Lra Lia.
From Verif Require Import SegModel SegSpec SegTrig SegFacts SegSplit SegProps CutModel CutSpec CutCircle OutModel OutSpec OutFacts OutCut OutOps OvlModel OvlSpec OvlFacts OvlJoin OvlOps.
Import ListNotations.
Open Scope R_scope.

(** ** Merging outlines *)

Lemma parts_keep o b p q k h sub r o' a' : op_parts o b p q k h sub = Merged r o' a' ->
  o_closed o' = o_closed o /\ o_wind o' = o_wind o /\ o_bbok o' = o_bbok o /\ o_bl o' = o_bl o /\ o_tr o' = o_tr o /\
  (r = yes \/ r = no \/ r = (false, false)) /\ (r = yes <-> a' = None) /\ (fst r = false -> a' <> None) /\ (forall b', a' = Some b' -> o_closed b' = o_closed b) /\ (r = (false, false) -> o' = o /\ a' = Some b).
Proof.
  assert (Y : yes <> no) by discriminate. assert (Y' : yes <> (false, false)) by discriminate. assert (Y'' : no <> (false, false)) by discriminate.
  unfold op_parts, stitch. cbv zeta. intros H. 
  repeat match type of H with
  | match ?x with _ => _ end = Merged _ _ _ => destruct x eqn:?
  | (if ?x then _ else _) = Merged _ _ _ => destruct x eqn:?
  end; try discriminate; injection H as <- <- <-; cbn [with_segs o_closed o_wind o_bbok o_bl o_tr];
  repeat match goal with |- _ /\ _ => split end; try reflexivity; try (now left); try (right; now left); try (now right; right); try (split; intros; congruence); try (intros; congruence); try (intros ? E; injection E as <-; reflexivity); try discriminate; intros; discriminate.
Qed.

Lemma outline_keeps o a sub r o' a' : op_outline o a sub = Merged r o' a' ->
  o_closed o' = o_closed o /\ o_wind o' = o_wind o /\ o_bbok o' = false /\ o_bl o' = o_bl o /\ o_tr o' = o_tr o /\
  (r = yes \/ r = no \/ r = (false, false)) /\ (r = yes -> a' = None) /\ (a <> None -> r <> yes -> a' <> None).
Proof.
  assert (Y : no <> yes) by discriminate.
  unfold op_outline. cbv zeta. cbn [o_closed o_segs]. intros H.
  repeat match type of H with
  | match ?x with _ => _ end = Merged _ _ _ => destruct x eqn:?
  | (if ?x then _ else _) = Merged _ _ _ => destruct x eqn:?
  end; try (injection H as <- <- <-; cbn [with_segs o_closed o_wind o_bbok o_bl o_tr]; repeat match goal with |- _ /\ _ => split end; try reflexivity; try (let K := fresh in intros K; discriminate K); try (intros; congruence); try (intros _ _; discriminate);
    try (right; left; reflexivity); try (right; right; reflexivity); try (match goal with |- (?a, ?b) = yes \/ _ => destruct b; [right; now left|right; now right] end); fail).
  all: destruct (parts_keep _ _ _ _ _ _ _ _ _ _ H) as (A & B & C & D & E & F & G & _); cbn [with_segs o_closed o_wind o_bbok o_bl o_tr] in *; rewrite A, B, C, D, E; repeat match goal with |- _ /\ _ => split end; try reflexivity; try exact F; try (intros K; now apply G); try (intros _ K L; apply K; now apply G).
Qed.

Lemma outline_refused o a sub : o_closed o = false \/ a = None \/ (exists b, a = Some b /\ o_closed b = false) ->
  op_outline o a sub = Merged no (mkOut (o_segs o) (o_closed o) (o_wind o) false (o_bl o) (o_tr o)) a.
Proof.
  intros H. unfold op_outline. cbv zeta. cbn [o_closed o_segs]. destruct (o_closed o) eqn:E; cbn [negb]; [|reflexivity].
  destruct H as [H|[->|(b & -> & C)]]; [discriminate|reflexivity|]. now rewrite C.
Qed.

Lemma meet_one_apart s i l sub : (forall t, In t l -> intersections s t = nothing INone) -> forall j before, meet_one s i j l before sub = inr [].
Proof. induction l as [|t l IH]; intros H j before; cbn [meet_one]; [reflexivity|]. rewrite (H t (or_introl eq_refl)). cbn [nothing]. apply IH. intros u I. apply H. now right. Qed.
Lemma meet_all_apart m sub l : forall i, apart l m -> meet_all i l m sub = inr [].
Proof.
  induction l as [|s l IH]; intros i H; cbn [meet_all]; [reflexivity|]. rewrite (meet_one_apart s i m sub) by (intros t I; apply H; [now left|exact I]).
  rewrite IH; [reflexivity|]. intros u t I J. apply H; [now right|exact J].
Qed.
Lemma outline_misses o b sub : o_closed o = true -> o_closed b = true -> apart (o_segs o) (o_segs b) ->
  op_outline o (Some b) sub = Merged (false, false) (mkOut (o_segs o) true (o_wind o) false (o_bl o) (o_tr o)) (Some b).
Proof. intros A B H. unfold op_outline. cbv zeta. cbn [o_closed o_segs]. rewrite A, B. cbn [negb]. now rewrite (meet_all_apart _ _ _ _ H). Qed.

Lemma circles_within o b s t sub : o_closed o = true -> o_closed b = true -> o_segs o = [s] -> o_segs b = [t] ->
  full_circle s -> full_circle t -> ~ alike s t -> ~ touching s t ->
  let kept := mkOut [s] true (o_wind o) false (o_bl o) (o_tr o) in
  (dist (s_cen s) (s_cen t) <= s_rad s - s_rad t -> op_outline o (Some b) sub = Merged (false, negb sub) kept (Some b)) /\
  (dist (s_cen s) (s_cen t) <= s_rad t - s_rad s -> op_outline o (Some b) sub = Merged no kept (Some b)).
Proof.
  intros A B C D F G NA NT kept. destruct (circles_spec s t F G) as (_ & _ & _ & H & I & _).
  assert (RP : 0 < s_rad s /\ 0 < s_rad t) by (split; [apply F|apply G]).
  split; intros L; unfold op_outline; cbv zeta; cbn [o_closed o_segs]; rewrite A, B, C, D; cbn [negb meet_all meet_one].
  - destruct H as [-> _]; [lra|exact NA|exact NT|exact L|]. cbn [nothing]. reflexivity.
  - destruct I as [-> _]; [lra|exact NA|exact NT|exact L|]. cbn [nothing]. reflexivity.
Qed.

(** ** Cutouts *)

Section Cutouts.
Variable A : Type.
Variable op : outline -> A -> bool -> merge A.
Variable keep : plate -> A -> plate.
Hypothesis opK : forall o a sub r o' a', op o a sub = Merged r o' a' -> (r = yes /\ a' = None) \/ (r = no /\ a' <> None) \/ (r = (false, false) /\ a' <> None).

Lemma merge_first_cases b l a : forall done r b' a', merge_first A op keep b done l a = Added r b' a' ->
  (r = yes /\ a' = None) \/ (r = no /\ a' <> None).
Proof.
  revert a. induction l as [|c l IH]; intros a done r b' a' H; cbn [merge_first] in H; [injection H as <- _ <-; now left|].
  destruct (op c a false) as [r0 c' a0| |] eqn:E; try discriminate. destruct (opK _ _ _ _ _ _ E) as [(-> & ->)|[(-> & N)|(-> & N)]]; cbn [fst snd yes no] in H.
  - injection H as <- _ <-. now left.
  - injection H as <- _ <-. right. now split.
  - destruct a0 as [a1|]; [|now elim N]. now apply IH in H.
Qed.

Lemma add_cutout_cases b a ov r b' a' : add_cutout A op keep b a ov = Added r b' a' -> (r = yes /\ a' = None) \/ (r = no /\ a' <> None).
Proof.
  unfold add_cutout. destruct ov; cbn [negb]; [|intros H; injection H as <- _ <-; now left].
  destruct (op (p_out b) a true) as [r0 c' a0| |] eqn:E; try discriminate. destruct (opK _ _ _ _ _ _ E) as [(-> & ->)|[(-> & N)|(-> & N)]]; cbn [fst snd yes no]; intros H.
  - injection H as <- _ <-. now left.
  - injection H as <- _ <-. right. now split.
  - destruct a0 as [a1|]; [|now elim N]. now apply merge_first_cases in H.
Qed.

(* there is always an answer *)
Lemma merge_first_answers b l : (forall c a, In c l -> exists r o' a', op c a false = Merged r o' a') -> forall done a, exists r b' a', merge_first A op keep b done l a = Added r b' a'.
Proof.
  induction l as [|c l IH]; intros H done a; cbn [merge_first]; [eexists _, _, _; reflexivity|].
  destruct (H c a (or_introl eq_refl)) as (r & o' & a' & E). rewrite E. destruct (opK _ _ _ _ _ _ E) as [(-> & ->)|[(-> & N)|(-> & N)]]; cbn [fst snd yes no]; try (eexists _, _, _; reflexivity).
  destruct a' as [a1|]; [|now elim N]. apply IH. intros c0 a0 I. apply H. now right.
Qed.

(* nothing is met *)
Lemma merge_first_none b l a : (forall c, In c l -> exists c', op c a false = Merged (false, false) c' (Some a) /\ same_but_box c c') ->
  forall done, exists cuts', merge_first A op keep b done l a = Added yes (keep (mkPlate (p_out b) (done ++ cuts') (p_holes b)) a) None /\ Forall2 same_but_box l cuts'.
Proof.
  induction l as [|c l IH]; intros H done; cbn [merge_first].
  - exists []. rewrite app_nil_r. split; [reflexivity|constructor].
  - destruct (H c (or_introl eq_refl)) as (c' & E & S). rewrite E. cbn [fst snd]. destruct (IH (fun c0 I => H c0 (or_intror I)) (done ++ [c'])) as (cuts' & M & F). exists (c' :: cuts'). rewrite M, <- app_assoc. split; [reflexivity|now constructor].
Qed.
End Cutouts.

Lemma with_outline_k o a sub r o' a' : with_outline o a sub = Merged r o' a' -> (r = yes /\ a' = None) \/ (r = no /\ a' <> None) \/ (r = (false, false) /\ a' <> None).
Proof.
  intros H. destruct (outline_keeps _ _ _ _ _ _ H) as (_ & _ & _ & _ & _ & F & G & K).
  destruct F as [->|[->| ->]]; [left; auto|right; left; split; [reflexivity|apply K; discriminate]|right; right; split; [reflexivity|apply K; discriminate]].
Qed.
Lemma with_circle_k o a sub r o' a' : with_circle o a sub = Merged r o' a' -> (r = yes /\ a' = None) \/ (r = no /\ a' <> None) \/ (r = (false, false) /\ a' <> None).
Proof.
  unfold with_circle. destruct (op_circle o (Some a) sub) as (r0 & o0) eqn:E. intros H. injection H as <- _ <-. destruct (op_keeps _ _ _ _ _ E) as (_ & _ & _ & _ & _ & [->|[->| ->]] & _); cbn.
  - now left.
  - right. left. now split.
  - right. right. now split.
Qed.

(** What can be added. *)
Lemma cut_answer b a ov r b' a' : add_cut b a ov = Added r b' a' -> (r = yes /\ a' = None) \/ (r = no /\ (a <> None -> a' <> None)).
Proof.
  unfold add_cut. destruct a as [x|]; [|intros H; injection H as <- _ <-; right; now split].
  destruct (negb (o_closed x)); [intros H; injection H as <- _ <-; right; now split|]. intros H. apply (add_cutout_cases _ _ _ with_outline_k) in H. tauto.
Qed.
Lemma hole_answer b a ov : exists r b' a', add_hole b a ov = Added r b' a' /\ ((r = yes /\ a' = None) \/ (r = no /\ (a <> None -> a' <> None))).
Proof.
  unfold add_hole. destruct a as [c|]; [|eexists _, _, _; split; [reflexivity|right; now split]].
  destruct (negb (segty_eqb (s_ty c) SCircle)) eqn:T; [eexists _, _, _; split; [reflexivity|right; now split]|].
  assert (Q : exists r b' a', add_cutout seg with_circle keep_hole b c ov = Added r b' a').
  { unfold add_cutout. destruct ov; cbn [negb]; [|eexists _, _, _; reflexivity]. assert (E : forall o x sub, exists r o' a', with_circle o x sub = Merged r o' a') by (intros; unfold with_circle; destruct (op_circle o (Some x) sub); eexists _, _, _; reflexivity).
    destruct (E (p_out b) c true) as (r & o' & a' & E1). rewrite E1. destruct (with_circle_k _ _ _ _ _ _ E1) as [(-> & ->)|[(-> & N)|(-> & N)]]; cbn [fst snd yes no]; try (eexists _, _, _; reflexivity).
    destruct a' as [a1|]; [|now elim N]. apply (merge_first_answers _ _ _ with_circle_k). intros; apply E. }
  destruct Q as (r & b' & a' & E). exists r, b', a'. split; [exact E|]. apply (add_cutout_cases _ _ _ with_circle_k) in E. tauto.
Qed.

(** What is kept of the plate. *)
Lemma merge_first_holes b l a : forall done r b' a', merge_first outline with_outline keep_cut b done l a = Added r b' a' -> p_out b' = p_out b /\ p_holes b' = p_holes b /\ (length (p_cuts b') = length done + length l \/ length (p_cuts b') = S (length done + length l))%nat.
Proof.
  revert a. induction l as [|c l IH]; intros a done r b' a' H; cbn [merge_first] in H.
  - injection H as <- <- _. cbn. rewrite app_length. cbn. split; [reflexivity|]. split; [reflexivity|lia].
  - destruct (with_outline c a false) as [r0 c' a0| |] eqn:E; try discriminate. destruct (fst r0); [injection H as <- <- _; cbn; rewrite app_length; cbn; repeat split; lia|]. destruct (snd r0); [injection H as <- <- _; cbn; rewrite app_length; cbn; repeat split; lia|].
    destruct a0 as [a1|]; [|discriminate]. apply IH in H. destruct H as (H1 & H2 & H3). rewrite app_length in H3. cbn in H3. split; [exact H1|]. split; [exact H2|]. cbn [length]. lia.
Qed.
Lemma cut_keeps b a ov r b' a' : add_cut b a ov = Added r b' a' ->
  p_holes b' = p_holes b /\ (length (p_cuts b') = length (p_cuts b) \/ (length (p_cuts b') = S (length (p_cuts b)) /\ r = yes /\ (ov = false -> p_out b' = p_out b)))%nat.
Proof.
  unfold add_cut. destruct a as [x|]; [|intros H; injection H as <- <- _; split; [reflexivity|now left]]. destruct (negb (o_closed x)); [intros H; injection H as <- <- _; split; [reflexivity|now left]|]. unfold add_cutout. destruct ov; cbn [negb].
  - destruct (with_outline (p_out b) x true) as [r0 c' a0| |] eqn:E; try discriminate. destruct (fst r0); [intros H; injection H as <- <- _; split; [reflexivity|now left]|]. destruct (snd r0); [intros H; injection H as <- <- _; split; [reflexivity|now left]|]. destruct a0 as [a1|]; [|discriminate].
    intros H. destruct (merge_first_holes _ _ _ _ _ _ _ H) as (_ & Hh & Hl). cbn [p_out p_holes length] in Hh, Hl. split; [exact Hh|]. destruct Hl as [Hl|Hl]; [left; exact Hl|right]. split; [exact Hl|]. split; [|discriminate].
    destruct (merge_first_cases _ _ _ with_outline_k _ _ _ _ _ _ _ H) as [(-> & _)|(-> & _)]; [reflexivity|]. exfalso.
    revert H. generalize (mkPlate c' (p_cuts b) (p_holes b)) as b0. intros b0 H. clear - H Hl. revert H.
    assert (G : forall l done a1, merge_first outline with_outline keep_cut b0 done l a1 = Added no b' a' -> length (p_cuts b') = (length done + length l)%nat).
    { induction l as [|c l IH]; intros done a2 H; cbn [merge_first] in H; [discriminate|]. destruct (with_outline c a2 false) as [r0 c0 a0| |]; try discriminate. destruct (fst r0); [discriminate|]. destruct (snd r0).
      - injection H as <- _. cbn. rewrite app_length. cbn. lia.
      - destruct a0; [|discriminate]. apply IH in H. rewrite app_length in H. cbn in H |- *. lia. }
    intros H. apply G in H. cbn in H. lia.
  - intros H; injection H as <- <- _. cbn. split; [reflexivity|]. right. rewrite app_length. cbn. split; [lia|]. now split.
Qed.

(** What touches nothing is stored, wherever it is. *)
Lemma cut_stored b x ov : o_closed x = true -> ov = false \/ (o_closed (p_out b) = true /\ apart (o_segs (p_out b)) (o_segs x) /\ (forall c, In c (p_cuts b) -> o_closed c = true /\ apart (o_segs c) (o_segs x))) ->
  exists o' cuts', add_cut b (Some x) ov = Added yes (mkPlate o' (cuts' ++ [x]) (p_holes b)) None /\ same_but_box (p_out b) o' /\ Forall2 same_but_box (p_cuts b) cuts'.
Proof.
  intros C H. unfold add_cut. rewrite C. cbn [negb]. unfold add_cutout. destruct ov; cbn [negb].
  - destruct H as [H|(Co & H1 & H2)]; [discriminate|]. unfold with_outline at 1. rewrite (outline_misses _ _ _ Co C H1). cbn [fst snd].
    destruct (merge_first_none outline with_outline keep_cut (mkPlate (mkOut (o_segs (p_out b)) true (o_wind (p_out b)) false (o_bl (p_out b)) (o_tr (p_out b))) (p_cuts b) (p_holes b)) (p_cuts b) x) with (done := @nil outline) as (cuts' & M & F).
    + intros c I. destruct (H2 c I) as (Cc & Hc). eexists. split; [exact (outline_misses c x false Cc C Hc)|]. unfold same_but_box. cbn. rewrite Cc. now repeat split.
    + eexists _, cuts'. split; [exact M|]. split; [unfold same_but_box; cbn; rewrite Co; now repeat split|exact F].
  - exists (p_out b), (p_cuts b). split; [reflexivity|]. split; [now repeat split|]. clear. induction (p_cuts b); constructor; [now repeat split|assumption].
Qed.
Lemma hole_stored b c ov : s_ty c = SCircle -> ov = false \/ (o_closed (p_out b) = true /\ (forall s, In s (o_segs (p_out b)) -> intersections s c = nothing INone) /\ (forall x, In x (p_cuts b) -> o_closed x = true /\ (forall s, In s (o_segs x) -> intersections s c = nothing INone))) ->
  exists o' cuts', add_hole b (Some c) ov = Added yes (mkPlate o' cuts' (p_holes b ++ [c])) None /\ same_but_box (p_out b) o' /\ Forall2 same_but_box (p_cuts b) cuts'.
Proof.
  intros T H. unfold add_hole. rewrite T. cbn [segty_eqb negb]. unfold add_cutout. destruct ov; cbn [negb].
  - destruct H as [H|(Co & H1 & H2)]; [discriminate|]. unfold with_circle at 1. rewrite (op_misses _ _ _ Co T H1). cbn [fst snd].
    destruct (merge_first_none seg with_circle keep_hole (mkPlate (mkOut (o_segs (p_out b)) true (o_wind (p_out b)) false (o_bl (p_out b)) (o_tr (p_out b))) (p_cuts b) (p_holes b)) (p_cuts b) c) with (done := @nil outline) as (cuts' & M & F).
    + intros x I. destruct (H2 x I) as (Cc & Hc). eexists. split; [unfold with_circle; rewrite (op_misses x c false Cc T Hc); cbn; reflexivity|]. unfold same_but_box. cbn. rewrite Cc. now repeat split.
    + eexists _, cuts'. split; [exact M|]. split; [unfold same_but_box; cbn; rewrite Co; now repeat split|exact F].
  - exists (p_out b), (p_cuts b). split; [reflexivity|]. split; [now repeat split|]. clear. induction (p_cuts b); constructor; [now repeat split|assumption].
Qed.

(** What is cut out of the outline is not compared with the other cutouts. *)
Lemma cut_taken b x r o' : o_closed x = true -> op_outline (p_out b) (Some x) true = Merged r o' None -> fst r = true -> add_cut b (Some x) true = Added yes (mkPlate o' (p_cuts b) (p_holes b)) None.
Proof. intros C E F. unfold add_cut. rewrite C. cbn [negb]. unfold add_cutout, with_outline. cbn [negb]. now rewrite E, F. Qed.

(** What is merged with a cutout is not compared with those after it. *)
Lemma cut_merged b x c1 c c2 o' c' : o_closed x = true -> o_closed (p_out b) = true -> apart (o_segs (p_out b)) (o_segs x) -> p_cuts b = c1 ++ c :: c2 -> (forall u, In u c1 -> o_closed u = true /\ apart (o_segs u) (o_segs x)) ->
  op_outline c (Some x) false = Merged yes c' o' ->
  exists o1 c1', add_cut b (Some x) true = Added yes (mkPlate o1 (c1' ++ c' :: c2) (p_holes b)) None /\ same_but_box (p_out b) o1 /\ Forall2 same_but_box c1 c1'.
Proof.
  intros C Co H E H1 M. unfold add_cut. rewrite C. cbn [negb]. unfold add_cutout. cbn [negb]. unfold with_outline at 1. rewrite (outline_misses _ _ _ Co C H). cbn [fst snd]. rewrite E.
  set (b0 := mkPlate _ _ _). assert (G : forall l done, (forall u, In u l -> o_closed u = true /\ apart (o_segs u) (o_segs x)) -> exists l', merge_first outline with_outline keep_cut b0 done (l ++ c :: c2) x = Added yes (mkPlate (p_out b0) (done ++ l' ++ c' :: c2) (p_holes b0)) None /\ Forall2 same_but_box l l').
  { induction l as [|u l IH]; intros done Hu; cbn [app merge_first].
    - unfold with_outline at 1. rewrite M. cbn [fst yes]. exists []. split; [reflexivity|constructor].
    - destruct (Hu u (or_introl eq_refl)) as (Cu & Au). unfold with_outline at 1. rewrite (outline_misses u x false Cu C Au). cbn [fst snd].
      match goal with |- context [done ++ [?u0]] => set (u' := u0) end. destruct (IH (done ++ [u']) (fun w I => Hu w (or_intror I))) as (l' & El & F). exists (u' :: l'). rewrite El, <- app_assoc. split; [reflexivity|]. constructor; [|exact F]. unfold same_but_box, u'. cbn. rewrite Cu. now repeat split. }
  destruct (G c1 [] H1) as (l' & El & F). exists (p_out b0), l'. rewrite El. split; [reflexivity|]. split; [|exact F]. unfold same_but_box, b0. cbn. rewrite Co. now repeat split.
Qed.
