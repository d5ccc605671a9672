(** Merging two outlines and cutting one out of the other: which parts are kept and how
    they are put together. *)

From Coq Require Import Reals List Bool Arith Lra Lia.
From Verif Require Import SegModel SegSpec SegTrig SegFacts SegSplit SegProps CutModel CutSpec CutCases OutModel OutSpec OutFacts OutCut OvlModel OvlSpec OvlFacts.
Import ListNotations.
Open Scope R_scope.

(** ** Finding the places *)

Lemma find_start_spec l k p k' : (k < length l)%nat -> find_start l k p = Some k' -> (k' < length l)%nat /\ one_point p (s_start (nth k' l seg_init)) e8.
Proof.
  intros L. unfold find_start, next_place. cbv zeta.
  set (k1 := if Nat.eqb (S k) (length l) then 0%nat else S k). set (k2 := if Nat.eqb (S k1) (length l) then 0%nat else S k1).
  assert (L1 : (k1 < length l)%nat) by (unfold k1; destruct (Nat.eqb_spec (S k) (length l)); lia).
  assert (L2 : (k2 < length l)%nat) by (unfold k2; destruct (Nat.eqb_spec (S k1) (length l)); lia).
  repeat match goal with |- (if ?b then _ else _) = _ -> _ => destruct b eqn:?B; [intros E; injection E as <-; split; [assumption|now apply point_matches_spec]|] end. discriminate.
Qed.

Lemma pass_until_spec p l w r : pass_until p l = Some (w, r) -> l = w ++ r /\ exists s r', r = s :: r' /\ one_point (s_start s) p e8.
Proof.
  revert w. induction l as [|s l IH]; intros w; [discriminate|]. cbn [pass_until]. destruct (point_matches (s_start s) p e8) eqn:M.
  - intros E. injection E as <- <-. split; [reflexivity|]. exists s, l. split; [reflexivity|now apply point_matches_spec].
  - destruct (pass_until p l) as [(w' & r')|]; [|discriminate]. intros E. injection E as <- <-. destruct (IH w' eq_refl) as (-> & X). now split.
Qed.

Lemma trim_spec l k q w r kr : (k < length l)%nat -> trim l k q = Some (w, (r, kr)) ->
  exists s x, skipn kr r ++ firstn kr r = s :: x /\ turned_round (w ++ s :: x) l /\ one_point (s_start s) q e8 /\
    (exists y, skipn kr r = s :: y) /\ (w = [] -> s = nth k l seg_init) /\ (forall t y, w = t :: y -> t = nth k l seg_init).
Proof.
  intros L H. unfold trim in H.
  assert (Hk : exists y, skipn k l = nth k l seg_init :: y). { exists (skipn (S k) l). clear H. revert l L. induction k as [|k IH]; intros [|a l] L; cbn in L; try lia; [reflexivity|]. cbn [skipn nth]. apply IH. lia. }
  assert (Lf : length (firstn k l) = k) by (rewrite firstn_length; lia).
  destruct (pass_until q (skipn k l)) as [(w0 & r0)|] eqn:P1.
  - injection H as <- <- <-. destruct (pass_until_spec q _ _ _ P1) as (E & s & r' & -> & M). exists s, (r' ++ firstn k l).
    assert (Es : skipn k (firstn k l ++ s :: r') = s :: r') by (rewrite skipn_app, Lf, Nat.sub_diag, skipn_all2 by lia; reflexivity).
    assert (Ef : firstn k (firstn k l ++ s :: r') = firstn k l) by (rewrite firstn_app, Lf, Nat.sub_diag, firstn_all2 by lia; cbn [firstn]; apply app_nil_r).
    rewrite Es, Ef. split; [reflexivity|]. split; [|split; [exact M|split; [now exists r'|]]].
    + exists (skipn k l), (firstn k l). split; [rewrite E, <- app_assoc; reflexivity|now rewrite firstn_skipn].
    + destruct Hk as (y & Hk). rewrite Hk in E. split; intros; subst; cbn in E; congruence.
  - destruct (pass_until q (firstn k l)) as [(w0 & r0)|] eqn:P2; [|discriminate]. injection H as <- <- <-. destruct (pass_until_spec q _ _ _ P2) as (E & s & r' & -> & M).
    exists s, r'. cbn [skipn firstn]. rewrite app_nil_r. split; [reflexivity|]. split; [|split; [exact M|split; [now exists r'|]]].
    + exists (skipn k l), (firstn k l). split; [rewrite E, <- app_assoc; reflexivity|now rewrite firstn_skipn].
    + destruct Hk as (y & Hk). rewrite Hk. split; intros; cbn in *; congruence.
Qed.

Lemma apart_turns x y : apart_starts (x ++ y) -> apart_starts (y ++ x).
Proof.
  intros A i j Li Lj M. rewrite app_length in Li, Lj.
  assert (Get : forall k, (k < length y + length x)%nat -> nth k (y ++ x) origin = nth (if Nat.ltb k (length y) then (k + length x)%nat else (k - length y)%nat) (x ++ y) origin /\ ((if Nat.ltb k (length y) then (k + length x)%nat else (k - length y)%nat) < length (x ++ y))%nat).
  { intros k Lk. rewrite app_length. destruct (Nat.ltb k (length y)) eqn:B.
    - apply Nat.ltb_lt in B. split; [|lia]. rewrite app_nth1, app_nth2 by lia. f_equal. lia.
    - apply Nat.ltb_ge in B. split; [|lia]. rewrite app_nth2, app_nth1 by lia. reflexivity. }
  destruct (Get i Li) as (Ei & Ki). destruct (Get j Lj) as (Ej & Kj). rewrite Ei, Ej in M. pose proof (A _ _ Ki Kj M) as E.
  destruct (Nat.ltb i (length y)) eqn:Bi; destruct (Nat.ltb j (length y)) eqn:Bj; rewrite ?Nat.ltb_lt, ?Nat.ltb_ge in *; lia.
Qed.

(** ** The parts *)

Lemma cut_in_two l k p q w r kr : good l -> (k < length l)%nat -> ~ one_point p q e8 ->
  (forall s, In s l -> one_point p (s_start s) e8 -> s_start s = p) -> (forall s, In s l -> one_point q (s_start s) e8 -> s_start s = q) ->
  one_point p (s_start (nth k l seg_init)) e8 -> trim l k q = Some (w, (r, kr)) ->
  exists x, x = skipn kr r ++ firstn kr r /\ w <> [] /\ x <> [] /\ chained p w q /\ chained q x p /\ turned_round (w ++ x) l /\
    (exists y, w = nth k l seg_init :: y) /\ (exists s y, skipn kr r = s :: y /\ s_start s = q).
Proof.
  intros (Fp & Ff & R) L N Hp Hq M T. destruct (trim_spec l k q w r kr L T) as (s & x & Ex & Tn & Mq & (y & Ey) & W0 & W1).
  assert (Ik : In (nth k l seg_init) l) by (now apply nth_In). pose proof (Hp _ Ik M) as Sk.
  assert (Is : In s l) by (apply (turned_in _ _ s Tn); apply in_or_app; right; now left). apply one_point_sym in Mq. pose proof (Hq s Is Mq) as Ss.
  destruct w as [|t w].
  - exfalso. apply N. rewrite <- Sk, <- Ss, (W0 eq_refl). apply one_point_refl.
  - pose proof (W1 t w eq_refl) as Et. exists (s :: x). split; [now symmetry|]. split; [discriminate|]. split; [discriminate|].
    apply turned_sym in Tn. pose proof (ring_turns _ _ Tn R) as R'. apply ring_chained in R'. destruct R' as (_ & z & C). apply chained_app in C. destruct C as (c & (A & B) & D).
    assert (Ez : z = p) by congruence. pose proof D as (Ec & _). assert (Ec' : c = q) by congruence. rewrite Ez in A, D. rewrite Ec' in B, D.
    split; [exact (conj A B)|]. split; [exact D|]. split; [now apply turned_sym|]. split; [exists w; now rewrite Et|exists s, y; now split].
Qed.

Lemma last_nth_seg (l : list seg) s : nth (length (l ++ [s]) - 1) (l ++ [s]) seg_init = s.
Proof. rewrite app_length. cbn [length]. rewrite app_nth2 by lia. replace (length l + 1 - 1 - length l)%nat with 0%nat by lia. reflexivity. Qed.

Lemma snoc_cases (l : list seg) : l = [] \/ exists m z, l = m ++ [z].
Proof. destruct l as [|a l] using rev_ind; [now left|right; now exists l, a]. Qed.

(* the segment before the place at which a course is opened *)
Lemma before_place r kr s y z p : skipn kr r = s :: y -> chained z (skipn kr r ++ firstn kr r) p ->
  exists t, In t r /\ nth (if Nat.eqb kr 0 then (length r - 1)%nat else (kr - 1)%nat) r seg_init = t /\ s_end t = p.
Proof.
  intros E C. destruct (Nat.eqb_spec kr 0) as [->|N].
  - cbn [skipn firstn] in C, E. rewrite app_nil_r in C. destruct (snoc_cases r) as [->|(m & t & ->)]; [discriminate|]. exists t. split; [apply in_or_app; right; now left|]. split; [apply last_nth_seg|]. symmetry. exact (chained_end _ _ _ _ C).
  - assert (Lr : (kr < length r)%nat). { destruct (Nat.lt_ge_cases kr (length r)) as [A|A]; [exact A|]. rewrite skipn_all2 in E by lia. discriminate. }
    assert (Ef : firstn kr r = firstn (kr - 1) r ++ [nth (kr - 1) r seg_init]). { replace kr with (S (kr - 1)) at 1 by lia. apply firstn_last. lia. }
    exists (nth (kr - 1) r seg_init). split; [apply nth_In; lia|]. split; [reflexivity|]. rewrite Ef, app_assoc in C. symmetry. exact (chained_end _ _ _ _ C).
Qed.

Section Parts.
Variables (o b : outline) (p q : pt) (k h : nat) (sub : bool).
Let l := o_segs o.
Let m := o_segs b.
Hypothesis (Gl : good l) (Gm : good m) (Lk : (k < length l)%nat) (Lh : (h < length m)%nat) (N : ~ one_point p q e8).
Hypothesis (Hp : forall s, In s (l ++ m) -> one_point p (s_start s) e8 -> s_start s = p) (Hq : forall s, In s (l ++ m) -> one_point q (s_start s) e8 -> s_start s = q).

Lemma parts_joined r o' a' : op_parts o b p q k h sub = Merged r o' a' -> fst r = true ->
  r = yes /\ a' = None /\ exists w x w' x' inside s',
    w <> [] /\ x <> [] /\ chained p w q /\ chained q x p /\ turned_round (w ++ x) l /\
    w' <> [] /\ x' <> [] /\ chained p w' q /\ chained q x' p /\ turned_round (w' ++ x') m /\
    starts_inside b w inside /\ starts_inside o w' (negb inside) /\ o' = with_segs o s' /\
    (sub = true -> inside = true -> turned_round (x ++ rev (map reverse x')) s') /\
    (sub = true -> inside = false -> exists g z, w' = g ++ [z] /\ s' = rev (map reverse g) ++ reverse z :: w) /\
    (sub = false -> Forall (fun s => s_cw s = false) l -> Forall (fun s => s_cw s = false) m -> inside = false -> turned_round (w ++ x') s') /\
    (sub = false -> Forall (fun s => s_cw s = false) l -> Forall (fun s => s_cw s = false) m -> apart_starts (map s_start m) -> inside = true -> turned_round (x ++ w') s').
Proof.
  intros H T. unfold op_parts in H. fold l m in H. cbv zeta in H.
  destruct (find_start l k p) as [k1|] eqn:F1; [|injection H as <- _ _; discriminate]. destruct (find_start_spec l k p k1 Lk F1) as (L1 & M1).
  destruct (find_start m h p) as [h1|] eqn:F2; [|injection H as <- _ _; discriminate]. destruct (find_start_spec m h p h1 Lh F2) as (L2 & M2).
  set (v0 := snd (get_midpoint (nth k1 l seg_init) origin)) in *. set (in0 := fst (is_inside b v0 false)) in *.
  set (v1 := snd (get_midpoint (nth h1 m seg_init) v0)) in *. set (in1 := fst (is_inside o v1 false)) in *.
  destruct (Bool.eqb in0 in1) eqn:Eb; [injection H as <- _ _; discriminate|]. apply Bool.eqb_false_iff in Eb.
  destruct (trim l k1 q) as [(w & r0 & kr)|] eqn:T1; [|injection H as <- _ _; discriminate]. destruct (trim m h1 q) as [(w' & r1 & hr)|] eqn:T2; [|injection H as <- _ _; discriminate].
  assert (Il : forall s, In s l -> In s (l ++ m)) by (intros; apply in_or_app; now left). assert (Im : forall s, In s m -> In s (l ++ m)) by (intros; apply in_or_app; now right).
  destruct (cut_in_two l k1 p q w r0 kr Gl L1 N (fun s I => Hp s (Il s I)) (fun s I => Hq s (Il s I)) M1 T1) as (x & Ex & Nw & Nx & Cw & Cx & Tl & (yw & Ew) & (s0 & y0 & Es0 & Ss0)).
  destruct (cut_in_two m h1 p q w' r1 hr Gm L2 N (fun s I => Hp s (Im s I)) (fun s I => Hq s (Im s I)) M2 T2) as (x' & Ex' & Nw' & Nx' & Cw' & Cx' & Tm & (yw' & Ew') & (s1 & y1 & Es1 & Ss1)).
  assert (Ein : in1 = negb in0) by (destruct in0, in1; try reflexivity; now elim Eb).
  assert (Done : forall s', stitch o (if in0 then r0 else w) (if in0 then kr else 0%nat) (if xorb in1 sub then r1 else w') (if xorb in1 sub then hr else (length w' - 1)%nat) sub = Merged r o' a' ->
     o' = with_segs o s' -> True) by auto. clear Done.
  assert (H' : stitch o (if in0 then r0 else w) (if in0 then kr else 0%nat) (if xorb in1 sub then r1 else w') (if xorb in1 sub then hr else (length w' - 1)%nat) sub = Merged r o' a').
  { destruct w' as [|aw' bw']; [now elim Nw'|]. destruct in1, sub; cbn [andb orb negb xorb] in H |- *; exact H. } clear H.
  assert (Goal_ : forall s', r = yes -> a' = None -> o' = with_segs o s' ->
    (sub = true -> in0 = true -> turned_round (x ++ rev (map reverse x')) s') ->
    (sub = true -> in0 = false -> exists g z, w' = g ++ [z] /\ s' = rev (map reverse g) ++ reverse z :: w) ->
    (sub = false -> Forall (fun s => s_cw s = false) l -> Forall (fun s => s_cw s = false) m -> in0 = false -> turned_round (w ++ x') s') ->
    (sub = false -> Forall (fun s => s_cw s = false) l -> Forall (fun s => s_cw s = false) m -> apart_starts (map s_start m) -> in0 = true -> turned_round (x ++ w') s') ->
    r = yes /\ a' = None /\ exists w x w' x' inside s',
    w <> [] /\ x <> [] /\ chained p w q /\ chained q x p /\ turned_round (w ++ x) l /\
    w' <> [] /\ x' <> [] /\ chained p w' q /\ chained q x' p /\ turned_round (w' ++ x') m /\
    starts_inside b w inside /\ starts_inside o w' (negb inside) /\ o' = with_segs o s' /\
    (sub = true -> inside = true -> turned_round (x ++ rev (map reverse x')) s') /\
    (sub = true -> inside = false -> exists g z, w' = g ++ [z] /\ s' = rev (map reverse g) ++ reverse z :: w) /\
    (sub = false -> Forall (fun s => s_cw s = false) l -> Forall (fun s => s_cw s = false) m -> inside = false -> turned_round (w ++ x') s') /\
    (sub = false -> Forall (fun s => s_cw s = false) l -> Forall (fun s => s_cw s = false) m -> apart_starts (map s_start m) -> inside = true -> turned_round (x ++ w') s')).
  { intros s' Er Ea Eo A B C D. split; [exact Er|]. split; [exact Ea|]. exists w, x, w', x', in0, s'. rewrite <- Ein.
    repeat (split; [assumption|]). split; [exists (nth k1 l seg_init), yw, origin; split; [exact Ew|reflexivity]|]. split; [exists (nth h1 m seg_init), yw', v0; split; [exact Ew'|reflexivity]|].
    split; [exact Eo|]. split; [exact A|]. split; [exact B|]. split; [exact C|exact D]. }
  rewrite Ein in H'. destruct sub eqn:Es.
  - unfold stitch in H'. injection H' as <- <- <-. eapply Goal_; try reflexivity; try discriminate.
    + intros _ Ei. rewrite Ei in *. cbn [negb xorb]. rewrite Ex', Ex. unfold insert_at. rewrite <- rev_app_distr, map_rev.
      exists (skipn kr r0), (firstn kr r0 ++ rev (map reverse (skipn hr r1 ++ firstn hr r1))). split; [now rewrite <- app_assoc|now rewrite <- app_assoc].
    + intros _ Ei. rewrite Ei in *. cbn [negb xorb]. destruct (snoc_cases w') as [->|(g & z & Eg)]; [now elim Nw'|]. exists g, z. split; [exact Eg|].
      unfold insert_at. cbn [firstn skipn app]. rewrite Eg, app_length. cbn [length]. rewrite Nat.add_sub.
      assert (Ef : firstn (length g) (g ++ [z]) = g) by (rewrite firstn_app, firstn_all, Nat.sub_diag; cbn [firstn]; apply app_nil_r).
      assert (Es' : skipn (length g) (g ++ [z]) = [z]) by (rewrite skipn_app, skipn_all, Nat.sub_diag; reflexivity).
      rewrite Ef, Es'. cbn [rev app]. rewrite map_app, map_rev, <- app_assoc. reflexivity.
  - unfold stitch in H'. destruct (if in0 then r0 else w) as [|c0 cs] eqn:El'; [discriminate|].
    destruct (turn_to _ _ _) as [e|] eqn:Tt; [|discriminate]. injection H' as <- <- <-.
    eapply Goal_; try reflexivity; try discriminate.
    + intros _ Wl Wm Ei. rewrite Ei in *. cbn [negb xorb Nat.eqb] in *. rewrite <- El' in *.
      destruct (snoc_cases w) as [->|(g & z & Eg)]; [now elim Nw|]. rewrite Eg, last_nth_seg in Tt.
      assert (Iz : In z l) by (apply (turned_in _ _ z Tl); rewrite Eg; apply in_or_app; left; apply in_or_app; right; now left).
      assert (Ez : get_end z = q). { unfold get_end. rewrite Forall_forall in Wl. rewrite (Wl z Iz). rewrite Eg in Cw. symmetry. exact (chained_end _ _ _ _ Cw). }
      rewrite Ez in Tt. assert (I1 : In s1 m). { apply (turned_in _ _ s1 Tm). apply in_or_app. right. rewrite Ex', Es1. now left. }
      assert (G1 : point_matches (get_start s1) q e8 = true). { unfold get_start. rewrite Forall_forall in Wm. rewrite (Wm s1 I1), Ss1. apply point_matches_spec, one_point_refl. }
      unfold turn_to in Tt. rewrite Es1 in Tt. cbn [place_of] in Tt. rewrite G1 in Tt. injection Tt as <-.
      unfold insert_at. cbn [firstn skipn app]. rewrite <- Ex'. exists w, x'. now split.
    + intros _ Wl Wm Ap Ei. rewrite Ei in *. cbn [negb xorb] in *. rewrite <- El' in *.
      rewrite Ex in Cx. destruct (before_place r0 kr s0 y0 q p Es0 Cx) as (t & It & Et & Eq). rewrite Et in Tt.
      assert (Itl : In t l). { apply (turned_in _ _ t Tl). apply in_or_app. right. rewrite Ex. rewrite <- (firstn_skipn kr r0) in It. apply in_app_or in It. apply in_or_app. tauto. }
      assert (Get : get_end t = p) by (unfold get_end; rewrite Forall_forall in Wl; now rewrite (Wl t Itl)). rewrite Get in Tt.
      assert (Gs : forall s, In s w' -> get_start s = s_start s). { intros s I. unfold get_start. rewrite Forall_forall in Wm. rewrite (Wm s); [reflexivity|]. apply (turned_in _ _ s Tm). apply in_or_app. now left. }
      assert (E0 : e = 0%nat).
      { destruct w' as [|f g]; [now elim Nw'|]. assert (Sf : s_start f = p) by (destruct Cw' as (A & _); exact A).
        assert (Mf : point_matches (get_start f) p e8 = true) by (rewrite (Gs f (or_introl eq_refl)), Sf; apply point_matches_spec, one_point_refl).
        destruct (snoc_cases g) as [->|(g' & z & ->)].
        - unfold turn_to in Tt. cbn [length Nat.sub skipn place_of] in Tt. rewrite Mf in Tt. now injection Tt as <-.
        - change (f :: g' ++ [z]) with ((f :: g') ++ [z]) in *. unfold turn_to in Tt. rewrite app_length in Tt. cbn [length] in Tt. replace (S (length g') + 1 - 1)%nat with (length (f :: g')) in Tt by (cbn; lia).
          rewrite skipn_app, skipn_all, firstn_app, firstn_all, Nat.sub_diag in Tt. cbn [skipn firstn app] in Tt. rewrite app_nil_r in Tt. cbn [place_of] in Tt. rewrite Mf in Tt.
          assert (Nz : point_matches (get_start z) p e8 = false).
          { destruct (point_matches (get_start z) p e8) eqn:Mz; [|reflexivity]. exfalso. rewrite (Gs z) in Mz by (apply in_or_app; right; now left). apply point_matches_spec in Mz.
            destruct Tm as (a & c & E1 & E2). assert (Ap' : apart_starts (map s_start ((f :: g') ++ [z]) ++ map s_start x')).
            { rewrite <- map_app, E1, map_app. apply apart_turns. rewrite <- map_app, <- E2. exact Ap. }
            assert (Zero : 0%nat = length (f :: g')); [|cbn in Zero; discriminate]. apply Ap'; [rewrite app_length, map_length, app_length; cbn; lia|rewrite app_length, map_length, app_length; cbn; lia|].
            assert (At : nth (length (f :: g')) (map s_start ((f :: g') ++ [z]) ++ map s_start x') origin = s_start z).
            { rewrite map_app, <- app_assoc. rewrite app_nth2 by (rewrite map_length; lia). rewrite map_length, Nat.sub_diag. reflexivity. }
            rewrite At. cbn [app map nth]. rewrite Sf. now apply one_point_sym. }
          rewrite Nz in Tt. now injection Tt as <-. }
      rewrite E0. unfold insert_at. cbn [skipn firstn]. rewrite app_nil_r, Ex. exists (skipn kr r0), (firstn kr r0 ++ w'). split; now rewrite <- app_assoc.
Qed.
End Parts.

Lemma place_found p i l s : In s l -> point_matches (get_start s) p e8 = true -> exists e, place_of p i l = Some e.
Proof.
  revert i. induction l as [|t l IH]; intros i I M; [destruct I|]. cbn [place_of]. destruct (point_matches (get_start t) p e8) eqn:E; [now eexists|].
  destruct I as [->|I]; [congruence|now apply IH].
Qed.
Lemma turn_found l k p s : In s l -> point_matches (get_start s) p e8 = true -> exists e, turn_to l k p = Some e.
Proof.
  intros I M. unfold turn_to. rewrite <- (firstn_skipn k l) in I. apply in_app_or in I. destruct (place_of p k (skipn k l)) as [e|] eqn:E; [now exists e|].
  destruct I as [I|I]; [now apply (place_found p 0 _ s)|]. destruct (place_found p k _ s I M) as (e & E'). congruence.
Qed.

Section Ends.
Variables (o b : outline) (p q : pt) (k h : nat) (sub : bool).
Let l := o_segs o.
Let m := o_segs b.
Hypothesis (Gl : good l) (Gm : good m) (Lk : (k < length l)%nat) (Lh : (h < length m)%nat) (N : ~ one_point p q e8).
Hypothesis (Hp : forall s, In s (l ++ m) -> one_point p (s_start s) e8 -> s_start s = p) (Hq : forall s, In s (l ++ m) -> one_point q (s_start s) e8 -> s_start s = q).

(* there is always an answer *)
Lemma parts_answer : sub = true \/ (Forall (fun s => s_cw s = false) l /\ Forall (fun s => s_cw s = false) m) ->
  exists r o' a', op_parts o b p q k h sub = Merged r o' a'.
Proof.
  intros W. unfold op_parts. fold l m. cbv zeta.
  destruct (find_start l k p) as [k1|] eqn:F1; [|eexists _, _, _; reflexivity]. destruct (find_start_spec l k p k1 Lk F1) as (L1 & M1).
  destruct (find_start m h p) as [h1|] eqn:F2; [|eexists _, _, _; reflexivity]. destruct (find_start_spec m h p h1 Lh F2) as (L2 & M2).
  set (v0 := snd (get_midpoint (nth k1 l seg_init) origin)) in *. set (in0 := fst (is_inside b v0 false)) in *.
  set (v1 := snd (get_midpoint (nth h1 m seg_init) v0)) in *. set (in1 := fst (is_inside o v1 false)) in *.
  destruct (Bool.eqb in0 in1) eqn:Eb; [eexists _, _, _; reflexivity|]. apply Bool.eqb_false_iff in Eb.
  destruct (trim l k1 q) as [(w & r0 & kr)|] eqn:T1; [|eexists _, _, _; reflexivity]. destruct (trim m h1 q) as [(w' & r1 & hr)|] eqn:T2; [|eexists _, _, _; reflexivity].
  assert (Il : forall s, In s l -> In s (l ++ m)) by (intros; apply in_or_app; now left). assert (Im : forall s, In s m -> In s (l ++ m)) by (intros; apply in_or_app; now right).
  destruct (cut_in_two l k1 p q w r0 kr Gl L1 N (fun s I => Hp s (Il s I)) (fun s I => Hq s (Il s I)) M1 T1) as (x & Ex & Nw & Nx & Cw & Cx & Tl & (yw & Ew) & (s0 & y0 & Es0 & Ss0)).
  destruct (cut_in_two m h1 p q w' r1 hr Gm L2 N (fun s I => Hp s (Im s I)) (fun s I => Hq s (Im s I)) M2 T2) as (x' & Ex' & Nw' & Nx' & Cw' & Cx' & Tm & (yw' & Ew') & (s1 & y1 & Es1 & Ss1)).
  assert (Ein : in1 = negb in0) by (destruct in0, in1; try reflexivity; now elim Eb).
  destruct sub eqn:Es.
  - destruct w' as [|t w']; [now elim Nw'|]. destruct in1; cbn [andb orb negb]; unfold stitch; eexists _, _, _; reflexivity.
  - destruct W as [W|(Wl & Wm)]; [discriminate|]. rewrite Forall_forall in Wl, Wm. rewrite Ein. destruct in0; cbn [negb andb orb].
    + destruct w' as [|f g]; [now elim Nw'|]. unfold stitch. destruct r0 as [|c0 cs] eqn:Er; [rewrite skipn_nil in Es0; discriminate|]. rewrite <- Er in *.
      rewrite Ex in Cx. destruct (before_place r0 kr s0 y0 q p Es0 Cx) as (t & It & Et & Eq). rewrite Et.
      assert (Itl : In t l). { apply (turned_in _ _ t Tl). apply in_or_app. right. rewrite Ex. rewrite <- (firstn_skipn kr r0) in It. apply in_app_or in It. apply in_or_app. tauto. }
      assert (Get : get_end t = p) by (unfold get_end; now rewrite (Wl t Itl)). rewrite Get.
      destruct (turn_found (f :: g) (length (f :: g) - 1) p f (or_introl eq_refl)) as (e & ->); [|eexists _, _, _; reflexivity].
      assert (If : In f m) by (apply (turned_in _ _ f Tm); now left). unfold get_start. rewrite (Wm f If). destruct Cw' as (-> & _). apply point_matches_spec, one_point_refl.
    + unfold stitch. destruct w as [|c0 cs] eqn:Ecs; [now elim Nw|]. rewrite <- Ecs in *. cbn [Nat.eqb].
      destruct (snoc_cases w) as [E0|(g & z & Eg)]; [now elim Nw|]. rewrite Eg, last_nth_seg.
      assert (Iz : In z l) by (apply (turned_in _ _ z Tl); rewrite Eg; apply in_or_app; left; apply in_or_app; right; now left).
      assert (Ez : get_end z = q). { unfold get_end. rewrite (Wl z Iz). rewrite Eg in Cw. symmetry. exact (chained_end _ _ _ _ Cw). } rewrite Ez.
      assert (I1 : In s1 m). { apply (turned_in _ _ s1 Tm). apply in_or_app. right. rewrite Ex', Es1. now left. }
      assert (Ir : In s1 r1) by (rewrite <- (firstn_skipn hr r1), Es1; apply in_or_app; right; now left).
      destruct (turn_found r1 hr q s1 Ir) as (e & ->); [|eexists _, _, _; reflexivity]. unfold get_start. rewrite (Wm s1 I1), Ss1. apply point_matches_spec, one_point_refl.
Qed.
End Ends.

(** ** The points met *)

Definition first_in (p : pt) (ij : nat * nat) (r : list (pt * (nat * nat))) : Prop := exists l1 l2, r = l1 ++ (p, ij) :: l2 /\ ~ In p (map fst l1).

Lemma app_cases {A} (x y l1 l2 : list A) v : x ++ y = l1 ++ v :: l2 -> (exists z, x = l1 ++ v :: z) \/ (exists z, l1 = x ++ z /\ y = z ++ v :: l2).
Proof.
  revert l1. induction x as [|a x IH]; intros l1 E; cbn [app] in E; [right; now exists l1|].
  destruct l1 as [|a' l1]; cbn [app] in E; injection E as E1 E2; [left; exists x; cbn; congruence|]. destruct (IH l1 E2) as [(z & ->)|(z & -> & ->)]; [left; exists z; cbn; congruence|right; exists z; split; [cbn; congruence|reflexivity]].
Qed.

Lemma meet_one_first s i opsub l : forall j before r, meet_one s i j l before opsub = inr r ->
  forall p ij, first_in p ij r -> ~ In p before -> exists j0, ij = (i, j0) /\ (j <= j0 < j + length l)%nat /\ meets_on s (nth (j0 - j) l seg_init) p.
Proof.
  induction l as [|t l IH]; intros j before r H p ij (l1 & l2 & E & Nl) Nb; cbn [meet_one] in H.
  - injection H as <-. destruct l1; discriminate.
  - assert (Next : forall before' r', meet_one s i (S j) l before' opsub = inr r' -> first_in p ij r' -> ~ In p before' -> exists j0, ij = (i, j0) /\ (j <= j0 < j + length (t :: l))%nat /\ meets_on s (nth (j0 - j) (t :: l) seg_init) p).
    { intros before' r' E' F N'. destruct (IH (S j) before' r' E' p ij F N') as (j0 & Ei & B & M). exists j0. cbn [length]. split; [exact Ei|]. split; [lia|]. replace (j0 - j)%nat with (S (j0 - S j)) by lia. exact M. }
    destruct (intersections s t) as (ok & ps & f) eqn:I. destruct ok.
    + assert (Here : (f = INone \/ f = IEndpoint \/ f = ITangent) -> forall r', meet_one s i (S j) l (before ++ ps) opsub = inr r' -> r = map (fun p => (p, (i, j))) (before ++ ps) ++ r' ->
        exists j0, ij = (i, j0) /\ (j <= j0 < j + length (t :: l))%nat /\ meets_on s (nth (j0 - j) (t :: l) seg_init) p).
      { intros Ff r' Er' Er. rewrite Er in E. apply app_cases in E. destruct E as [(z & Ez)|(z & Ez & Ey)].
        - assert (Ip : In (p, ij) (map (fun p => (p, (i, j))) (before ++ ps))) by (rewrite Ez; apply in_or_app; right; now left). apply in_map_iff in Ip. destruct Ip as (v & Ev & Iv). injection Ev as -> <-.
          exists j. cbn [length]. split; [reflexivity|]. split; [lia|]. rewrite Nat.sub_diag. cbn [nth]. apply in_app_or in Iv. destruct Iv as [Iv|Iv]; [now elim Nb|]. exists ps, f. now repeat split.
        - apply (Next (before ++ ps) r' Er'); [exists z, l2; split; [exact Ey|]; intros K; apply Nl; rewrite Ez, map_app; apply in_or_app; now right|].
          intros K. apply Nl. rewrite Ez, map_app, map_map. apply in_or_app. left. apply in_map_iff. now exists p. }
      destruct f; try discriminate; (destruct (meet_one s i (S j) l (before ++ ps) opsub) as [e|r'] eqn:Er'; [discriminate|]; injection H as H; symmetry in H; apply (Here ltac:(auto) r'); [reflexivity|exact H]).
    + destruct f; try discriminate. apply (Next before r H); [now exists l1, l2|exact Nb].
Qed.

Lemma meet_all_first m opsub l : forall i r, meet_all i l m opsub = inr r ->
  forall p ij, first_in p ij r -> exists i0 j0, ij = (i0, j0) /\ (i <= i0 < i + length l)%nat /\ (j0 < length m)%nat /\ meets_on (nth (i0 - i) l seg_init) (nth j0 m seg_init) p.
Proof.
  induction l as [|s l IH]; intros i r H p ij (l1 & l2 & E & Nl); cbn [meet_all] in H.
  - injection H as <-. destruct l1; discriminate.
  - destruct (meet_one s i 0 m [] opsub) as [e|r0] eqn:E0; [discriminate|]. destruct (meet_all (S i) l m opsub) as [e|r1] eqn:E1; [discriminate|]. injection H as <-.
    apply app_cases in E. destruct E as [(z & Ez)|(z & Ez & Ey)].
    + destruct (meet_one_first s i opsub m 0%nat [] r0 E0 p ij) as (j0 & Ei & B & M); [now exists l1, z|intros []|]. exists i, j0. cbn [length]. rewrite Nat.sub_0_r in M. rewrite Nat.sub_diag. cbn [nth]. repeat split; try assumption; lia.
    + destruct (IH (S i) r1 E1 p ij) as (i0 & j0 & Ei & B & Lj & M); [exists z, l2; split; [exact Ey|]; intros K; apply Nl; rewrite Ez, map_app; apply in_or_app; now right|].
      exists i0, j0. cbn [length]. split; [exact Ei|]. split; [lia|]. split; [exact Lj|]. replace (i0 - i)%nat with (S (i0 - S i)) by lia. exact M.
Qed.

Lemma firsts_spec l : forall acc, (forall i j u v, nth_error acc i = Some u -> nth_error acc j = Some v -> (i < j)%nat -> ~ one_point (fst u) (fst v) e8) ->
  (forall p ij, In (p, ij) (firsts acc l) -> In (p, ij) acc \/ (first_in p ij l /\ existsb (fun u => point_matches (fst u) p e8) acc = false)) /\
  (forall i j u v, nth_error (firsts acc l) i = Some u -> nth_error (firsts acc l) j = Some v -> (i < j)%nat -> ~ one_point (fst u) (fst v) e8).
Proof.
  induction l as [|v l IH]; intros acc H; cbn [firsts]; [split; [now left|exact H]|].
  destruct (existsb (fun u => point_matches (fst u) (fst v) e8) acc) eqn:X.
  - destruct (IH acc H) as (A & B). split; [|exact B]. intros p ij I. destruct (A p ij I) as [K|((l1 & l2 & E & Nl) & Y)]; [now left|]. right. split; [|exact Y].
    exists (v :: l1), l2. split; [cbn; congruence|]. cbn [map]. intros [Ev|K]; [rewrite Ev in X; congruence|now elim Nl].
  - assert (H' : forall i j u w, nth_error (acc ++ [v]) i = Some u -> nth_error (acc ++ [v]) j = Some w -> (i < j)%nat -> ~ one_point (fst u) (fst w) e8).
    { intros i j u w Eu Ew L. assert (Lj : (j < length (acc ++ [v]))%nat) by (apply nth_error_Some; congruence). rewrite app_length in Lj. cbn [length] in Lj.
      rewrite nth_error_app1 in Eu by lia. destruct (Nat.eq_dec j (length acc)) as [->|Nj].
      - rewrite nth_error_app2, Nat.sub_diag in Ew by lia. injection Ew as <-. intros K. apply Bool.not_true_iff_false in X. apply X. apply existsb_exists. exists u. split; [now apply nth_error_In with i|now apply point_matches_spec].
      - rewrite nth_error_app1 in Ew by lia. now apply (H i j). }
    destruct (IH (acc ++ [v]) H') as (A & B). split; [|exact B]. intros p ij I. destruct (A p ij I) as [K|((l1 & l2 & E & Nl) & Y)].
    + apply in_app_or in K. destruct K as [K|[K|[]]]; [now left|]. right. subst v. split; [now exists [], l|exact X].
    + right. rewrite existsb_app in Y. apply Bool.orb_false_iff in Y. destruct Y as (Y1 & Y2). split; [|exact Y1]. exists (v :: l1), l2. split; [cbn; congruence|]. cbn [map].
      intros [Ev|K]; [|now elim Nl]. cbn [existsb] in Y2. rewrite Bool.orb_false_r in Y2. apply Bool.not_true_iff_false in Y2. apply Y2. rewrite Ev. apply point_matches_spec, one_point_refl.
Qed.
