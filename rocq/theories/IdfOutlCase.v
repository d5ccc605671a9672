(** Cases of outlines in IDF files. *)

From Coq Require Import Lia Lqa.
From Verif Require Import Base Num IoModel IdfText Spec NumFacts IdfSpec IdfFacts IdfRound IdfOutl IdfOutlSpec IdfOutlFacts IdfOutlText IdfOutlSec.
Open Scope Z_scope.

(** The sum by which lines turn. *)
Definition turning (l : qloop) : Q := fold_right (fun g a => (qx (q_end g) - qx (q_start g)) * (qy (q_end g) + qy (q_start g)) + a)%Q 0%Q l.
Definition by_lines (l : qloop) : bool := Qle_bool (turning l) 0.

Definition o0 : qpt := mkQp 0 0.
Definition ox : qpt := mkQp 10 0.
Definition oy : qpt := mkQp 0 10.
Definition tri_ccw : qloop := [mkQs o0 ox 0; mkQs ox oy 0; mkQs oy o0 0].
Definition tri_cw : qloop := [mkQs o0 oy 0; mkQs oy ox 0; mkQs ox o0 0].
Definition hole_at : qloop := [mkQs (mkQp 2 2) (mkQp 3 2) 360].

(** *** Records *)

Definition tri_recs (i : Z) : list orec := [mkOr i o0 0; mkOr i ox 0; mkOr i oy 0; mkOr i o0 0].
Definition hole_recs (i : Z) : list orec := [mkOr i (mkQp 2 2) 0; mkOr i (mkQp 3 2) 360].

Lemma board_read : exists s, steps by_lines false r_init (tri_recs 0 ++ hole_recs 1 ++ tri_recs 2) = Some s /\ finish s = Some [tri_ccw; hole_at; tri_ccw].
Proof. eexists. split; vm_compute; reflexivity. Qed.
Lemma wrong_turn_last : exists s, steps by_lines false r_init (tri_recs 0 ++ tri_recs 1) = Some s /\ finish s = Some [tri_ccw; tri_ccw] /\ by_lines tri_ccw = true.
Proof. eexists. split; [vm_compute; reflexivity|]. split; vm_compute; reflexivity. Qed.
Lemma wrong_turn : steps by_lines false r_init (tri_recs 0 ++ tri_recs 1 ++ hole_recs 2) = None.
Proof. vm_compute. reflexivity. Qed.

(** *** Text *)

Definition tri_text : list str := map S2 ["0 0 0 0"; " "; "0 10 0 0"; "#0 0 10 0"; "0 0 0 0.0"]%string.

Lemma plain_by t : match t with c :: r => forallb (fun c => (48 <=? code c) && (code c <=? 57)) t | [] => false end = true -> plain_number t.
Proof.
  intros H. exists [], t, []. split; [auto|]. split; [destruct t; [discriminate|discriminate]|]. split.
  - destruct t as [|c r]; [constructor|]. rewrite forallb_forall in H. apply Forall_forall. intros x I. specialize (H x I). unfold isdig. lia.
  - split; [constructor|]. left. reflexivity.
Qed.
Lemma plain_00 : plain_number (S2 "0.0").
Proof. exists [], (S2 "0"), (S2 "0"). split; [auto|]. split; [discriminate|]. split; [repeat constructor; unfold isdig; cbn; lia|]. split; [repeat constructor; unfold isdig; cbn; lia|]. right. reflexivity. Qed.
Lemma zero_numeral : numeral (S2 "0") 0.
Proof. split; [discriminate|]. split; [repeat constructor; unfold isdig; cbn; lia|reflexivity]. Qed.

Lemma four_laid a b c d : Forall (fun t => t <> [] /\ Forall (fun c => ~ isspc c) t /\ (forall r, t <> quote :: r)) [a; b; c; d] ->
  laid_out false [Bare a; Bare b; Bare c; Bare d] (a ++ sp :: b ++ sp :: c ++ sp :: d).
Proof.
  intros F. inversion F as [|? ? Fa F1]; subst. inversion F1 as [|? ? Fb F2]; subst. inversion F2 as [|? ? Fc F3]; subst. inversion F3 as [|? ? Fd _]; subst.
  apply (lo_field _ [] (Bare a)); [constructor|exact Fa|exact sp_space|].
  apply (lo_field _ [sp] (Bare b)); [constructor; [exact sp_space|constructor]|exact Fb|exact sp_space|].
  apply (lo_field _ [sp] (Bare c)); [constructor; [exact sp_space|constructor]|exact Fc|exact sp_space|].
  pose proof (lo_field false [sp] (Bare d) [] []) as X. cbn [field_text app] in X. rewrite app_nil_r in X. apply X; [constructor; [exact sp_space|constructor]|exact Fd|exact I|]. constructor. constructor.
Qed.

Lemma bare_ok t : t <> [] -> forallb (fun c => negb (is_space c)) t = true -> match t with c :: _ => Ascii.eqb c quote = false | [] => True end ->
  t <> [] /\ Forall (fun c => ~ isspc c) t /\ (forall r, t <> quote :: r).
Proof. intros A B C. destruct (bare_by t A B C) as (_ & O & _). exact O. Qed.

Lemma trim_self raw : match raw with c :: _ => is_space c = false | [] => True end -> match rev raw with c :: _ => is_space c = false | [] => True end -> trimmed_of raw raw.
Proof.
  intros A B. exists [], []. rewrite app_nil_r. split; [reflexivity|]. split; [constructor|]. split; [constructor|]. split.
  - intros c r ->. apply space_false. exact A.
  - intros c r E. rewrite E, rev_app_distr in B. apply space_false. exact B.
Qed.

Ltac no_nl := let X := fresh in intros X; cbn in X; repeat (destruct X as [X|X]; [discriminate|]); exact X.
Ltac says := do 8 eexists; split; [apply four_laid; repeat (constructor; [apply bare_ok; [discriminate|reflexivity|reflexivity]|]); constructor|];
  split; [left; exact zero_numeral|]; split; [cbn; lia|]; split; [first [exact plain_00|apply plain_by; reflexivity]|]; split; [first [exact plain_00|apply plain_by; reflexivity]|]; split; [first [exact plain_00|apply plain_by; reflexivity]|];
  split; [vm_compute; reflexivity|]; split; [cbn; reflexivity|]; split; [vm_compute; reflexivity|]; split; [cbn; reflexivity|]; vm_compute; reflexivity.


Definition tri_said : list orec := [mkOr 0 o0 0; mkOr 0 ox 0; mkOr 0 oy 0; mkOr 0 o0 (0 # 10)].

Lemma tri_lines v : lines_say MM v tri_text tri_said.
Proof.
  unfold tri_text, tri_said. cbn [map].
  apply (say_point MM v _ (S2 "0" ++ sp :: S2 "0" ++ sp :: S2 "0" ++ sp :: S2 "0")); [no_nl|discriminate|apply trim_self; reflexivity|says|].
  apply say_blank; [constructor; [exact sp_space|constructor]|no_nl|].
  apply (say_point MM v _ (S2 "0" ++ sp :: S2 "10" ++ sp :: S2 "0" ++ sp :: S2 "0")); [no_nl|discriminate|apply trim_self; reflexivity|says|].
  apply (say_comment MM v _ (S2 "0" ++ sp :: S2 "0" ++ sp :: S2 "10" ++ sp :: S2 "0")); [no_nl|apply trim_self; reflexivity|says|].
  apply (say_point MM v _ (S2 "0" ++ sp :: S2 "0" ++ sp :: S2 "0" ++ sp :: S2 "0.0")); [no_nl|discriminate|apply trim_self; reflexivity|says|].
  constructor.
Qed.
Lemma tri_meant single : section_means by_lines single tri_said [tri_ccw].
Proof. apply records_iff. destruct single; (eexists; split; vm_compute; reflexivity). Qed.

Definition in_lines (l : list string) : str := with_newlines (map S2 l).

(** A comment is a point: without it the outline would not be closed at the right place. *)
Lemma comment_point : exists f g, read_outlines by_lines false false MM V3 (mkStream (in_lines ["0 0 0 0"; "0 10 0 0"; "# 0 0 10 0"; "0 0 0 0"; ".END_BOARD_OUTLINE"]%string) false) = Some ([tri_ccw], f) /\
  read_outlines by_lines false false MM V3 (mkStream (in_lines ["0 0 0 0"; "0 10 0 0"; "0 0 0 0"; ".END_BOARD_OUTLINE"]%string) false) = Some ([[mkQs o0 ox 0; mkQs ox o0 0]], g).
Proof. do 2 eexists. split; vm_compute; reflexivity. Qed.

(** An outline which is not closed. *)
Definition open_lines : list string := ["0 0 0 0"; "0 10 0 0"; "0 0 10 0"]%string.
Lemma open_prop : exists f, read_outlines by_lines true true MM V3 (mkStream (in_lines (open_lines ++ ["PROP CAPACITANCE 100.0"; ".END_ELECTRICAL"]%string)) false) = Some ([[mkQs o0 ox 0; mkQs ox oy 0]], f) /\
  read_outlines by_lines true true MM V3 (mkStream (in_lines (open_lines ++ [".END_ELECTRICAL"]%string)) false) = None.
Proof. eexists. split; vm_compute; reflexivity. Qed.

(** What is left of a field goes into the next. *)
Lemma left_over : read_rec false MM V3 (S2 "0.5 10 0 0") [] [] = LRec (mkOr 0 (mkQp (510 # 1000) 0) 0) (S2 "0") [] /\
  read_rec false MM V3 (S2 "0 1,5 2 0") [] [] = LWrong /\
  read_rec false MM V3 (S2 "0 10 0 90deg") [] [] = LRec (mkOr 0 ox 90) (S2 "90deg") (S2 "deg") /\
  read_rec false MM V3 (S2 "0 0 10 0") [] (S2 "deg") = LWrong.
Proof. repeat split; vm_compute; reflexivity. Qed.

(** *** There and back *)

Definition board : list qloop := [tri_cw; hole_at].
Lemma near_in u p p' : near_pt u p p' -> (qx p - tol_pos u <= qx p' <= qx p + tol_pos u /\ qy p - tol_pos u <= qy p' <= qy p + tol_pos u)%Q.
Proof. intros [A B]. unfold near in *. apply Qabs_Qle_condition in A. apply Qabs_Qle_condition in B. split; split; lra. Qed.

Lemma board_ways : ways by_lines false 0 board = [other_way (shut tri_cw); hole_at].
Proof. reflexivity. Qed.

Lemma tri_steady : steady by_lines MM (other_way (shut tri_cw)) true.
Proof.
  intros l' N. unfold by_lines. apply Qle_bool_iff. change (other_way (shut tri_cw)) with [mkQs oy o0 (- 0); mkQs o0 ox (- 0); mkQs ox oy (- 0)] in N.
  inversion N as [|? g1 ? l1 N1 M1]; subst. inversion M1 as [|? g2 ? l2 N2 M2]; subst. inversion M2 as [|? g3 ? l3 N3 M3]; subst. inversion M3; subst.
  destruct N1 as (A1 & B1 & _). destruct N2 as (A2 & B2 & _). destruct N3 as (A3 & B3 & _).
  apply near_in in A1, B1, A2, B2, A3, B3. cbn [tol_pos q_start q_end o0 ox oy qx qy] in *. cbn [turning fold_right].
  destruct g1 as [[a1 b1] [c1 d1] e1], g2 as [[a2 b2] [c2 d2] e2], g3 as [[a3 b3] [c3 d3] e3]. cbn [q_start q_end qx qy] in *.
  assert (X1 : ((c1 - a1) * (d1 + b1) <= 1)%Q) by nra. assert (X2 : ((c2 - a2) * (d2 + b2) <= 1)%Q) by nra. assert (X3 : ((c3 - a3) * (d3 + b3) <= - (90))%Q) by nra. lra.
Qed.

Lemma sized_small q : (Qabs q <= 10)%Q -> sized q.
Proof. intros H. unfold sized. eapply Qle_trans; [exact H|]. vm_compute. discriminate. Qed.
Ltac sz := split; split; apply sized_small; vm_compute; discriminate.
Lemma board_fit : Forall (loop_fit MM) board.
Proof.
  constructor; [|constructor; [|constructor]].
  - split; [repeat (constructor; [sz|]); constructor|]. right. exists (mkQs o0 oy 0), [mkQs oy ox 0], (mkQs ox o0 0). split; [reflexivity|]. split; [cbn; auto|].
    split; [repeat (constructor; [left; reflexivity|]); constructor|]. split; (constructor; [|constructor]); left; vm_compute; discriminate.
  - split; [constructor; [sz|constructor]|]. left. eexists. split; reflexivity.
Qed.
Lemma board_turns : turns_kept by_lines MM (ways by_lines false 0 board).
Proof.
  rewrite board_ways. intros a w b E N. destruct a as [|x [|y a]]; cbn [app] in E.
  - injection E as <- <-. split; [intros _; exact tri_steady|congruence].
  - injection E as <- <- <-. congruence.
  - injection E as <- <- E. destruct a; discriminate.
Qed.

Lemma board_case : MM <> Tnm /\ Forall (loop_fit MM) board /\ Z.of_nat (length board) <= 2147483648 /\ turns_kept by_lines MM (ways by_lines false 0 board) /\
  ways by_lines false 0 board = [other_way (shut tri_cw); hole_at].
Proof. split; [discriminate|]. split; [exact board_fit|]. split; [cbn; lia|]. split; [exact board_turns|reflexivity]. Qed.

(** Points which are too close are lost: this loop is written, but then not read. *)
Definition narrow : qloop := [mkQs o0 ox 0; mkQs ox oy 0; mkQs oy (mkQp (1 # 1000) 0) 0; mkQs (mkQp (1 # 1000) 0) o0 0].
Definition narrow_back : option (list qloop) :=
  match write_outlines by_lines false Thou [narrow] with
  | None => Some []
  | Some t => match read_outlines by_lines false false Thou V3 (mkStream (t ++ S2 ".END_BOARD_OUTLINE" ++ [nl]) false) with
              | Some (l, _) => Some l | None => None end
  end.
Lemma narrow_none : narrow_back = None.
Proof. vm_compute. reflexivity. Qed.
Lemma narrow_lost : exists t, write_outlines by_lines false Thou [narrow] = Some t /\
  read_outlines by_lines false false Thou V3 (mkStream (t ++ S2 ".END_BOARD_OUTLINE" ++ [nl]) false) = None.
Proof.
  pose proof narrow_none as H. unfold narrow_back in H. destruct (write_outlines by_lines false Thou [narrow]) as [t|]; [|discriminate]. exists t. split; [reflexivity|].
  destruct (read_outlines by_lines false false Thou V3 (mkStream (t ++ S2 ".END_BOARD_OUTLINE" ++ [nl]) false)) as [[l f]|]; [discriminate|reflexivity].
Qed.
