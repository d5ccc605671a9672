(** Boards which show what the theorems about components are about. *)

From Coq Require Import Lia Lqa.
From Verif Require Import Base Num IoModel IdfText IdfPlace Spec NumFacts RealFacts IdfSpec IdfFacts IdfNum IdfRound IdfLine IdfSect IdfPlaceSpec IdfPlaceFacts IdfPlaceText IdfPlaceAgain.
Open Scope Z_scope.

(** Two outlines, and a third which has the key of the first. *)
Definition box : names := mkNames (S2 "BOX") (S2 "1").
Definition pin : names := mkNames (S2 "PIN") (S2 "2").
Definition outs2 : list (str * names) := [(S2 "BOX_1", box); (S2 "PIN_2", pin)].

Lemma outs2_library : library outs2.
Proof.
  split.
  - cbn. repeat constructor; cbn; intuition discriminate.
  - intros k o [H|[H|[]]]; injection H as <- <-; (split; [reflexivity|left; discriminate]).
Qed.

(** A component of two parts, a nameless part, holes of the first and of the board. *)
Definition u1_a : prec := mkPrec box (Some (S2 "U1")) 10 20 0 90 Top Placed.
Definition u1_b : prec := mkPrec pin (Some (S2 "U1")) 15 20 1 0 Top Placed.
Definition bolt : prec := mkPrec pin None 1 2 0 0 Bottom ByMcad.
Definition u1_hole : drill := mkDrill 1 10 20 true (Named (S2 "U1")) Pin Ecad.
Definition corner_hole : drill := mkDrill 3 0 0 false ToBoard Mtg Mcad.
Definition events : list event := [Hole u1_hole; Hole corner_hole; Put u1_a; Put bolt; Put u1_b].

Lemma events_filed : filed 0 events = [(S2 "U1", u1_a); (S2 "NOREFDESn0", bolt); (S2 "U1", u1_b)].
Proof. reflexivity. Qed.

Lemma events_agree : agree (filed 0 events).
Proof.
  rewrite events_filed. intros k r r' I J. cbn [In] in I, J.
  destruct I as [I|[I|[I|[]]]], J as [J|[J|[J|[]]]];
  pose proof (f_equal fst I) as A; pose proof (f_equal snd I) as B; pose proof (f_equal fst J) as C; pose proof (f_equal snd J) as D;
  cbn [fst snd] in A, B, C, D; clear I J; rewrite <- A in C; try discriminate C; rewrite <- B, <- D; split; reflexivity.
Qed.

Definition events_board : brd :=
  mkBrd [(S2 "NOREFDESn0", mkComp (Some (mkPos 1 2 0 Bottom)) (Some ByMcad) [mkPiece (Some pin) 0 0 0 0] []);
         (S2 "U1", mkComp (Some (mkPos 10 20 90 Top)) (Some Placed)
            [mkPiece (Some box) 0 0 0 0; mkPiece (Some pin) 5 0 1 (-90)] [u1_hole])] 1 outs2 [corner_hole].

Lemma events_run : run true events (new_board outs2) = Some events_board.
Proof. vm_compute. reflexivity. Qed.

(** Sides which differ. *)
Definition other_side : prec := mkPrec pin (Some (S2 "U1")) 15 20 1 0 Bottom Placed.
Lemma other_side_refused : run true [Put u1_a; Put other_side] (new_board outs2) = None.
Proof. vm_compute. reflexivity. Qed.

(** ** Names which meet *)

(** A nameless part becomes part of a component which has the name made for it. *)
Definition odd_name : prec := mkPrec box (Some (S2 "NOREFDESn0")) 10 20 0 0 Bottom ByMcad.
Lemma nameless_joins : exists b c, run true [Put odd_name; Put bolt] (new_board outs2) = Some b /\
  b_comps b = [(S2 "NOREFDESn0", c)] /\ length (c_pieces c) = 2%nat.
Proof. eexists _, _. split; [vm_compute; reflexivity|]. split; reflexivity. Qed.

(** And the file is refused if that one lies on the other side. *)
Lemma nameless_refused : run true [Put (mkPrec box (Some (S2 "NOREFDESn0")) 10 20 0 0 Top ByMcad); Put bolt] (new_board outs2) = None.
Proof. vm_compute. reflexivity. Qed.

(** Two outlines with one key: a part gets the outline of the other. *)
Definition ab_c : names := mkNames (S2 "A_B") (S2 "C").
Definition a_bc : names := mkNames (S2 "A") (S2 "B_C").
Lemma keys_meet : library [(S2 "A_B_C", ab_c)] /\
  exists b p, run true [Put (mkPrec a_bc (Some (S2 "U1")) 0 0 0 0 Top Placed)] (new_board [(S2 "A_B_C", ab_c)]) = Some b /\
    b_comps b = [(S2 "U1", mkComp (Some (mkPos 0 0 0 Top)) (Some Placed) [p] [])] /\ k_out p = Some ab_c /\ ab_c <> a_bc.
Proof.
  split.
  - split; [repeat constructor; cbn; tauto|]. intros k o [H|[]]. injection H as <- <-. split; [reflexivity|left; discriminate].
  - eexists _, _. split; [vm_compute; reflexivity|]. split; [reflexivity|]. split; [reflexivity|discriminate].
Qed.

(** ** Text *)

Definition line_a : str := quoted_text (S2 "BOX") ++ S2 " 1 U1".
Definition line_b : str := S2 "100000 ""200000"" 0 90.0 bottom Placed".

(** Ten nanometres are read as millimetres: one millimetre is 100000 of them. *)
Lemma tnm_read : read_place (mkStream (line_a ++ nl :: S2 "100000 200000 90.0 bottom Placed" ++ [nl]) false) Tnm V2 Elec =
  Got (mkPrec box (Some (S2 "U1")) 100000 200000 0 (900 # 10) Bottom Placed) (mkStream [] false).
Proof. vm_compute. reflexivity. Qed.

Lemma drill_tnm_read : read_drill (mkStream (S2 "100000 100000 200000 PIN U1" ++ [nl]) false) Tnm V2 =
  Got (mkDrill (100000 # 100000) (100000 # 100000) (200000 # 100000) true (Named (S2 "U1")) Pin Unowned) (mkStream [] false).
Proof. vm_compute. reflexivity. Qed.

(** ** Written and read again *)

Definition bottom_two : brd :=
  mkBrd [(S2 "U1", mkComp (Some (mkPos 10 20 90 Bottom)) (Some Placed)
            [mkPiece (Some box) 0 0 0 0; mkPiece (Some pin) 5 0 1 (-90)] [])] 0 outs2 [].

(** It is what reading two records gives; writing it puts the second part on the other side
    of the first, and turned the other way. *)
Lemma bottom_mirrored : exists t b c,
  run true [Put (mkPrec box (Some (S2 "U1")) 10 20 0 90 Bottom Placed); Put (mkPrec pin (Some (S2 "U1")) 15 20 1 0 Bottom Placed)] (new_board outs2)
    = Some bottom_two /\
  write_placement MM bottom_two = Some t /\
  read_placement true (mkStream t false) MM V3 Elec (new_board outs2) = Some (b, mkStream [] false) /\
  b_comps b = [(S2 "U1", c)] /\
  match c_pos c, c_pieces c with
  | Some p, [_; k] => (o_x p + k_x k == 5)%Q /\ (o_a p + k_a k == 180)%Q
  | _, _ => False
  end.
Proof.
  eexists _, _, _. split; [vm_compute; reflexivity|]. split; [vm_compute; reflexivity|].
  split; [vm_compute; reflexivity|]. split; [reflexivity|]. cbn [c_pos c_pieces o_x o_a k_x k_a]. split; reflexivity.
Qed.

(** A name with a space is cut, and one which starts like NOREFDES is lost. *)
Definition one_comp (n : string) : brd :=
  mkBrd [(S2 n, mkComp (Some (mkPos 10 20 90 Top)) (Some Placed) [mkPiece (Some box) 0 0 0 0] [])] 0 outs2 [].

Lemma space_cut : exists t b c, write_placement MM (one_comp "R 1") = Some t /\
  read_placement true (mkStream t false) MM V3 Elec (new_board outs2) = Some (b, mkStream [] false) /\ b_comps b = [(S2 "R", c)].
Proof. eexists _, _, _. split; [vm_compute; reflexivity|]. split; [vm_compute; reflexivity|]. reflexivity. Qed.

Lemma none_lost : exists t b c, write_placement MM (one_comp "NoRefDes-Bolt") = Some t /\
  read_placement true (mkStream t false) MM V3 Elec (new_board outs2) = Some (b, mkStream [] false) /\ b_comps b = [(S2 "NOREFDESn0", c)].
Proof. eexists _, _, _. split; [vm_compute; reflexivity|]. split; [vm_compute; reflexivity|]. reflexivity. Qed.

(** A component on the board's origin but for a thousandth of a millimetre: with the
    argument [aUnitMM] of [WriteFile] set the offset is lost, and without it it is kept. *)
Definition fine : brd :=
  mkBrd [(S2 "U1", mkComp (Some (mkPos (1 # 1000) 0 0 Top)) (Some Placed) [mkPiece (Some box) 0 0 0 0] [])] 0 outs2 [].

Lemma unit_swapped : file_unit true = Thou /\ file_unit false = MM /\
  (exists t b c p, write_placement (file_unit true) fine = Some t /\
    read_placement true (mkStream t false) (named_unit (file_unit true)) V3 Elec (new_board outs2) = Some (b, mkStream [] false) /\
    b_comps b = [(S2 "U1", c)] /\ c_pos c = Some p /\ (o_x p == 0)%Q) /\
  (exists t b c p, write_placement (file_unit false) fine = Some t /\
    read_placement true (mkStream t false) (named_unit (file_unit false)) V3 Elec (new_board outs2) = Some (b, mkStream [] false) /\
    b_comps b = [(S2 "U1", c)] /\ c_pos c = Some p /\ (o_x p == 1 # 1000)%Q).
Proof.
  split; [reflexivity|]. split; [reflexivity|].
  split; (eexists _, _, _, _; split; [vm_compute; reflexivity|]; split; [vm_compute; reflexivity|]; split; [reflexivity|]; split; [reflexivity|]; reflexivity).
Qed.

Lemma bare_u1 : plain_name (S2 "U1") /\ ~ like_none (S2 "U1").
Proof.
  assert (N : ~ like_none (S2 "U1")) by (rewrite <- name_like; vm_compute; discriminate).
  split; [|exact N]. right. destruct (bare_by (S2 "U1") ltac:(discriminate) eq_refl eq_refl) as (_ & O & Q).
  split; [exact O|]. split; [exact Q|].
  split; [intros H; apply (keyword_same "BOARD" _ (capitals "BOARD" eq_refl)) in H; discriminate|].
  intros H; apply (keyword_same "PANEL" _ (capitals "PANEL" eq_refl)) in H; discriminate.
Qed.

Definition top_two : brd :=
  mkBrd [(S2 "U1", mkComp (Some (mkPos 10 20 90 Top)) (Some Placed)
            [mkPiece (Some box) 0 0 0 0; mkPiece (Some pin) 5 0 1 (-90)] [u1_hole])] 0 outs2 [].

Lemma two_ok b : b = top_two \/ b = bottom_two -> forall u, Forall (part_ok u) (parts_of b).
Proof.
  intros H u. destruct H as [-> | ->];
  (apply Forall_cons; [|apply Forall_cons; [|apply Forall_nil]]);
  (split; [exact (proj1 bare_u1)|]; eexists _, _; split; [reflexivity|]; split; [reflexivity|];
   split; [cbn; intuition discriminate|]; split; [cbn; intuition discriminate|]; split; [cbn; intuition discriminate|];
   split; [cbn; intuition discriminate|]; split; [left; discriminate|];
   repeat (split; [vm_compute; discriminate|]); vm_compute; discriminate).
Qed.

Lemma top_two_ready : in_order (map fst (b_comps top_two)) /\
  (forall n c k, In (n, c, k) (parts_of top_two) -> ~ like_none n /\
     (forall o, k_out k = Some o -> In (key_of o, o) outs2) /\
     (forall p, c_pos c = Some p -> o_side p = Top \/ ((k_x k == 0)%Q /\ (k_a k == 0)%Q))).
Proof.
  split; [repeat constructor|]. intros n c k [H|[H|[]]]; injection H as <- <- <-;
  (split; [exact (proj2 bare_u1)|]; split; [intros o E; injection E as <-; cbn; auto|]; intros p E; injection E as <-; left; reflexivity).
Qed.

(** ** Instances *)

Lemma missing_undefined : exists b,
  run true [Put (mkPrec ab_c (Some (S2 "U1")) 0 0 0 0 Top Placed)] (new_board outs2) = Some b /\
  instances (fun _ => true) (b_comps b) = None /\
  exists b', run false [Put (mkPrec ab_c (Some (S2 "U1")) 0 0 0 0 Top Placed)] (new_board outs2) = Some b' /\
    exists i, instances (fun _ => true) (b_comps b') = Some [i] /\ i_uid i = S2 "A_B_C".
Proof.
  eexists. split; [vm_compute; reflexivity|]. split; [reflexivity|].
  eexists. split; [vm_compute; reflexivity|]. eexists. split; reflexivity.
Qed.

Lemma events_instances : exists a b c, instances (fun _ => true) (b_comps events_board) = Some [a; b; c] /\
  i_label a = S2 "NOREFDESn0" /\ i_bottom a = true /\ i_label b = S2 "U1" /\ i_label c = S2 "U1" /\ (i_x c == 15)%Q.
Proof. eexists _, _, _. split; [vm_compute; reflexivity|]. repeat split; reflexivity. Qed.

Lemma events_named : forall k r, In (k, r) (filed 0 events) -> geom (r_names r) <> [] \/ prt (r_names r) <> [].
Proof. rewrite events_filed. intros k r [H|[H|[H|[]]]]; injection H as _ <-; left; discriminate. Qed.

(** ** A record in its two lines *)

Definition place_text : stream := mkStream (line_a ++ nl :: line_b ++ [nl]) false.
Definition place_said : prec := mkPrec box (Some (S2 "U1")) 100000 200000 0 (900 # 10) Bottom Placed.

Lemma place_texts_refused : read_place (mkStream (line_a ++ nl :: S2 "# moved" ++ nl :: line_b ++ [nl]) false) MM V3 Elec = Wrong /\
  read_place (mkStream (line_a ++ nl :: line_b) false) MM V3 Elec = Wrong /\
  read_place (mkStream (S2 "  .end_placement" ++ nl :: line_b) false) MM V3 Elec = Over (mkStream line_b false).
Proof. vm_compute. split; [reflexivity|]. split; reflexivity. Qed.

Ltac lay w f r := apply (lo_field false w f _ r);
  [first [apply Forall_nil | apply Forall_cons; [exact sp_space|apply Forall_nil]] | | first [exact I | exact sp_space] | ].

Lemma line_a_laid : laid_out false [Quoted (S2 "BOX"); Bare (S2 "1"); Bare (S2 "U1")] line_a.
Proof.
  lay (@nil ascii) (Quoted (S2 "BOX")) (S2 " 1 U1"); [vm_compute; intuition discriminate|].
  lay (S2 " ") (Bare (S2 "1")) (S2 " U1"); [apply (bare_by (S2 "1")); [discriminate|reflexivity|reflexivity]|].
  lay (S2 " ") (Bare (S2 "U1")) (@nil ascii); [apply (bare_by (S2 "U1")); [discriminate|reflexivity|reflexivity]|].
  apply lo_end, Forall_nil.
Qed.

Lemma line_b_laid : laid_out false [Bare (S2 "100000"); Quoted (S2 "200000"); Bare (S2 "0"); Bare (S2 "90.0"); Bare (S2 "bottom"); Bare (S2 "Placed")] line_b.
Proof.
  lay (@nil ascii) (Bare (S2 "100000")) (S2 " ""200000"" 0 90.0 bottom Placed"); [apply (bare_by (S2 "100000")); [discriminate|reflexivity|reflexivity]|].
  lay (S2 " ") (Quoted (S2 "200000")) (S2 " 0 90.0 bottom Placed"); [vm_compute; intuition discriminate|].
  lay (S2 " ") (Bare (S2 "0")) (S2 " 90.0 bottom Placed"); [apply (bare_by (S2 "0")); [discriminate|reflexivity|reflexivity]|].
  lay (S2 " ") (Bare (S2 "90.0")) (S2 " bottom Placed"); [apply (bare_by (S2 "90.0")); [discriminate|reflexivity|reflexivity]|].
  lay (S2 " ") (Bare (S2 "bottom")) (S2 " Placed"); [apply (bare_by (S2 "bottom")); [discriminate|reflexivity|reflexivity]|].
  lay (S2 " ") (Bare (S2 "Placed")) (@nil ascii); [apply (bare_by (S2 "Placed")); [discriminate|reflexivity|reflexivity]|].
  apply lo_end, Forall_nil.
Qed.

Lemma place_text_says : exists line1 f1 b1 fs1 line2 f2 b2 fs2,
  read_line place_text = Some (line1, false, f1) /\ laid_out b1 fs1 line1 /\
  read_line f1 = Some (line2, false, f2) /\ laid_out b2 fs2 line2 /\ s_eof f2 = false /\
  names_mean fs1 place_said /\ spot_means MM Elec V3 fs2 place_said.
Proof.
  exists line_a, (mkStream (line_b ++ [nl]) false), false. eexists. exists line_b, (mkStream [] false), false. eexists.
  split; [vm_compute; reflexivity|]. split; [exact line_a_laid|]. split; [vm_compute; reflexivity|]. split; [exact line_b_laid|].
  split; [reflexivity|]. split.
  - eexists _, _, _, _. split; [reflexivity|]. split; [intros (H & _); discriminate|]. split; [reflexivity|].
    apply ref_read. vm_compute. reflexivity.
  - eapply spot_v3; try (vm_compute; reflexivity).
    + apply side_read. vm_compute. reflexivity.
    + apply placing_read. vm_compute. reflexivity.
Qed.
