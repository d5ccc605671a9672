(** C141, C142, C143: the components of IDF boards. *)

From Coq Require Import Permutation.
From Verif Require Import Base Num IoModel IdfText IdfPlace Spec IdfSpec IdfPlaceSpec IdfPlaceFacts IdfPlaceText IdfPlaceAgain IdfPlaceCase.
Open Scope Z_scope.

(** C141: records and holes make a board just if records with one name agree. *)
Theorem c141_accepted nosub outs es : library outs -> (run nosub es (new_board outs) <> None <-> agree (filed 0 es)).
Proof. exact (run_agree nosub outs es). Qed.
Print Assumptions c141_accepted.

Example c141_accepted_case : library outs2 /\ agree (filed 0 events) /\ run true [Put u1_a; Put other_side] (new_board outs2) = None.
Proof. exact (conj outs2_library (conj events_agree other_side_refused)). Qed.

(** The board has the components, parts and holes which they say. *)
Theorem c141_board nosub outs es b : library outs -> run nosub es (new_board outs) = Some b -> board_of nosub outs es b.
Proof. exact (run_board nosub outs es b). Qed.
Print Assumptions c141_board.

Example c141_board_case : library outs2 /\ run true events (new_board outs2) = Some events_board.
Proof. exact (conj outs2_library events_run). Qed.

(** A record is read just if its two lines say it. *)
Theorem c141_record f u v k line1 f1 b1 fs1 line2 f2 b2 fs2 :
  read_line f = Some (line1, false, f1) -> laid_out b1 fs1 line1 ->
  read_line f1 = Some (line2, false, f2) -> laid_out b2 fs2 line2 -> s_eof f2 = false ->
  (forall r g, read_place f u v k = Got r g -> g = f2 /\ names_mean fs1 r /\ spot_means u k v fs2 r) /\
  (forall r, names_mean fs1 r -> spot_means u k v fs2 r -> exists r', read_place f u v k = Got r' f2 /\ prec_eq r r').
Proof. exact (place_means f u v k line1 f1 b1 fs1 line2 f2 b2 fs2). Qed.
Print Assumptions c141_record.

Theorem c141_end f u v k line1 f1 b1 fs1 : read_line f = Some (line1, false, f1) -> laid_out b1 fs1 line1 ->
  forall g, read_place f u v k = Over g <-> g = f1 /\ exists a more, fs1 = Bare a :: more /\ same_word ".END_PLACEMENT" a.
Proof. exact (place_over f u v k line1 f1 b1 fs1). Qed.
Print Assumptions c141_end.

(** Comments within the section, and a file which ends, are refused. *)
Theorem c141_refused f u v k :
  (forall line g, read_line f = Some (line, true, g) -> read_place f u v k = Wrong) /\
  (forall line1 f1 line2 c f2 b1 fs1, read_line f = Some (line1, false, f1) -> laid_out b1 fs1 line1 ->
     (forall a more, fs1 = Bare a :: more -> ~ same_word ".END_PLACEMENT" a) ->
     read_line f1 = Some (line2, c, f2) -> c = true \/ s_eof f2 = true -> read_place f u v k = Wrong).
Proof. exact (place_refused f u v k). Qed.
Print Assumptions c141_refused.

Example c141_record_case : exists line1 f1 b1 fs1 line2 f2 b2 fs2,
  read_line place_text = Some (line1, false, f1) /\ laid_out b1 fs1 line1 /\
  read_line f1 = Some (line2, false, f2) /\ laid_out b2 fs2 line2 /\ s_eof f2 = false /\
  names_mean fs1 place_said /\ spot_means MM Elec V3 fs2 place_said.
Proof. exact place_text_says. Qed.

Example c141_refused_case : read_place (mkStream (line_a ++ nl :: S2 "# moved" ++ nl :: line_b ++ [nl]) false) MM V3 Elec = Wrong /\
  read_place (mkStream (line_a ++ nl :: line_b) false) MM V3 Elec = Wrong /\
  read_place (mkStream (S2 "  .end_placement" ++ nl :: line_b) false) MM V3 Elec = Over (mkStream line_b false).
Proof. exact place_texts_refused. Qed.

(** A part without a name joins a component which has the name made for it. *)
Theorem c141_nameless_refuted :
  (exists b c, run true [Put odd_name; Put bolt] (new_board outs2) = Some b /\
     b_comps b = [(S2 "NOREFDESn0", c)] /\ length (c_pieces c) = 2%nat) /\
  run true [Put (mkPrec box (Some (S2 "NOREFDESn0")) 10 20 0 0 Top ByMcad); Put bolt] (new_board outs2) = None.
Proof. exact (conj nameless_joins nameless_refused). Qed.
Print Assumptions c141_nameless_refuted.

(** Different names of outlines may have one key. *)
Theorem c141_outline_refuted : library [(S2 "A_B_C", ab_c)] /\
  exists b p, run true [Put (mkPrec a_bc (Some (S2 "U1")) 0 0 0 0 Top Placed)] (new_board [(S2 "A_B_C", ab_c)]) = Some b /\
    b_comps b = [(S2 "U1", mkComp (Some (mkPos 0 0 0 Top)) (Some Placed) [p] [])] /\ k_out p = Some ab_c /\ ab_c <> a_bc.
Proof. exact keys_meet. Qed.
Print Assumptions c141_outline_refuted.

(** In a file in tens of nanometres the holes are where it says, and the components 100000 times as far. *)
Theorem c141_unit_refuted :
  read_place (mkStream (line_a ++ nl :: S2 "100000 200000 90.0 bottom Placed" ++ [nl]) false) Tnm V2 Elec =
    Got (mkPrec box (Some (S2 "U1")) 100000 200000 0 (900 # 10) Bottom Placed) (mkStream [] false) /\
  read_drill (mkStream (S2 "100000 100000 200000 PIN U1" ++ [nl]) false) Tnm V2 =
    Got (mkDrill (100000 # 100000) (100000 # 100000) (200000 # 100000) true (Named (S2 "U1")) Pin Unowned) (mkStream [] false).
Proof. exact (conj tnm_read drill_tnm_read). Qed.
Print Assumptions c141_unit_refuted.

(** C142: the section which is written is read as a record for each part. *)
Theorem c142_records u b cd rest : Forall (part_ok u) (parts_of b) ->
  exists t l, write_placement u b = Some t /\
    read_places (mkStream (t ++ rest) false) (named_unit u) V3 cd = Some (l, mkStream rest false) /\
    Forall2 (fun x r => part_back u (fst (fst x)) (snd (fst x)) (snd x) r) (parts_of b) l.
Proof. exact (places_again' u b cd rest). Qed.
Print Assumptions c142_records.

Example c142_records_case : Forall (part_ok Thou) (parts_of bottom_two) /\ length (parts_of bottom_two) = 2%nat.
Proof. exact (conj (two_ok bottom_two (or_intror eq_refl) Thou) eq_refl). Qed.

(** Reading it gives the components again, with every part in its place. *)
Theorem c142_board u nosub outs b cd rest : library outs -> in_order (map fst (b_comps b)) ->
  Forall (part_ok u) (parts_of b) ->
  (forall n c k, In (n, c, k) (parts_of b) -> ~ like_none n /\
     (forall o, k_out k = Some o -> In (key_of o, o) outs) /\
     (forall p, c_pos c = Some p -> o_side p = Top \/ ((k_x k == 0)%Q /\ (k_a k == 0)%Q))) ->
  exists t b', write_placement u b = Some t /\
    read_placement nosub (mkStream (t ++ rest) false) (named_unit u) V3 cd (new_board outs) = Some (b', mkStream rest false) /\
    (forall n, In n (map fst (b_comps b')) <-> exists c, In (n, c) (b_comps b) /\ c_pieces c <> []) /\
    (forall n c c', In (n, c) (b_comps b) -> In (n, c') (b_comps b') -> Forall2 (piece_back u c c') (c_pieces c) (c_pieces c')).
Proof. exact (board_again u nosub outs b cd rest). Qed.
Print Assumptions c142_board.

Example c142_board_case : library outs2 /\ (in_order (map fst (b_comps top_two)) /\
  (forall n c k, In (n, c, k) (parts_of top_two) -> ~ like_none n /\
     (forall o, k_out k = Some o -> In (key_of o, o) outs2) /\
     (forall p, c_pos c = Some p -> o_side p = Top \/ ((k_x k == 0)%Q /\ (k_a k == 0)%Q)))) /\
  Forall (part_ok MM) (parts_of top_two).
Proof. exact (conj outs2_library (conj top_two_ready (two_ok top_two (or_introl eq_refl) MM))). Qed.

(** All holes are written once. *)
Theorem c142_holes nosub outs es b : library outs -> run nosub es (new_board outs) = Some b ->
  Permutation (holes_written b) (all_holes es).
Proof. exact (holes_kept nosub outs es b). Qed.
Print Assumptions c142_holes.

Example c142_holes_case : library outs2 /\ run true events (new_board outs2) = Some events_board /\
  holes_written events_board = [corner_hole; u1_hole] /\ all_holes events = [u1_hole; corner_hole].
Proof. exact (conj outs2_library (conj events_run (conj eq_refl eq_refl))). Qed.

(** On the bottom the second part of a component goes to the other side of the first. *)
Theorem c142_bottom_refuted : exists t b c,
  run true [Put (mkPrec box (Some (S2 "U1")) 10 20 0 90 Bottom Placed); Put (mkPrec pin (Some (S2 "U1")) 15 20 1 0 Bottom Placed)] (new_board outs2)
    = Some bottom_two /\
  write_placement MM bottom_two = Some t /\
  read_placement true (mkStream t false) MM V3 Elec (new_board outs2) = Some (b, mkStream [] false) /\
  b_comps b = [(S2 "U1", c)] /\
  match c_pos c, c_pieces c with
  | Some p, [_; k] => (o_x p + k_x k == 5)%Q /\ (o_a p + k_a k == 180)%Q
  | _, _ => False
  end.
Proof. exact bottom_mirrored. Qed.
Print Assumptions c142_bottom_refuted.

(** Names are not always kept. *)
Theorem c142_name_refuted :
  (exists t b c, write_placement MM (one_comp "R 1") = Some t /\
     read_placement true (mkStream t false) MM V3 Elec (new_board outs2) = Some (b, mkStream [] false) /\ b_comps b = [(S2 "R", c)]) /\
  (exists t b c, write_placement MM (one_comp "NoRefDes-Bolt") = Some t /\
     read_placement true (mkStream t false) MM V3 Elec (new_board outs2) = Some (b, mkStream [] false) /\ b_comps b = [(S2 "NOREFDESn0", c)]).
Proof. exact (conj space_cut none_lost). Qed.
Print Assumptions c142_name_refuted.

(** A file which is asked for in millimetres is written in thou. *)
Theorem c142_unit_refuted : file_unit true = Thou /\ file_unit false = MM /\
  (exists t b c p, write_placement (file_unit true) fine = Some t /\
    read_placement true (mkStream t false) (named_unit (file_unit true)) V3 Elec (new_board outs2) = Some (b, mkStream [] false) /\
    b_comps b = [(S2 "U1", c)] /\ c_pos c = Some p /\ (o_x p == 0)%Q) /\
  (exists t b c p, write_placement (file_unit false) fine = Some t /\
    read_placement true (mkStream t false) (named_unit (file_unit false)) V3 Elec (new_board outs2) = Some (b, mkStream [] false) /\
    b_comps b = [(S2 "U1", c)] /\ c_pos c = Some p /\ (o_x p == 1 # 1000)%Q).
Proof. exact unit_swapped. Qed.
Print Assumptions c142_unit_refuted.

(** C143: the instances of a board are undefined just if a part has no outline. *)
Theorem c143_defined nosub outs es b built : library outs -> run nosub es (new_board outs) = Some b ->
  (instances built (b_comps b) = None <->
   nosub = true /\ exists k r, In (k, r) (filed 0 es) /\ ~ In (key_of (r_names r)) (map fst outs)).
Proof. exact (instances_undefined nosub outs es b built). Qed.
Print Assumptions c143_defined.

Example c143_defined_case : library outs2 /\ exists b,
  run true [Put (mkPrec ab_c (Some (S2 "U1")) 0 0 0 0 Top Placed)] (new_board outs2) = Some b /\
  instances (fun _ => true) (b_comps b) = None /\
  exists b', run false [Put (mkPrec ab_c (Some (S2 "U1")) 0 0 0 0 Top Placed)] (new_board outs2) = Some b' /\
    exists i, instances (fun _ => true) (b_comps b') = Some [i] /\ i_uid i = S2 "A_B_C".
Proof. exact (conj outs2_library missing_undefined). Qed.

(** There is one for each record which has a body, where the record says. *)
Theorem c143_made nosub outs es b built l : library outs -> run nosub es (new_board outs) = Some b ->
  (forall k r, In (k, r) (filed 0 es) -> geom (r_names r) <> [] \/ prt (r_names r) <> []) ->
  instances built (b_comps b) = Some l ->
  forall k rs, pick k (filed 0 es) rs -> exists rs', with_body built rs rs' /\
    Forall2 (made_of k) rs' (filter (fun i => str_eqb (i_label i) k) l).
Proof. exact (instances_made nosub outs es b built l). Qed.
Print Assumptions c143_made.

(** And no others. *)
Theorem c143_only nosub outs es b built l : library outs -> run nosub es (new_board outs) = Some b ->
  instances built (b_comps b) = Some l -> forall i, In i l -> exists r, In (i_label i, r) (filed 0 es).
Proof. exact (instances_label_known nosub outs es b built l). Qed.
Print Assumptions c143_only.

Example c143_made_case : library outs2 /\ run true events (new_board outs2) = Some events_board /\
  (forall k r, In (k, r) (filed 0 events) -> geom (r_names r) <> [] \/ prt (r_names r) <> []) /\
  exists a b c, instances (fun _ => true) (b_comps events_board) = Some [a; b; c] /\
    i_label a = S2 "NOREFDESn0" /\ i_bottom a = true /\ i_label b = S2 "U1" /\ i_label c = S2 "U1" /\ (i_x c == 15)%Q.
Proof. exact (conj outs2_library (conj events_run (conj events_named events_instances))). Qed.
