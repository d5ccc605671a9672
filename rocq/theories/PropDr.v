(** Drill holes of an IDF board: C129, C130. *)
From Coq Require Import Reals List Bool Sorting.Permutation Sorting.Sorted.
From Verif Require Import SegModel SegSpec SegProps CutSpec CutCases OutModel DrModel DrSpec DrBoard DrCircle DrCase.
Import ListNotations.
Open Scope R_scope.

(** ** C129 *)

(** A drill of the sizes of a board becomes the circle it is. *)
Theorem c129_circle : forall x y dia, 3 / 10 <= dia <= 10 ^ 6 -> Rabs x <= 10 ^ 6 -> Rabs y <= 10 ^ 6 ->
  full_circle (drill_circle x y dia) /\ s_cen (drill_circle x y dia) = at2 x y /\ s_rad (drill_circle x y dia) = dia / 2.
Proof. exact drill_made. Qed.
Print Assumptions c129_circle.

(** Two drills are clear of each other when they are apart and overlap when they cross; in
    all other cases a flag is raised. *)
Theorem c129_answers : forall a b, full_circle (snd a) -> full_circle (snd b) ->
  (circle_meet a b = Clear <-> apart a b) /\ (circle_meet a b = Hit <-> crossing a b).
Proof. exact meet_answers. Qed.
Print Assumptions c129_answers.

(** When every two drills are apart or cross, the drills are put into the groups which hang
    together. *)
Theorem c129_groups : forall l, drill_list l -> clean l ->
  exists holes bundles, DrModel.merge circle_meet l = DrModel.Merged holes bundles false /\ sorted_out circle_meet l holes bundles.
Proof. exact drills_sorted. Qed.
Print Assumptions c129_groups.

Example c129_case : drill_list [dA; dB; dC; dD] /\ clean [dA; dB; dC; dD] /\ DrModel.merge circle_meet [dA; dB; dC; dD] = DrModel.Merged [] [[dA; dB; dC; dD]] false.
Proof. exact (conj chain_list (conj (proj1 (flags_are _ chain_list) chain_clean) chain_merge)). Qed.

(** Whatever the answers are, no iterator is used after its element is gone, and each drill
    is in the list or in a bundle; when the search was given up there was a flag. *)
Theorem c129_total : forall (D : Type) (meet : D -> D -> answer) drills, exists l bs f,
  DrModel.merge meet drills = DrModel.Merged l bs f /\ Permutation drills (l ++ concat bs) /\ (f = true -> ~ flag_free meet drills).
Proof. exact merge_total. Qed.
Print Assumptions c129_total.

(** The drills of a bundle are added in the order of their edges' distances from the centre of the first. *)
Theorem c129_order : forall f l, Permutation l (in_order circle_closer f l) /\
  StronglySorted (fun a b => dist (s_cen (snd a)) (s_cen (snd f)) - s_rad (snd a) <= dist (s_cen (snd b)) (s_cen (snd f)) - s_rad (snd b)) (in_order circle_closer f l).
Proof. exact circle_order. Qed.
Print Assumptions c129_order.

(** ** C130 *)

(** Each drill given is in one place: on the edge, in a cutout, a hole, declined, or gone. *)
Theorem c130_accounts : forall (D O B : Type) closer begin add sub put_cutout put_hole meet edge cutouts drills b,
  @make_board D O B closer begin add sub put_cutout put_hole meet edge cutouts drills = Makes b ->
  Permutation drills (on_edge b ++ in_cutouts b ++ as_holes b ++ dropped b ++ vanished b).
Proof. exact board_places. Qed.
Print Assumptions c130_accounts.

(** None is gone unless two of the drills raise a flag. *)
Theorem c130_complete : forall (D O B : Type) closer begin add sub put_cutout put_hole meet edge cutouts drills b, flag_free meet drills ->
  @make_board D O B closer begin add sub put_cutout put_hole meet edge cutouts drills = Makes b -> vanished b = [].
Proof. exact (@board_complete). Qed.
Print Assumptions c130_complete.

(** But then: of two drills which overlap and one which is there twice, the two which
    overlap are gone, and the board is made. *)
Theorem c130_complete_refuted : forall (O B : Type) (begin : drill -> O) add (sub : B -> drill -> reply B) put_cutout put_hole edge,
  (forall o d, exists o', sub o d = Left o') -> drill_list [dA; dB; dE; dF] /\
  exists b, make_board circle_closer begin add sub put_cutout put_hole circle_meet edge [] [dA; dB; dE; dF] = Makes b /\
    vanished b = [dA; dB] /\ (put_hole = (fun o d => Took o) -> as_holes b = [dE; dF]) /\ in_cutouts b = [] /\ on_edge b = [].
Proof. exact (fun O B begin add sub pc ph edge H => conj lost_list (two_lost begin add sub pc ph edge H)). Qed.
Print Assumptions c130_complete_refuted.

(** The program uses a destroyed outline exactly if a bundle is not merged into one. *)
Theorem c130_dies : forall (D O B : Type) closer begin add sub put_cutout put_hole meet edge cutouts drills,
  @make_board D O B closer begin add sub put_cutout put_hole meet edge cutouts drills = Dies <->
  exists l bs b, DrModel.merge meet drills = DrModel.Merged l bs false /\ In b bs /\ fst (bundle_outline closer begin add b) <> true.
Proof. exact (@board_dies). Qed.
Print Assumptions c130_dies.

(** Which four drills in a chain can bring about, although every two are apart or cross. *)
Theorem c130_dies_refuted : forall (B : Type) (sub : B -> drill -> reply B) put_cutout put_hole edge cutouts,
  drill_list [dA; dB; dC; dD] /\ clean [dA; dB; dC; dD] /\
  make_board circle_closer circle_begin circle_add sub put_cutout put_hole circle_meet edge cutouts [dA; dB; dC; dD] = Dies.
Proof. exact (fun B sub pc ph edge cutouts => conj chain_list (conj (proj1 (flags_are _ chain_list) chain_clean) (chain_dies sub pc ph edge cutouts))). Qed.
Print Assumptions c130_dies_refuted.

Example c130_case : snd dC = drill_circle 8 12 16 /\ snd dD = drill_circle 0 8 4 /\ snd dE = drill_circle 100 0 2.
Proof. exact drills_of_case. Qed.
