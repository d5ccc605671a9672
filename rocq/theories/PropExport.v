(** The claims about handing one model over to another (C88-C93), each with a
    concrete case. *)

From Coq Require Import QArith List Bool ZArith Lia.
From Verif Require Import Base IoModel EntModel EntModel2 PayloadModel UnitModel UnitSpec.
From Verif Require Import GraphModel GraphSpec GraphFacts GraphCheck ExportModel ExportSpec ExportFacts ExportProps ExportProps2 ExportProps3.
Import ListNotations.
Open Scope Z_scope.

(** ** C88 *)

(** The package is a new Subfigure Definition of the receiver which holds the contents
    and nothing else; all entities of the exported model belong to the receiver, with
    the pointers they had; the entities of the receiver are as before; the books are
    in order. *)
Theorem c88_package : forall (D : Type) now (s : source D) (t : target) l,
  fits_in s t -> contents (ta_graph t) (so_ids s) l -> l <> [] ->
  let g := ta_graph t in
  exists h p name s' items ws n rest, Export now false s t = Some (Packed h p name s' items ws) /\
    ~ live g p /\ so_ids s' = [] /\
    look h p = Some n /\ n_type n = 308 /\ n_null n = false /\ n_own n = true /\ n_dep n = 0 /\ n_refs n = [] /\ n_items n = l /\
    (forall x, holds n x <-> In x l) /\
    (forall i, i <> p -> look h i = option_map (after_move (so_ids s) l p i) (look g i)) /\
    g_ents h = g_ents g ++ p :: l ++ rest /\ picked (fun x => ~ In x l) (so_ids s) rest /\
    consistent h.
Proof. exact @export_graph. Qed.
Print Assumptions c88_package.

(** The contents are determined by the model. *)
Theorem c88_contents : forall g src, side_by_side g src -> exists l, contents g src l /\ forall l', contents g src l' -> l' = l.
Proof. exact contents_exist. Qed.
Print Assumptions c88_contents.

(** Any two models made by the library which share nothing can stand side by side. *)
Theorem c88_two_models : forall g h, reached g -> reached h -> typeless_nulls g -> typeless_nulls h ->
  side_by_side (beside g h) (map (fun i => i + g_next g)%nat (g_ents h)).
Proof. exact beside_claim. Qed.
Print Assumptions c88_two_models.

(* The receiver: a line.  The exported model: a definition with a line, two instances
   of it, the second of which is part of another definition, and a loose surface. *)
Definition mine_ex : list op := [ONew 110].
Definition theirs_ex : list op :=
  [ONew 308; ONew 110; OAddItem 0 1; ONew 408; OSetSlot 2 0 (Some 0) false; ONew 144; ONew 408; OSetSlot 4 0 (Some 0) false;
   ONew 308; OAddItem 5 4]%nat.
Definition both_ex : graph := beside (made mine_ex) (made theirs_ex).
Definition items_ex : list (item unit) :=
  [mkItem (Some (P308 (mkSub 0 (S2 "part") [3]))) None None;
   mkItem (Some (P110 (mkLine 0 1 3 4 5 6))) None (Some 0%nat);
   mkItem (Some (P408 (mkInst (Some 1) 1 2 3 1))) None None;
   mkItem (Some (P144 (mkTrim None 0 None []))) None None;
   mkItem (Some (P408 (mkInst (Some 1) 0 0 0 2))) None (Some 5%nat);
   mkItem (Some (P308 (mkSub 1 (S2 "whole") [9]))) None None].
Definition source_ex (u : Z) (sc : Q) (file : str) : source unit := mkSource [1; 2; 3; 4; 5; 6]%nat (mkMdl u (1 # 1000) sc items_ex) [0; 1; 2; 3; 4; 0] 4 file.
Definition target_ex (u : Z) (sc : Q) (grad : Z) : target := mkTarget both_ex u sc grad.
Lemma items_ex_sound : sound items_ex.
Proof.
  intros i H. cbn in H.
  assert (C : forall k, (k < 6)%nat -> parent_at items_ex k = None -> climbs items_ex k) by (intros; constructor; assumption).
  assert (C0 : climbs items_ex 0) by (apply C; [lia|reflexivity]).
  assert (C5 : climbs items_ex 5) by (apply C; [lia|reflexivity]).
  do 6 (destruct i as [|i]; [first [assumption | apply C; [lia|reflexivity] | eapply climbs_up; [reflexivity|cbn; lia|assumption]]|]).
  lia.
Qed.
Lemma both_ex_sides : side_by_side both_ex [1; 2; 3; 4; 5; 6]%nat.
Proof.
  destruct (made_case mine_ex) as (A & B & _); [vm_compute; reflexivity..|].
  destruct (made_case theirs_ex) as (A' & B' & _); [vm_compute; reflexivity..|].
  exact (beside_claim _ _ A A' B B').
Qed.
Lemma fits_ex u sc file u' sc' grad : (0 < sc)%Q -> a_unit u -> a_unit u' -> 1 <= grad <= 2147483647 ->
  fits_in (source_ex u sc file) (target_ex u' sc' grad).
Proof.
  intros P U U' G. constructor; cbn; auto.
  - exact both_ex_sides.
  - exact items_ex_sound.
  - lia.
  - repeat constructor; discriminate.
Qed.
Lemma contents_ex : contents both_ex [1; 2; 3; 4; 5; 6]%nat [3; 5]%nat.
Proof. exact (proj1 (contents_case both_ex [1; 2; 3; 4; 5; 6]%nat (mkLists [4] [3; 5] [])%nat both_ex_sides ltac:(vm_compute; reflexivity))). Qed.
Example c88_case : fits_in (source_ex 1 2 []) (target_ex 2 1 8) /\ contents both_ex [1; 2; 3; 4; 5; 6]%nat [3; 5]%nat /\
  exists h name s' items ws, Export (mkTm 126 318 8 5 9) false (source_ex 1 2 []) (target_ex 2 1 8) = Some (Packed h 7%nat name s' items ws) /\
    g_ents h = [0; 7; 3; 5; 1; 2; 4; 6]%nat /\ ws = [0; 2; 4; 6; 8; 0] /\ name = S2 "assy20263190805090001" /\
    option_map n_refs (look h 5%nat) = Some [6; 7]%nat.
Proof.
  split; [apply fits_ex; [reflexivity|left; discriminate|left; discriminate|lia]|]. split; [exact contents_ex|].
  eexists _, _, _, _, _. split; [vm_compute; reflexivity|]. repeat split; vm_compute; reflexivity.
Qed.

(** ** C89 *)

(** Data and line weights are those of the receiver's unit, scale and gradations: as
    numbers times length of the unit over scale, lengths stay what they were. *)
Theorem c89_converted : forall (D : Type) now (s : source D) (t : target) a b, fits_in s t -> so_ids s <> [] ->
  Forall supported (m_ents (so_mdl s)) -> scale_ok (ta_scale t) ->
  unit_length (m_unit (so_mdl s)) = Some a -> unit_length (ta_unit t) = Some b ->
  exists r sc items ws, Export now false s t = Some r /\ handed r (ta_unit t) sc items ws /\ (sc == ta_scale t)%Q /\
    all_rescaled (ta_scale t * a) (m_scale (so_mdl s) * b) (m_ents (so_mdl s)) items /\
    Forall2 (weighs (so_grad s) (ta_grad t)) (so_weights s) ws /\ Forall (in_range (ta_grad t)) ws.
Proof. exact @data_claim. Qed.
Print Assumptions c89_converted.

(** Line weights keep their order; they are kept with the same gradations and
    multiplied if those of the receiver are a multiple; with fewer gradations all
    which are not 0 become 1. *)
Theorem c89_weights : forall mine theirs w v, 1 <= mine -> 1 <= theirs -> weighs mine theirs w v ->
  (mine = theirs -> v = w) /\ (theirs < mine -> 0 < w -> v = 1) /\ (forall k, theirs = k * mine -> v = k * w) /\
  (forall w' v', weighs mine theirs w' v' -> w <= w' -> v <= v').
Proof. exact weights_claim. Qed.
Print Assumptions c89_weights.

Example c89_case : fits_in (source_ex 1 2 []) (target_ex 2 1 8) /\ Forall supported items_ex /\ scale_ok 1 /\
  exists r items ws l, Export (mkTm 126 318 8 5 9) false (source_ex 1 2 []) (target_ex 2 1 8) = Some r /\ handed r 2 1 items ws /\
    option_map it_data (nth_error items 1) = Some (Some (P110 l)) /\ (l_x2 l == 254 # 5)%Q.
Proof.
  split; [apply fits_ex; [reflexivity|left; discriminate|left; discriminate|lia]|].
  split; [repeat constructor; discriminate|]. split; [split; discriminate|].
  eexists _, _, _, _. split; [vm_compute; reflexivity|]. split; [split; [reflexivity|split; [reflexivity|split; reflexivity]]|].
  split; [vm_compute; reflexivity|]. reflexivity.
Qed.
Example c89_weights_case : weighs 8 3 5 1 /\ weighs 8 3 8 1 /\ weighs 4 8 3 6 /\ weighs 4 11 3 6 /\ weighs 4 11 0 0.
Proof. repeat split; unfold weighs; vm_compute; auto; right; split; reflexivity. Qed.

(** ** C90 *)

(** User defined units, or a scale out of bounds: the entities are handed over as
    they are, into a model of another unit or scale, and nobody is told. *)
Theorem c90_not_converted : forall (D : Type) now (s : source D) (t : target), fits_in s t -> so_ids s <> [] ->
  (m_unit (so_mdl s) <> ta_unit t /\ (m_unit (so_mdl s) = 3 \/ ta_unit t = 3) /\ (m_scale (so_mdl s) == ta_scale t)%Q) \/
  (m_unit (so_mdl s) = ta_unit t /\ ~ scale_ok (ta_scale t) /\ ~ (m_scale (so_mdl s) == ta_scale t)%Q) ->
  exists r ws, Export now false s t = Some r /\
    handed r (m_unit (so_mdl s)) (m_scale (so_mdl s)) (m_ents (so_mdl s)) ws.
Proof. exact @custom_claim. Qed.
Print Assumptions c90_not_converted.

(** An unsupported entity: those before it are converted, those after it are not. *)
Theorem c90_half_converted : forall (D : Type) now (s : source D) (t : target) a b l1 it l2, fits_in s t -> so_ids s <> [] ->
  (m_scale (so_mdl s) == ta_scale t)%Q -> m_unit (so_mdl s) <> ta_unit t ->
  unit_length (m_unit (so_mdl s)) = Some a -> unit_length (ta_unit t) = Some b ->
  m_ents (so_mdl s) = l1 ++ it :: l2 -> Forall supported l1 -> ~ supported it ->
  exists r sc l1' ws, Export now false s t = Some r /\ handed r (m_unit (so_mdl s)) sc (l1' ++ it :: l2) ws /\ length l1' = length l1 /\ ~ (a == b)%Q /\
    forall i x x', nth_error l1 i = Some x -> nth_error l1' i = Some x' -> item_rescaled (m_ents (so_mdl s)) a b i x x'.
Proof. exact @half_claim. Qed.
Print Assumptions c90_half_converted.

(** A model without gradations (they are not tested, C15): division by zero. *)
Theorem c90_no_gradations : forall (D : Type) now self (s : source D) (t : target), so_ids s <> [] -> so_grad s = 0 ->
  Export now self s t = None.
Proof. exact @no_gradations. Qed.
Print Assumptions c90_no_gradations.

(** What is not of the contents is handed over, but nothing leads to it from the
    package. *)
Theorem c90_left_out : forall (D : Type) now (s : source D) (t : target) l x n, fits_in s t ->
  contents (ta_graph t) (so_ids s) l -> l <> [] -> In x (so_ids s) -> ~ In x l -> look (ta_graph t) x = Some n ->
  exists h p name s' items ws, Export now false s t = Some (Packed h p name s' items ws) /\
    In x (g_ents h) /\ look h x = Some (w_own true n) /\ ~ points h p x.
Proof. exact @left_out. Qed.
Print Assumptions c90_left_out.

(** With nothing to pack nothing is handed over, and this is success. *)
Theorem c90_nothing_to_pack : forall (D : Type) now (s : source D) (t : target), fits_in s t -> contents (ta_graph t) (so_ids s) [] ->
  exists s', Export now false s t = Some (Left s') /\ so_ids s' = so_ids s.
Proof. exact @export_nothing. Qed.
Print Assumptions c90_nothing_to_pack.

(* the loose surface 4 of the example is left out *)
Example c90_case : fits_in (source_ex 3 1 []) (target_ex 2 1 8) /\ contents both_ex [1; 2; 3; 4; 5; 6]%nat [3; 5]%nat /\
  loose_surface both_ex 4 /\ fits_in (source_ex 1 1 []) (target_ex 1 (1 # 1000000000) 8) /\ ~ scale_ok (1 # 1000000000).
Proof.
  split; [apply fits_ex; [reflexivity|right; reflexivity|left; discriminate|lia]|]. split; [exact contents_ex|].
  split; [|split; [apply fits_ex; [reflexivity|left; discriminate|left; discriminate|lia]|intros [X _]; vm_compute in X; apply X; reflexivity]].
  split; [exists (moved 1 (new_node 144 true))|exists (moved 1 (new_node 144 true)); split; [vm_compute; reflexivity|reflexivity]].
  split; [vm_compute; reflexivity|]. split; reflexivity.
Qed.
(* two lines: nothing to pack, but the lines are converted; a line, an unsupported
   entity and an instance: the instance is not converted *)
Definition lines_ex : graph := beside (made mine_ex) (made [ONew 110; ONew 116; ONew 110]).
Definition lines_source : source unit :=
  mkSource [1; 2; 3]%nat (mkMdl 1 (1 # 1000) 1 [mkItem (Some (P110 (mkLine 0 1 3 4 5 6))) None None; mkItem None None None;
     mkItem (Some (P110 (mkLine 0 1 3 4 5 6))) None None]) [0; 0; 0] 4 [].
Example c90_lines_case : fits_in lines_source (mkTarget lines_ex 2 1 4) /\ contents lines_ex [1; 2; 3]%nat [] /\
  exists s' l, Export (mkTm 126 318 8 5 9) false lines_source (mkTarget lines_ex 2 1 4) = Some (Left s') /\
    map it_data (m_ents (so_mdl s')) = [Some (P110 l); None; Some (P110 (mkLine 0 1 3 4 5 6))] /\ (l_x2 l == 508 # 5)%Q.
Proof.
  assert (S0 : side_by_side lines_ex [1; 2; 3]%nat).
  { destruct (made_case mine_ex) as (A & B & _); [vm_compute; reflexivity..|].
    destruct (made_case [ONew 110; ONew 116; ONew 110]) as (A' & B' & _); [vm_compute; reflexivity..|].
    exact (beside_claim _ _ A A' B B'). }
  split; [|split].
  - constructor; cbn; [exact S0| |reflexivity|left; discriminate|left; discriminate|lia|lia|repeat constructor; discriminate].
    intros i H. cbn in H. apply climbs_end. do 3 (destruct i as [|i]; [reflexivity|]). lia.
  - exact (proj1 (contents_case lines_ex [1; 2; 3]%nat (mkLists [] [] []) S0 ltac:(vm_compute; reflexivity))).
  - eexists _, _. split; [vm_compute; reflexivity|]. split; [vm_compute; reflexivity|]. reflexivity.
Qed.

(** ** C91 *)

(** Handing a model over to itself empties it: it succeeds, the model has no entities
    any more, and all of them still exist. *)
Theorem c91_into_itself : forall (D : Type) now (s : source D) g l, reached g -> typeless_nulls g ->
  (forall i n, In i (g_ents g) -> look g i = Some n -> n_own n = true) ->
  so_ids s = g_ents g -> 1 <= so_grad s <= 2147483647 -> Forall (in_range (so_grad s)) (so_weights s) ->
  contents g (g_ents g) l -> l <> [] ->
  exists h p n name s' items ws,
    Export now true s (mkTarget g (m_unit (so_mdl s)) (m_scale (so_mdl s)) (so_grad s)) = Some (Packed h p name s' items ws) /\
    so_ids s' = [] /\ g_ents h = [] /\ look h p = Some n /\ n_type n = 308 /\ n_items n = l /\ forall i, live g i -> live h i.
Proof. exact @self_claim. Qed.
Print Assumptions c91_into_itself.

Example c91_case : exists g, reached g /\ typeless_nulls g /\ (forall i n, In i (g_ents g) -> look g i = Some n -> n_own n = true) /\
  g_ents g = [0; 1; 2; 3; 4; 5]%nat /\ exists l, contents g (g_ents g) l /\ l = [2; 4]%nat.
Proof.
  exists (made theirs_ex). destruct (made_case theirs_ex) as (A & B & _); [vm_compute; reflexivity..|].
  split; [exact A|]. split; [exact B|]. split; [|split; [vm_compute; reflexivity|]].
  - intros i n _ E. assert (X : every (made theirs_ex) (fun _ n => n_own n) = true) by (vm_compute; reflexivity).
    exact (every_ok _ _ (proj1 (GraphProps2.reached_inv _ A)) X i n E).
  - pose proof (GraphProps2.reached_inv _ A) as I. pose proof (GraphProps2.inv_consistent _ I) as Bk.
    assert (S0 : side_by_side (made theirs_ex) []) by exact (sides_none _ Bk (g_fresh _ _ (proj1 I)) B).
    exists [2; 4]%nat. split; [|reflexivity].
    destruct (sort_all_ok (made theirs_ex) [] (g_ents (made theirs_ex)) S0 (proj2 (proj2 (proj2 Bk)))) as (a & E & H & _).
    vm_compute in E. injection E as <-. left. split; [discriminate|]. exact H.
Qed.

(** ** C92 *)

(** The name of the package is the name of the file up to the last dot, wherever that
    is; without a file name it is generated, an assembly's if there are two or more
    instances. *)
Theorem c92_names : forall (D : Type) now (s : source D) (t : target) l k, fits_in s t ->
  contents (ta_graph t) (so_ids s) l -> l <> [] -> picked (on_top (ta_graph t)) (so_ids s) k ->
  exists h p name s' items ws, Export now false s t = Some (Packed h p name s' items ws) /\
    (forall base, without_extension (so_file s) base -> so_file s <> [] -> name = base) /\
    (forall d1 d2 c, so_file s = d1 ++ "."%char :: d2 ++ "/"%char :: c -> d1 <> [] -> ~ In "."%char d2 -> ~ In "."%char c -> name = d1) /\
    (so_file s = [] -> name = if Nat.ltb 1 (length k) then GetNewAssemblyName now else GetNewPartName now).
Proof. exact @name_claim. Qed.
Print Assumptions c92_names.

Example c92_case : without_extension (S2 "dir/part.v2.igs") (S2 "dir/part.v2") /\ without_extension (S2 ".igs") (S2 ".igs") /\
  without_extension (S2 "lib.d/part") (S2 "lib") /\
  exists h p s' items ws, Export (mkTm 126 318 8 5 9) false (source_ex 1 2 (S2 "lib.d/part")) (target_ex 2 1 8) = Some (Packed h p (S2 "lib") s' items ws).
Proof.
  split; [left; exists (S2 "igs"); split; [reflexivity|]; split; [intros H; vm_compute in H; intuition discriminate|discriminate]|].
  split; [right; split; [reflexivity|]; right; exists (S2 "igs"); split; [reflexivity|]; intros H; vm_compute in H; intuition discriminate|].
  split; [left; exists (S2 "d/part"); split; [reflexivity|]; split; [intros H; vm_compute in H; intuition discriminate|discriminate]|].
  eexists _, _, _, _, _. vm_compute. reflexivity.
Qed.

(** ** C93 *)

(** The nesting depth which is written with a Subfigure Definition is that of the
    deepest chain of definitions within it; if it is within itself the recursion has
    no end. *)
Theorem c93_nesting : forall g p, reached g -> no_network g -> live g p ->
  (forall k, deepest g p k -> depth_level (S k) g p = Some (Z.of_nat k)) /\
  (forall fuel d, depth_level fuel g p = Some d -> 0 <= d /\ deepest g p (Z.to_nat d)) /\
  (within g p p -> forall fuel, depth_level fuel g p = None).
Proof. exact nesting_claim. Qed.
Print Assumptions c93_nesting.

(* definition 5 of the example has an instance of definition 0; and a definition with
   an instance of another one with an instance of the first *)
Definition circle_ex : list op :=
  [ONew 308; ONew 408; ONew 308; ONew 408; OSetSlot 1 0 (Some 2) false; OSetSlot 3 0 (Some 0) false; OAddItem 0 1; OAddItem 2 3]%nat.
Example c93_case : reached (made theirs_ex) /\ no_network (made theirs_ex) /\ depth_level 9 (made theirs_ex) 5 = Some 1 /\
  reached (made circle_ex) /\ no_network (made circle_ex) /\ within (made circle_ex) 0 0.
Proof.
  destruct (made_case theirs_ex) as (A & _ & B); [vm_compute; reflexivity..|].
  destruct (made_case circle_ex) as (A' & _ & B'); [vm_compute; reflexivity..|].
  split; [exact A|]. split; [exact B|]. split; [vm_compute; reflexivity|]. split; [exact A'|]. split; [exact B'|].
  assert (U : forall p x q, (match look (made circle_ex) p, look (made circle_ex) x with
     | Some n, Some m => mem x (n_items n) && (n_type m =? 408) && match nth 0 (n_slots m) None with Some y => Nat.eqb y q | None => false end
     | _, _ => false end) = true -> uses_def (made circle_ex) p q).
  { intros p x q H. destruct (look _ p) as [n|] eqn:E; [|discriminate]. destruct (look _ x) as [m|] eqn:F; [|discriminate].
    apply andb_prop in H. destruct H as [H H3]. apply andb_prop in H. destruct H as [H1 H2]. exists n, x, m.
    split; [exact E|]. split; [now apply mem_in|]. split; [exact F|]. right. apply Z.eqb_eq in H2. split; [exact H2|].
    destruct (nth 0 (n_slots m) None); [|discriminate]. apply Nat.eqb_eq in H3. now subst. }
  eapply within_s; [apply (U 0 1 2)%nat; vm_compute; reflexivity|]. apply within_1, (U 2 3 0)%nat. vm_compute. reflexivity.
Qed.
