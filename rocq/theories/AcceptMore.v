(* Files on which reading goes wrong: an entity that names itself, and an unsupported
   entity that names an empty definition. *)
From Coq Require Import List Bool ZArith Lia ZifyBool.
From Verif Require Import GraphModel GraphFacts GraphSpec GraphDel GraphEdge PlanSpec AssocModel AssocSpec AssocFacts AcceptSpec AcceptFacts AcceptProps AcceptCull.
Import ListNotations.
Open Scope Z_scope.

Lemma not_ref_names k v : ~ is_ref k v -> de_names k v = None.
Proof.
  unfold is_ref, de_names. destruct (in_dec Nat.eq_dec k [1; 2; 6]%nat) as [I|I].
  - apply mem_in in I. rewrite I. intros H. destruct (v <? 0) eqn:Q; [lia|reflexivity].
  - destruct (mem k [1; 2; 6]%nat) eqn:M; [apply mem_in in M; contradiction|]. intros H. destruct (0 <? v) eqn:Q; [lia|reflexivity].
Qed.
Lemma link_des_none n g e l : forall j acc, (forall i v, nth_error l i = Some v -> ~ is_ref (j + i) v) -> link_des n g e j l acc = Some (acc, g).
Proof.
  induction l as [|v l IH]; intros j acc H; cbn [link_des]; [reflexivity|].
  unfold link_de at 1. rewrite not_ref_names by (specialize (H 0%nat v eq_refl); now rewrite Nat.add_0_r in H).
  rewrite IH; [now destruct acc|]. intros i w E. replace (S j + i)%nat with (j + S i)%nat by lia. now apply H.
Qed.
Lemma link_des_self n g e l : forall k j acc v, nth_error l k = Some v -> (forall i w, (i < k)%nat -> nth_error l i = Some w -> ~ is_ref (j + i) w) ->
  link_de n g e (j + k) v = None -> link_des n g e j l acc = None.
Proof.
  induction l as [|x l IH]; intros [|k] j acc v E P L; try discriminate; cbn [link_des].
  - cbn in E. injection E as ->. rewrite Nat.add_0_r in L. now rewrite L.
  - unfold link_de at 1. rewrite not_ref_names by (specialize (P 0%nat x ltac:(lia) eq_refl); now rewrite Nat.add_0_r in P).
    apply (IH k (S j) _ v); [exact E| |replace (S j + k)%nat with (j + S k)%nat by lia; exact L].
    intros i w Hi Ei. replace (S j + i)%nat with (j + S i)%nat by lia. apply P; [lia|exact Ei].
Qed.

Lemma loaded_is q : loaded q = mkNode (kind q) (kind q =? 0) (q_form q) true (q_dep q) (q_points q) [] [None; None; None; None; None; None; None] []
  (if in_dec Z.eq_dec (q_type q) known then blank_slots (q_type q) else []) [] [] [] [].
Proof.
  unfold loaded, new_node, kind. cbn [n_type n_null n_des n_slots]. destruct (zmem (q_type q) known) eqn:M; destruct (in_dec Z.eq_dec (q_type q) known) as [I|I].
  - f_equal. symmetry. apply Z.eqb_neq. intros Z. rewrite Z in I. cbn in I. intuition discriminate.
  - apply zmem_in in M. contradiction.
  - apply zmem_in in I. congruence.
  - reflexivity.
Qed.

Lemma self_claim closed joins q qs k v : nth_error (q_des q) k = Some v -> is_ref k v -> Z.abs v = 1 -> (k = 4%nat -> kind q = 124) ->
  (forall j w, (j < k)%nat -> nth_error (q_des q) j = Some w -> ~ is_ref j w) -> connect closed joins (q :: qs) = None.
Proof.
  intros E R A K4 P. unfold connect.
  assert (B : base_associate (length (q :: qs)) q (loaded_graph (q :: qs)) [] 0 = None).
  { unfold base_associate. cbn [mem existsb]. rewrite (link_des_self _ _ _ _ k 0 Fine v E); [reflexivity|exact P|]. cbn [Nat.add].
    unfold link_de. rewrite (refs_names k v R), A. assert (index_of (length (q :: qs)) 1 = Some 0%nat) as ->.
    { unfold index_of. change (Z.shiftr 1 1) with 0. cbv zeta. replace ((0 <=? 0) && (0 <? Z.of_nat (length (q :: qs)))) with true; [reflexivity|]. cbn [length]. lia. }
    assert (L : look (loaded_graph (q :: qs)) 0 = Some (loaded q)) by reflexivity. unfold set_de. rewrite L.
    replace (Nat.eqb k 4 && negb (is_a 124 (loaded q))) with false; [reflexivity|].
    destruct (Nat.eqb_spec k 4) as [->|]; [|reflexivity]. unfold is_a. rewrite loaded_is. cbn [n_null n_type]. rewrite (K4 eq_refl). reflexivity. }
  unfold loaded_graph at 2. cbn [g_ents length seq associate_all]. unfold associate. cbn [nth_error]. cbn [length] in B. now rewrite B.
Qed.

Lemma dangling_claim closed joins q0 q1 tl : q_type q0 = 308 -> q_items q0 = @Datatypes.nil Z -> q_extras q0 = @Datatypes.nil Z ->
  (forall k v, nth_error (q_des q0) k = Some v -> ~ is_ref k v) -> ~ In (q_type q1) known -> q_extras q1 = @Datatypes.nil Z ->
  q_des q1 = 1 :: tl -> (forall k v, nth_error tl k = Some v -> ~ is_ref (S k) v) ->
  connect closed joins [q0; q1] = None.
Proof.
  intros T0 I0 X0 D0 T1 X1 D1 Dt. unfold connect.
  assert (K0 : kind q0 = 308) by (unfold kind; rewrite T0; reflexivity).
  assert (K1 : kind q1 = 0) by (unfold kind; destruct (in_dec Z.eq_dec (q_type q1) known); [contradiction|reflexivity]).
  set (g := loaded_graph [q0; q1]).
  assert (L0 : look g 0 = Some (loaded q0)) by reflexivity. assert (L1 : look g 1 = Some (loaded q1)) by reflexivity.
  pose proof (loaded_is q0) as E0. pose proof (loaded_is q1) as E1. rewrite K0 in E0. rewrite K1 in E1. change (0 =? 0) with true in E1.
  destruct (in_dec Z.eq_dec (q_type q1) known) as [|_]; [contradiction|]. rewrite T0 in E0. cbn [Z.eqb Pos.eqb] in E0. change (if in_dec Z.eq_dec 308 known then blank_slots 308 else []) with (@Datatypes.nil (option nat)) in E0.
  assert (A0 : associate closed joins 2 [q0; q1] g [] 0 = Some (true, g, [0%nat])).
  { unfold associate. cbn [nth_error]. unfold base_associate. cbn [mem existsb]. rewrite link_des_none by exact D0. rewrite X0. cbn [link_extras].
    rewrite L0, E0. cbn [n_null n_type]. change (unused_des 308) with (@Datatypes.nil nat). cbn [drop_des Z.eqb Pos.eqb]. rewrite I0. reflexivity. }
  set (g1 := put (put g 1 (w_des [Some 0%nat; None; None; None; None; None; None] (loaded q1))) 0 (w_refs [1%nat] (loaded q0))).
  assert (A1 : associate closed joins 2 [q0; q1] g [0%nat] 1 = Some (true, g1, [1; 0]%nat)).
  { unfold associate. cbn [nth_error]. unfold base_associate. cbn [mem existsb Nat.eqb orb]. rewrite D1. cbn [link_des].
    assert (Lk : link_de 2 g 1 0 1 = Some (Fine, g1)).
    { unfold link_de. replace (de_names 0 1) with (Some 1) by reflexivity. replace (index_of 2 1) with (Some 0%nat) by reflexivity.
      unfold set_de. rewrite L0, L1. cbn [Nat.eqb andb]. unfold addReference. rewrite look_put_ne by lia. rewrite L0, look_put_eq.
      rewrite E0. unfold forbids. cbn. unfold g1. rewrite E0, E1. reflexivity. }
    rewrite Lk. cbn [worse]. rewrite link_des_none by (intros i v Ei; exact (Dt i v Ei)). rewrite X1. cbn [link_extras].
    assert (L1' : look g1 1 = Some (w_des [Some 0%nat; None; None; None; None; None; None] (loaded q1))) by reflexivity.
    rewrite L1', E1. reflexivity. }
  replace (g_ents g) with [0; 1]%nat by reflexivity. cbn [associate_all length]. rewrite A0, A1.
  unfold Cull. replace (g_ents g1) with [0; 1]%nat by reflexivity. cbn [cull_loop].
  assert (L0' : look g1 0 = Some (w_refs [1%nat] (loaded q0))) by reflexivity. rewrite L0', E0.
  match goal with |- context [doomed false ?n] => replace (doomed false n) with true by reflexivity end.
  unfold destroy at 1. rewrite L0', E0. cbn [n_type n_null w_refs Z.eqb Pos.eqb andb]. cbn [own_parts n_slots n_items n_edges n_verts n_type ptrs edge_curves map app Z.eqb Pos.eqb drop_refs w_refs].
  rewrite L0', E0. cbn [n_refs w_refs n_extras n_des n_type unlink_all].
  assert (L1' : look (free g1 0) 1 = Some (w_des [Some 0%nat; None; None; None; None; None; None] (loaded q1))) by reflexivity.
  unfold unlink at 1. rewrite L1', E1. cbn [n_null w_des unlink_all drop_extras ptrs drop_refs].
  rewrite L1', E1. cbn [doomed isOrphaned n_null w_des orb].
  unfold destroy. rewrite L1', E1. cbn [n_null n_type w_des Z.eqb andb negb]. cbn [own_parts n_slots n_items n_edges n_verts n_type ptrs edge_curves map app Z.eqb drop_refs w_des].
  rewrite L1', E1. cbn [n_refs w_des n_extras n_des n_type unlink_all drop_extras ptrs drop_refs].
  unfold delReference at 1. reflexivity.
Qed.

Lemma extrusion_claim closed joins qs g : connect closed joins qs = Some (true, g) -> hollow_open closed ->
  forall i q v c p, nth_error qs i = Some q -> kind q = 164 -> In v (q_slots q) -> leads v c -> nth_error qs c = Some p -> kind p = 102 ->
  (c < i)%nat.
Proof.
  intros C Ho i q v c p E K Hv Lv Ep Kp. destruct (connect_proper _ _ _ _ C i q E) as [_ T]. pose proof (T K Ho v c p Hv Lv Ep Kp) as H.
  destruct (Nat.eq_dec c i) as [->|]; [|lia]. rewrite E in Ep. injection Ep as ->. rewrite K in Kp. discriminate.
Qed.

(* a solid whose shell lists its face twice *)
Definition plain (t form dep : Z) (pts : nat) sl it ed lo : wants := mkWants t form dep pts [0; 1; 0; 0; 0; 0; 3] [] sl it ed lo.
Definition twice_file : list wants :=
  [plain 128 0 0 0 [] [] [] []; plain 110 0 0 0 [] [] [] []; plain 502 1 1 2 [] [] [] [];
   plain 504 1 1 0 [] [] [(3, (5, 1), (5, 2))] []; plain 508 1 1 0 [] [] [] [(7, [])];
   plain 510 1 1 0 [1] [9] [] []; plain 514 1 0 0 [] [11; 11] [] []; plain 186 0 0 0 [13] [] [] []].
Definition yes (_ : graph) (_ : nat) : bool := true.
Definition yes2 (_ : graph) (_ _ : nat) : bool := true.
Definition twice_test : bool :=
  match connect yes yes2 twice_file with
  | Some (true, g) =>
    match DelEntity g 5 with
    | Some (true, h) => match look h 6, look h 5 with Some m, None => mem 5 (n_items m) | _, _ => false end
    | _ => false
    end
  | _ => false
  end.
Lemma duplicate_claim :
  ~ (forall closed joins qs g e h r m x, connect closed joins qs = Some (true, g) -> DelEntity g e = Some (true, h) ->
       look h r = Some m -> In x (n_items m) -> exists n, look h x = Some n).
Proof.
  intros H. assert (T : twice_test = true) by (vm_compute; reflexivity). unfold twice_test in T.
  destruct (connect yes yes2 twice_file) as [[[|] g]|] eqn:C; try discriminate. destruct (DelEntity g 5) as [[[|] h]|] eqn:D; try discriminate.
  destruct (look h 6) as [m|] eqn:M; try discriminate. destruct (look h 5) eqn:F; try discriminate. apply mem_in in T.
  destruct (H _ _ _ _ _ _ _ _ _ C D M T) as (n & E). congruence.
Qed.

(* a line whose colour is a circle *)
Definition badly_coloured : list wants := [mkWants 110 0 0 0 [0; 1; 0; 0; 0; 0; -3] [] [] [] [] []; plain 100 0 0 0 [] [] [] []].
Definition failure_test : bool :=
  match connect yes yes2 badly_coloured with Some (false, g) => match Clear g with None => true | _ => false end | _ => false end.
Lemma failure_claim : ~ (forall closed joins qs g, connect closed joins qs = Some (false, g) -> exists h, Clear g = Some h).
Proof.
  intros H. assert (T : failure_test = true) by (vm_compute; reflexivity). unfold failure_test in T.
  destruct (connect yes yes2 badly_coloured) as [[[|] g]|] eqn:C; try discriminate. destruct (H _ _ _ _ C) as (h & E). rewrite E in T. discriminate.
Qed.
