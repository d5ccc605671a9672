(** The claims about writing and reading a model with its references and in its units
    (C85 - C87), each with a concrete case. *)

From Coq Require Import QArith Lia.
From Verif Require Import Base Num Spec IoModel PdSpec PdModel PdFacts EntModel EntModel2 EntModel3 EntSpec DeModel DeSpec
  GlobalModel GlobSpec PayloadModel FileModel FileSpec RoundSpec RoundFile UnitModel UnitSpec PropGlobal PropEnt PropFile PropRound.
From Verif Require Import GraphModel PlanSpec AssocModel AssocSpec AssocCheck JoinModel JoinSpec JoinProps.
Open Scope Z_scope.

(** *** C85: A model is read back with its references *)

Theorem c85_model_round_trip : forall closed joins l d name ver now t over name2, doc_ok d name ver now -> opened t over = true ->
  sound_plan l -> whole l -> acyclic l \/ applicationNote (d_glob d) = [] -> drawn closed joins l -> Forall2 (carries l) l (d_ents d) ->
  exists s st g' rs es es1 g, Write d name ver now t over = POk (true, Old s) /\
    Read closed joins [] 0 init_globals name2 (mkStream s false) = Loaded st (with_name g' name2) (map n_dir rs) es1 g /\
    start_read (d_start d) st /\ reads_back (with_name (d_glob d) name) ver now g' /\
    all_read_as (minResolution (d_glob d)) (maxLinewidthGrad g') 1 1 (d_ents d) rs /\
    rebuilt l g /\ set_up l rs es /\
    (if convert g' then all_rescaled (cf g') 1 es es1 else es1 = es).
Proof. exact whole_round. Qed.
Print Assumptions c85_model_round_trip.

(** A surface with two curves on it: one whose curve in parameter space is a spline and
    one where it is a line; a placed line. *)
Definition an (t : Z) des sl it : node := mkNode t false 0 true 0 0 [] des [] sl it [] [] [].
Definition bare : list (option nat) := [None; None; None; None; None; None; None].
Definition surf_plan : list node :=
  [an 128 bare [] []; an 126 bare [] []; an 110 [None; None; None; None; Some 6; None; None]%nat [] [];
   an 142 bare [Some 0; Some 1; Some 2]%nat []; an 110 bare [] []; an 142 bare [Some 0; Some 4; None]%nat [];
   an 124 bare [] []].
Definition surf_ents : list ent :=
  [mkEnt (plain 128 None 0) (P128 surf_ex) [] []; mkEnt (plain 126 None 0) (P126 curve_ex (0, 0, 1)%Q) [] [];
   mkEnt (plain 110 (Some 13) 0) (P110 line_ex) [] [];
   mkEnt (plain 142 None 0) (P142 (mkOn 1 (Some 1) (Some 3) (Some 5) 1)) [] [];
   mkEnt (plain 110 None 0) (P110 line_ex) [] []; mkEnt (plain 142 None 0) (P142 (mkOn 1 (Some 1) (Some 9) None 1)) [] [];
   mkEnt (plain 124 None 0) (P124 (mkX 0 (-1) 0 (5 # 2) 1 0 0 (1 # 1000) 0 0 1 (-30000))) [] []].
Definition surf_doc : doc := mkDoc [S2 "first"] (metres (S2 "note")) surf_ents.

Lemma forms_0 t : In t [110; 124; 126; 128; 142; 308; 408] -> form_accepted t 0.
Proof.
  intros T l fs H. unfold type_table in H. cbn [In] in H, T.
  repeat (destruct H as [H|H]; [first [discriminate H | injection H as <- <- <-; first [exfalso; intuition discriminate | cbn; now auto 10]]|]). destruct H.
Qed.
Lemma no_extras : extras_ok [].
Proof. split; [constructor|vm_compute; discriminate]. Qed.

Lemma surf_ok : doc_ok surf_doc (S2 "x.igs") sample_ver sample_now.
Proof.
  split; [exact (arc_head (S2 "note") 0 [] (or_intror eq_refl))|]. split; [discriminate|]. split; [vm_compute; discriminate|]. intros g' _.
  destruct c49_case as (C & S & _).
  repeat (constructor; [split; [apply plain_ok; [apply forms_0; cbn; auto 10|cbn; lia|lia]|]; split; [|split; [exact no_extras|reflexivity]]|]); [..|constructor].
  - exact S.
  - cbn [data_ok e_data]. split; [exact C|]. repeat constructor; vm_compute; discriminate.
  - cbn [data_ok e_data]. repeat constructor; vm_compute; discriminate.
  - cbn. split; [lia|]. split; [lia|]. split; [now exists 1|]. split; [reflexivity|]. split; [reflexivity|]. left. discriminate.
  - cbn [data_ok e_data]. repeat constructor; vm_compute; discriminate.
  - cbn. split; [lia|]. split; [lia|]. split; [now exists 1|]. split; [reflexivity|]. split; [exact Logic.I|]. left. discriminate.
  - cbn [data_ok e_data]. repeat constructor; vm_compute; discriminate.
Qed.

Lemma no_curves closed joins l : (forall i n, nth_error l i = Some n -> GraphModel.n_type n <> 102 /\ GraphModel.n_type n <> 164) -> drawn closed joins l.
Proof. intros H. constructor; intros i n; intros; exfalso; destruct (H i n); auto. Qed.
Lemma each_node (P : node -> Prop) l : Forall P l -> forall i n, nth_error l i = Some n -> P n.
Proof. intros F i n E. rewrite Forall_forall in F. apply F. eapply nth_error_In. exact E. Qed.

Ltac carried := constructor; cbn; try reflexivity; try discriminate; auto; unfold dep_kept, no_points, no_place, no_colour; cbn; intuition (lia || discriminate).

Lemma surf_carries : Forall2 (carries surf_plan) surf_plan (d_ents surf_doc).
Proof. repeat (constructor; [carried|]). constructor. Qed.
Lemma surf_acyclic : acyclic surf_plan.
Proof.
  exists (fun i => nth i [0; 0; 1; 2; 0; 1; 0]%nat 0%nat). intros i n t E H.
  do 7 (destruct i as [|i]; [cbn in E; injection E as <-; cbn in H; repeat (destruct H as [<-|H]; [cbn; lia|]); destruct H|]). destruct i; discriminate E.
Qed.
Lemma surf_drawn closed joins : drawn closed joins surf_plan.
Proof. apply no_curves. apply each_node. repeat (constructor; [split; discriminate|]). constructor. Qed.

Definition any_curve (_ : graph) (_ : nat) : bool := true.
Definition any_two (_ : graph) (_ _ : nat) : bool := true.
Definition join_write (d : doc) : pres (bool * target) := Write d (S2 "x.igs") sample_ver sample_now Free false.
Definition join_read (d : doc) : outcome :=
  Read any_curve any_two [] 0 init_globals (S2 "x.igs") (mkStream (file_of (join_write d)) false).

Example c85_case : doc_ok surf_doc (S2 "x.igs") sample_ver sample_now /\ sound_plan surf_plan /\ whole surf_plan /\ acyclic surf_plan /\
  drawn any_curve any_two surf_plan /\ Forall2 (carries surf_plan) surf_plan (d_ents surf_doc) /\
  match join_read surf_doc with
  | Loaded _ _ _ _ g => g_ents g = [0; 1; 2; 3; 4; 5; 6]%nat /\ option_map n_slots (look g 3%nat) = Some [Some 0; Some 1; Some 2]%nat /\
      option_map n_refs (look g 0%nat) = Some [3; 5]%nat
  | _ => False
  end.
Proof.
  split; [exact surf_ok|]. split; [apply soundb_ok; vm_compute; reflexivity|]. split; [apply wholeb_ok; vm_compute; reflexivity|].
  split; [exact surf_acyclic|]. split; [apply surf_drawn|]. split; [exact surf_carries|]. vm_compute. auto.
Qed.

(** *** C86: Reading a file whose subfigures contain each other never ends *)

Theorem c86_endless : forall closed joins l d name ver now t over name2 i, doc_ok d name ver now -> opened t over = true ->
  sound_plan l -> drawn closed joins l -> Forall2 (carries l) l (d_ents d) ->
  applicationNote (d_glob d) <> [] -> unitsFlag (d_glob d) <> 2 -> type_at l i 126 -> circles l i ->
  exists s, Write d name ver now t over = POk (true, Old s) /\
    Read closed joins [] 0 init_globals name2 (mkStream s false) = Endless.
Proof. exact endless_claim. Qed.
Print Assumptions c86_endless.

(** A subfigure of a spline and an instance of another subfigure, which contains an
    instance of the first one. *)
Definition ring_plan : list node :=
  [an 126 bare [] []; an 308 bare [] [0; 4]%nat; an 408 bare [Some 1]%nat []; an 308 bare [] [2]%nat; an 408 bare [Some 3]%nat []].
Definition ring_ents : list ent :=
  [mkEnt (plain 126 None 0) (P126 curve_ex (0, 0, 1)%Q) [] []; mkEnt (plain 308 None 0) (P308 (mkSub 0 (S2 "a") [1; 9])) [] [];
   mkEnt (plain 408 None 0) (P408 (mkInst (Some 3) 0 0 0 1)) [] []; mkEnt (plain 308 None 0) (P308 (mkSub 0 (S2 "b") [5])) [] [];
   mkEnt (plain 408 None 0) (P408 (mkInst (Some 7) 0 0 0 1)) [] []].
Definition ring_doc : doc := mkDoc [S2 "first"] (metres (S2 "note")) ring_ents.

Lemma ring_ok : doc_ok ring_doc (S2 "x.igs") sample_ver sample_now.
Proof.
  split; [exact (arc_head (S2 "note") 0 [] (or_intror eq_refl))|]. split; [discriminate|]. split; [vm_compute; discriminate|]. intros g' _.
  destruct c49_case as (C & S & _).
  repeat (constructor; [split; [apply plain_ok; [apply forms_0; cbn; auto 10|cbn; lia|lia]|]; split; [|split; [exact no_extras|reflexivity]]|]); [..|constructor].
  - cbn [data_ok e_data]. split; [exact C|]. repeat constructor; vm_compute; discriminate.
  - cbn. split; [lia|]. split; [discriminate|]. split; [repeat constructor|]. split; [vm_compute; discriminate|]. intuition discriminate.
  - cbn. split; [now exists 3|]. repeat constructor; vm_compute; discriminate.
  - cbn. split; [lia|]. split; [discriminate|]. split; [repeat constructor|]. split; [vm_compute; discriminate|]. intuition discriminate.
  - cbn. split; [now exists 7|]. repeat constructor; vm_compute; discriminate.
Qed.

Example c86_case : doc_ok ring_doc (S2 "x.igs") sample_ver sample_now /\ sound_plan ring_plan /\ drawn any_curve any_two ring_plan /\
  Forall2 (carries ring_plan) ring_plan (d_ents ring_doc) /\ type_at ring_plan 0 126 /\ circles ring_plan 0 /\ join_read ring_doc = Endless /\
  whole ring_plan /\ match join_read (mkDoc [] (metres []) ring_ents) with Loaded _ _ _ es _ => length es = 5%nat | _ => False end.
Proof.
  split; [exact ring_ok|]. split; [apply soundb_ok; vm_compute; reflexivity|].
  split; [apply no_curves, each_node; repeat (constructor; [split; discriminate|]); constructor|].
  split; [repeat (constructor; [carried|]); constructor|]. split; [eexists; split; reflexivity|].
  split; [|split; [vm_compute; reflexivity|split; [apply wholeb_ok; vm_compute; reflexivity|vm_compute; reflexivity]]].
  exists (fun k => match k with O => 0%nat | S k => S (k mod 4)%nat end). split; [reflexivity|].
  assert (U : forall i j n, nth_error ring_plan j = Some n -> In i (parts n) -> 
    forallb (fun r => match nth_error ring_plan r with Some k => Nat.eqb r j || negb (existsb (Nat.eqb i) (parts k)) | None => true end) (seq 0 5) = true ->
    sole_user ring_plan i j).
  { intros i j n E H F. exists n. split; [exact E|]. split; [exact H|]. intros r k Er Hk. rewrite forallb_forall in F. specialize (F r).
    rewrite Er in F. destruct (Nat.eq_dec r j) as [|N]; [assumption|]. exfalso.
    assert (Hr : In r (seq 0 5)) by (apply in_seq; assert (r < 5)%nat by (apply (nth_error_Some ring_plan); congruence); lia).
    specialize (F Hr). apply orb_prop in F. destruct F as [F|F]; [apply Nat.eqb_eq in F; contradiction|].
    apply negb_true_iff in F. assert (X : existsb (Nat.eqb i) (parts k) = true) by (apply existsb_exists; exists i; split; [exact Hk|apply Nat.eqb_refl]). congruence. }
  assert (T : forall j n, nth_error ring_plan j = Some n -> GraphModel.n_type n <> 142 -> ~ type_at ring_plan j 142).
  { intros j n E H (m & Em & Tm). rewrite E in Em. injection Em as <-. contradiction. }
  intros [|k].
  - split; [eapply U; [reflexivity|cbn; auto|reflexivity]|eapply T; [reflexivity|discriminate]].
  - assert (B : (k mod 4 < 4)%nat) by (apply Nat.mod_upper_bound; lia).
    replace (S k mod 4)%nat with ((k mod 4 + 1) mod 4)%nat by (rewrite Nat.add_mod_idemp_l by lia; f_equal; lia).
    destruct (k mod 4)%nat as [|[|[|[|x]]]]; [..|lia]; cbn [Nat.add Nat.modulo Nat.divmod fst snd Nat.sub];
      (split; [eapply U; [reflexivity|cbn; auto|reflexivity]|eapply T; [reflexivity|discriminate]]).
Qed.

(** *** C87: What the conversion of units makes of curves in the parameter space of a surface *)

Theorem c87_parameter_splines : forall l d u mg rs es es1 s i c dir it, sound_plan l -> Forall2 (carries l) l (d_ents d) ->
  all_read_as u mg 1 1 (d_ents d) rs -> set_up l rs es -> all_rescaled s 1 es es1 ->
  nth_error es i = Some it -> it_data it = Some (P126 c dir) ->
  exists it1 c1, nth_error es1 i = Some it1 /\ it_data it1 = Some (P126 c1 dir) /\
    n_props c1 = n_props c /\ n_knots c1 = n_knots c /\ n_wts c1 = n_wts c /\
    (drawn_in_parameters l i -> Forall2 (lifted s) (n_pts c) (n_pts c1)) /\
    (~ in_parameter_space es i -> Forall2 (stretched s) (n_pts c) (n_pts c1)).
Proof. exact parameter_claim. Qed.
Print Assumptions c87_parameter_splines.

Theorem c87_other_curves : forall s (es es1 : list (item direction)) i it (p : payload direction),
  all_rescaled s 1 es es1 -> nth_error es i = Some it -> it_data it = Some p ->
  (forall c d, p <> P126 c d) -> exists it1 p1, nth_error es1 i = Some it1 /\ it_data it1 = Some p1 /\ rescaled false s 1 p p1.
Proof. exact others_scaled. Qed.
Print Assumptions c87_other_curves.

(** The spline in the parameter space keeps its place there; the line does not: its end
    at 1 is at 1000 afterwards. *)
Example c87_case : drawn_in_parameters surf_plan 1 /\ drawn_in_parameters surf_plan 4 /\
  match join_read surf_doc with
  | Loaded _ g' _ es1 _ => convert g' = true /\ (cf g' == 1000)%Q /\
      match nth_error es1 1, nth_error es1 4 with
      | Some (mkItem (Some (P126 c _)) _ _), Some (mkItem (Some (P110 m)) _ _) =>
          map (fun '(x, y, z) => (Qred x, Qred y, Qred z)) (n_pts c) = [(1, 0, 0); (1, 1, 0); (0, 1, 0)]%Q /\ (l_x1 m == l_x1 line_ex * 1000)%Q
      | _, _ => False
      end
  | _ => False
  end.
Proof.
  split; [|split].
  - exists 1%nat, 3%nat. eexists. split; [constructor|]. split; [|cbn; auto]. eexists. split; [reflexivity|]. split; [cbn; auto|].
    intros r k Er Hk. do 7 (destruct r as [|r]; [cbn in Er; injection Er as <-; cbn in Hk; intuition discriminate|]). destruct r; discriminate.
  - exists 4%nat, 5%nat. eexists. split; [constructor|]. split; [|cbn; auto]. eexists. split; [reflexivity|]. split; [cbn; auto|].
    intros r k Er Hk. do 7 (destruct r as [|r]; [cbn in Er; injection Er as <-; cbn in Hk; intuition discriminate|]). destruct r; discriminate.
  - vm_compute. auto.
Qed.
