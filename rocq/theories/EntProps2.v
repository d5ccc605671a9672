(** Round trips of solids, subfigures, colors and properties. *)

From Coq Require Import Lia ZifyBool ZifyNat ZifyN QArith Qabs Lqa.
From Verif Require Import Base Num Spec NumFacts IoModel FieldFacts LineFacts TokenFacts RealFacts RecordFacts
  ParamFacts PutModel BuildFacts StreamFacts PdModel PdFacts GlobBack EntModel EntSpec EntModel2 EntModel3 EntFacts EntProps.
Open Scope Z_scope.

Ltac Zify.zify_post_hook ::= Z.div_mod_to_equations.

Ltac okf := solve [assumption | reflexivity | unfold is_int32, flag01, range03, any_ptr in *; cbv beta; lia | auto].

(** One integer of a parser, the cursor being the hypothesis [C]. *)
Ltac int_step C :=
  match type of C with cursor ?pd ?rd ?data ?n ?i ?e (PInt ?v :: ?ps) =>
    match goal with
    | D : delims pd rd |- context [parse_int_if ?ok data i e pd rd] =>
      let i' := fresh "i" in let e' := fresh "e" in let P := fresh "P" in let C' := fresh "C" in
      destruct (st_int pd rd data n D ok i e v ps C ltac:(okf) ltac:(okf)) as (i' & e' & P & C');
      rewrite P; cbn [pbind]; clear P C; rename C' into C
    end
  end.

(** One real; the value read is close to the one written. *)
Ltac real_step C :=
  match type of C with cursor ?pd ?rd ?data ?n ?i ?e (?p :: ?ps) =>
    match goal with
    | D : delims pd rd, W : rwrote ?u ?v p |- context [ParseReal data i e pd rd ?d] =>
      let q := fresh "q" in let i' := fresh "i" in let e' := fresh "e" in let P := fresh "P" in let C' := fresh "C" in
      let Q := fresh "K" in
      destruct (st_real pd rd data n D u v p i e ps d C W) as (q & i' & e' & P & Q & C');
      rewrite P; cbn [pbind]; clear P C W; rename C' into C
    | D : delims pd rd, W : rwrote ?u ?v p |- context [parse_real_opt ?d ?de data i e pd rd] =>
      let q := fresh "q" in let i' := fresh "i" in let e' := fresh "e" in let P := fresh "P" in let C' := fresh "C" in
      let Q := fresh "K" in
      destruct (st_opt pd rd data n D u v p i e ps d de C W) as (q & i' & e' & P & Q & C');
      rewrite P; cbn [pbind]; clear P C W; rename C' into C
    end
  end.

Ltac inv2 := repeat match goal with H : Forall2 _ (_ :: _) _ |- _ => inversion H; clear H; subst
                     | H : Forall2 _ [] _ |- _ => inversion H; clear H; subst end.

Lemma CheckNormal_spec x y z : direction_of x y z (CheckNormal x y z).
Proof.
  unfold direction_of, CheckNormal, Qlt_bool. set (n := (x * x + y * y + z * z)%Q).
  destruct (Qle_bool (1 # 1000000000000) n) eqn:E1; cbn [negb].
  - apply Qle_bool_iff in E1. split; [intros H; lra|].
    destruct (Qle_bool (- (1 # 100000000)) (n - 1)) eqn:E2, (Qle_bool (n - 1) (1 # 100000000)) eqn:E3; cbn [negb orb];
      try (apply Qle_bool_iff in E2); try (apply Qle_bool_iff in E3).
    + split; [reflexivity|]. intros _ H. exfalso. apply (Qlt_not_le _ _ H), Qabs_Qle_condition. split; auto.
    + split; [|reflexivity]. intros _ H. exfalso. apply Qabs_Qle_condition in H. destruct H as [_ H]. apply Qle_bool_iff in H. congruence.
    + split; [|reflexivity]. intros _ H. exfalso. apply Qabs_Qle_condition in H. destruct H as [H _]. apply Qle_bool_iff in H. congruence.
    + split; [|reflexivity]. intros _ H. exfalso. apply Qabs_Qle_condition in H. destruct H as [_ H]. apply Qle_bool_iff in H. congruence.
  - split; [reflexivity|]. split; intros H; exfalso; apply Qle_bool_iff in H; congruence.
Qed.

Lemma uwrote_real u v us ps : Forall2 uwrote ((u, PReal v) :: us) ps -> exists p q, ps = p :: q /\ rwrote u v p /\ Forall2 uwrote us q.
Proof. intros W. inversion W as [|a b us' q U W' E1 E2]; subst. exists b, q. auto. Qed.

(** ** Cylinders *)

Lemma close_pos_ge u v q : real_close u v q -> (1 # 100000000 <= v)%Q -> (q >= (999 # 1000) * v)%Q /\ (q <= (1001 # 1000) * v)%Q.
Proof.
  intros [_ H] V. assert (A : (Qabs v == v)%Q) by (apply Qabs_pos; lra).
  rewrite A in H. destruct (H V) as (_ & B & _). rewrite Qabs_Qle_condition in B. lra.
Qed.

Lemma Qlt_bool_false a b : (b <= a)%Q -> Qlt_bool a b = false.
Proof. intros H. unfold Qlt_bool. apply Qle_bool_iff in H. rewrite H. reflexivity. Qed.
Lemma Qlt_bool_true a b : (a < b)%Q -> Qlt_bool a b = true.
Proof. intros H. unfold Qlt_bool. destruct (Qle_bool b a) eqn:E; [|reflexivity]. apply Qle_bool_iff in E. lra. Qed.

Definition cyl_reals (c : cylinder) : list Q := [cy_h c; cy_r c; cy_x c; cy_y c; cy_z c].

(** What is read for the height and radius [h] and [r] in the file. *)
Lemma cylinder_parses pd rd u u2 h r x y z i j k ps (R : cylinder * direction -> Prop) : delims pd rd -> (0 < u)%Q ->
  Forall2 (rwrote u) [h; r; x; y; z; i; j; k] ps ->
  (1 # 100000000 <= h)%Q -> (1 # 100000000 <= r)%Q ->
  (forall h' r' x' y' z' i' j' k', Forall2 (real_close u) [h; r; x; y; z; i; j; k] [h'; r'; x'; y'; z'; i'; j'; k'] ->
     R (mkCyl (if Qlt_bool r' u2 then u2 else if Qlt_bool h' u2 then u2 else h') r' x' y' z', CheckNormal i' j' k')) ->
  parses pd rd (parse154 u2 pd rd) ps R.
Proof.
  intros D Hu W Ph Pr H data n idx ex C. inv2. cbn [app] in C. unfold parse154, parse154a.
  real_step C. unfold guard. rewrite (Qlt_bool_true 0 q) by (destruct (close_pos_ge _ _ _ K Ph); lra). rewrite orb_true_r.
  real_step C. rewrite (Qlt_bool_true 0 q0) by (destruct (close_pos_ge _ _ _ K0 Pr); lra). rewrite orb_true_r. cbn [pbind parse_opt0].
  do 5 real_step C.
  pose proof (cursor_open _ _ _ _ _ _ _ _ C) as ->. real_step C.
  eexists. eexists. eexists. split; [reflexivity|]. split; [|exact C].
  apply H. close2.
Qed.

Lemma round154_gen c i j k extras n seq pd rd u u2 (R : cylinder * direction -> Prop) :
  settings_ok pd rd seq n extras -> (0 < u)%Q -> Forall real300 (cyl_reals c ++ [i; j; k]) ->
  (1 # 100000000 <= cy_h c)%Q -> (1 # 100000000 <= cy_r c)%Q -> room n 8 0 extras ->
  (forall h' r' x' y' z' i' j' k', Forall2 (real_close u) (cyl_reals c ++ [i; j; k]) [h'; r'; x'; y'; z'; i'; j'; k'] ->
     R (mkCyl (if Qlt_bool r' u2 then u2 else if Qlt_bool h' u2 then u2 else h') r' x' y' z', CheckNormal i' j' k')) ->
  round_trip (format154 c i j k extras [] n seq pd rd u) (fun m f => readPD154 seq n m pd rd u2 f)
    seq n (extras_ptrs extras) R.
Proof.
  intros S Hu F Ph Pr RM H. pose proof S as (D & _). unfold format154, readPD154.
  apply (frame_round 154 seq n pd rd [] [] (fun d => reals_acts u (cyl_reals c ++ [i; j; k]) pd d)
    (uni u (map PReal (cyl_reals c ++ [i; j; k]))) extras (parse154 u2 pd rd) R); auto.
  - lia. - constructor.
  - apply Nat.leb_le; reflexivity.
  - apply opens_reals; auto. - apply closes_reals; auto; discriminate.
  - rewrite ucosts_uni, costs_reals. unfold room in RM. cbn [length cyl_reals app]. lia.
  - cbn [app]. apply no_nl_reals.
  - intros ps' W. cbn [app]. apply uwrote_reals in W. cbn [app cyl_reals] in *. eapply cylinder_parses; eauto.
Qed.

(** The resolution used for reading may be another one. *)
Lemma round154_at c i j k extras n seq pd rd u u2 :
  settings_ok pd rd seq n extras -> (0 < u)%Q -> Forall real300 (cyl_reals c ++ [i; j; k]) ->
  (1 # 100000000 <= cy_h c)%Q -> (1 # 100000000 <= cy_r c)%Q ->
  ((1002 # 1000) * u2 <= cy_h c)%Q -> ((1002 # 1000) * u2 <= cy_r c)%Q -> room n 8 0 extras ->
  round_trip (format154 c i j k extras [] n seq pd rd u) (fun m f => readPD154 seq n m pd rd u2 f)
    seq n (extras_ptrs extras)
    (fun a => Forall2 (real_close u) (cyl_reals c) (cyl_reals (fst a)) /\ direction_close u i j k (snd a)).
Proof.
  intros S Hu F Ph Pr Uh Ur RM. apply round154_gen; auto.
  intros h' r' x' y' z' i' j' k' Q. cbn [app cyl_reals] in Q. inv2.
  destruct (close_pos_ge _ _ _ H2 Ph). destruct (close_pos_ge _ _ _ H3 Pr).
  rewrite !Qlt_bool_false by lra. cbn [fst snd cyl_reals cy_h cy_r cy_x cy_y cy_z]. split; [close2|].
  exists i', j', k'. split; [close2|]. apply CheckNormal_spec.
Qed.

Lemma round154 c i j k extras n seq pd rd u :
  settings_ok pd rd seq n extras -> (0 < u)%Q -> Forall real300 (cyl_reals c ++ [i; j; k]) ->
  (1 # 100000000 <= cy_h c)%Q -> (1 # 100000000 <= cy_r c)%Q ->
  ((1002 # 1000) * u <= cy_h c)%Q -> ((1002 # 1000) * u <= cy_r c)%Q -> room n 8 0 extras ->
  round_trip (format154 c i j k extras [] n seq pd rd u) (fun m f => readPD154 seq n m pd rd u f)
    seq n (extras_ptrs extras)
    (fun a => Forall2 (real_close u) (cyl_reals c) (cyl_reals (fst a)) /\ direction_close u i j k (snd a)).
Proof. apply round154_at. Qed.

(** A small radius replaces the height. *)
Lemma round154_small c i j k extras n seq pd rd u :
  settings_ok pd rd seq n extras -> (0 < u)%Q -> Forall real300 (cyl_reals c ++ [i; j; k]) ->
  (1 # 100000000 <= cy_h c)%Q -> (1 # 100000000 <= cy_r c)%Q -> (cy_r c <= (998 # 1000) * u)%Q -> room n 8 0 extras ->
  round_trip (format154 c i j k extras [] n seq pd rd u) (fun m f => readPD154 seq n m pd rd u f)
    seq n (extras_ptrs extras)
    (fun a => cy_h (fst a) = u /\ real_close u (cy_r c) (cy_r (fst a))).
Proof.
  intros S Hu F Ph Pr Ur RM. apply round154_gen; auto.
  intros h' r' x' y' z' i' j' k' Q. cbn [app cyl_reals] in Q. inv2.
  destruct (close_pos_ge _ _ _ H3 Pr).
  rewrite Qlt_bool_true by lra. cbn [fst snd cy_h cy_r]. auto.
Qed.

(** ** Extrusions *)

Lemma round164 c l i j k extras n seq pd rd u :
  settings_ok pd rd seq n extras -> (0 < u)%Q -> any_ptr c = true -> Forall real300 [l; i; j; k] -> room n 5 0 extras ->
  round_trip (format164 (mkExt (Some c) l) i j k extras [] n seq pd rd u) (fun m f => readPD164 seq n m pd rd f)
    seq n (extras_ptrs extras)
    (fun a => ex_curve (fst a) = Some c /\ real_close u l (ex_len (fst a)) /\ direction_close u i j k (snd a)).
Proof.
  intros S Hu Oc F RM. pose proof S as (D & _). apply any_ptr_range in Oc. unfold format164, readPD164. cbn [ex_curve ex_len].
  apply (frame_round 164 seq n pd rd [] [] (fun d => WInt c pd :: reals_acts u [l; i; j; k] pd d)
    ((u, PInt c) :: uni u (map PReal [l; i; j; k])) extras (parse164 pd rd)); auto.
  - lia. - constructor. - apply Nat.leb_le; reflexivity.
  - apply opens_cons; [apply opens_int; auto; lia|apply opens_reals; auto].
  - apply closes_cons; [apply opens_int; auto; lia|apply closes_reals; auto; discriminate].
  - change (ucosts ((u, PInt c) :: uni u (map PReal [l; i; j; k]))) with 10. unfold room in RM. lia.
  - repeat constructor.
  - intros ps' W. cbn [app]. apply uwrote_cons_int in W. destruct W as (q & -> & W). apply uwrote_reals in W. inv2.
    intros data m idx ex C. cbn [app] in C. unfold parse164. int_step C.
    real_step C. cbn [parse_opt0]. do 3 real_step C.
    eexists. eexists. eexists. split; [reflexivity|]. split; [|exact C]. cbn [fst snd ex_curve ex_len].
    split; [reflexivity|]. split; [assumption|]. eexists _, _, _. split; [|apply CheckNormal_spec]. close2.
Qed.

(** ** Subfigures *)

Lemma no_nl_app a b : Forall no_nl a -> Forall no_nl b -> Forall no_nl (a ++ b).
Proof. intros. apply Forall_app. auto. Qed.

Lemma round308 d nm l extras k seq pd rd : settings_ok pd rd seq k extras -> 0 <= d <= 2147483647 -> l <> [] ->
  Forall (fun v => extra_ok v = true) l -> Z.of_nat (length nm) <= int_max -> ~ In nl nm ->
  k + str_cost nm + 2 + 2 * Z.of_nat (length l) + 2 * Z.of_nat (length extras) + 6 <= 9999999 ->
  round_trip (format308 (mkSub d nm l) extras [] k seq pd rd) (fun n f => readPD308 seq k n pd rd f)
    seq k (extras_ptrs extras) (fun s => s = mkSub d nm l).
Proof.
  intros S Hd NE F LN NN RM. pose proof S as (D & Hs & Hk & _). destruct (ptrs_int32 _ _ extra_ok_int32 F) as [F1 F2].
  assert (0 <= str_cost nm) by (unfold str_cost; lia).
  assert (LL : is_int32 (Z.of_nat (length l))) by (unfold is_int32; lia).
  unfold format308, readPD308. cbn [sf_depth sf_name sf_ents].
  replace (match l with [] => _ | _ :: _ => _ end) with
    (format_frame (showZ 308 ++ pd :: showZ d ++ [pd])
      (WText nm pd :: WInt (Z.of_nat (length l)) pd :: ints_acts l pd (fdel extras pd rd)) extras [] k seq pd rd)
    by (destruct l; [congruence|reflexivity]).
  apply (frame_round 308 seq k pd rd _ [PInt d] (fun x => WText nm pd :: WInt (Z.of_nat (length l)) pd :: ints_acts l pd x)
    ((1%Q, PStr nm) :: (1%Q, PInt (Z.of_nat (length l))) :: uni 1 (ptr_params l)) extras); auto; try lia.
  - apply open_int, spo_nil.
  - lens. pose proof (showZ_len31 d ltac:(unfold is_int32; lia)). pose proof (showZ_type_len 308 ltac:(lia)). lia.
  - apply opens_cons; [apply opens_text; auto; reflexivity|]. apply opens_cons; [apply opens_int; auto; reflexivity|].
    apply opens_ints; auto; reflexivity.
  - apply closes_cons; [apply opens_text; auto; reflexivity|]. apply closes_cons; [apply opens_int; auto; reflexivity|].
    apply closes_ints; auto; reflexivity.
  - unfold ucosts. cbn [map snd]. rewrite !costs_cons. cbn [cost]. unfold uni. rewrite map_map. cbn [snd]. rewrite map_id, costs_ints. lia.
  - cbn [app map snd]. constructor; [exact I|]. constructor; [exact NN|]. constructor; [exact I|]. apply no_nl_ints.
  - intros ps' W. apply uwrote_cons_text in W. destruct W as (q & -> & W). apply uwrote_cons_int in W. destruct W as (q2 & -> & W).
    apply uwrote_ints in W. subst q2. intros data n idx ex C. cbn [app] in C. unfold parse308. int_step C.
    destruct (st_text pd rd data n D nm _ _ _ C) as (i1 & e1 & P1 & C1). rewrite P1. cbn [pbind]. int_step C1.
    rewrite Nat2Z.id. destruct (st_ints pd rd data n D extra_ok l _ _ _ C1 F2) as (i4 & e4 & P4 & X5). rewrite P4. cbn [pbind].
    eexists. exists i4, e4. auto.
Qed.

(** ** Properties *)

Lemma round406 nm extras k seq pd rd : settings_ok pd rd seq k extras ->
  Z.of_nat (length nm) <= int_max -> ~ In nl nm ->
  k + str_cost nm + 2 * Z.of_nat (length extras) + 6 <= 9999999 ->
  round_trip (format406 15 nm extras [] k seq pd rd) (fun n f => readPD406 seq k n pd rd f)
    seq k (extras_ptrs extras) (fun s => s = nm).
Proof.
  intros S LN NN RM. pose proof S as (D & Hs & Hk & _). unfold format406, readPD406, guard. cbn [Z.eqb Pos.eqb].
  apply (frame_round 406 seq k pd rd _ [PInt 1] (fun x => [WText nm x]) [(1%Q, PStr nm)] extras); auto; try lia.
  - apply open_int, spo_nil.
  - apply Nat.leb_le; reflexivity.
  - apply opens_text; auto; reflexivity.
  - apply closes_text; auto; reflexivity.
  - unfold ucosts. cbn [map snd]. rewrite !costs_cons. cbn [cost costs fold_right]. lia.
  - cbn [app map snd]. constructor; [exact I|]. constructor; [exact NN|]. constructor.
  - intros ps' W. apply uwrote_cons_text in W. destruct W as (q & -> & W). inv2. intros data n idx ex C. cbn [app] in C.
    unfold parse406. int_step C.
    destruct (st_text pd rd data n D nm _ _ _ C) as (i1 & e1 & P1 & C1). exists nm, i1, e1. auto.
Qed.

(** ** Subfigure instances *)

Lemma round408 d x y z s extras k seq pd rd u : settings_ok pd rd seq k extras -> (0 < u)%Q -> extra_ok d = true ->
  Forall real300 [x; y; z; s] -> room k 4 0 extras ->
  round_trip (format408 (mkInst (Some d) x y z s) extras [] k seq pd rd u) (fun n f => readPD408 seq k n pd rd f)
    seq k (extras_ptrs extras)
    (fun t => in_def t = Some d /\ Forall2 (real_close u) [x; y; z; s] [in_x t; in_y t; in_z t; in_s t]).
Proof.
  intros S Hu Oc F RM. pose proof S as (D & Hs & Hk & _). pose proof (extra_ok_range _ Oc) as [R _].
  unfold format408, readPD408. cbn [in_def in_x in_y in_z in_s].
  apply (frame_round 408 seq k pd rd _ [PInt d] (fun f => reals_acts u [x; y; z; s] pd f)
    (uni u (map PReal [x; y; z; s])) extras); auto; try lia.
  - apply open_int, spo_nil.
  - lens. pose proof (showZ_type_len 408 ltac:(lia)). pose proof (showZ_ptr_len d ltac:(lia)). lia.
  - apply opens_reals; auto.
  - apply closes_reals; auto; discriminate.
  - rewrite ucosts_uni, costs_reals. unfold room in RM. cbn [length]. lia.
  - repeat constructor.
  - intros ps' W data n idx ex C. apply uwrote_reals in W. cbn [app] in C. inv2. cbn [app] in C. unfold parse408. int_step C.
    cbn [parse_reals]. do 4 real_step C.
    eexists. eexists. eexists. split; [reflexivity|]. split; [|exact C]. cbn. split; [reflexivity|]. close2.
Qed.
