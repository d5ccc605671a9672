(** Round trips of the curve, surface and transform entities. *)

From Coq Require Import Lia ZifyBool ZifyNat ZifyN QArith Qabs.
From Verif Require Import Base Num Spec NumFacts IoModel FieldFacts LineFacts TokenFacts RealFacts RecordFacts
  ParamFacts PutModel BuildFacts StreamFacts PdModel PdFacts GlobBack EntSpec EntModel EntModel2 EntModel3 EntFacts.
Open Scope Z_scope.

Ltac Zify.zify_post_hook ::= Z.div_mod_to_equations.

Ltac close2 := repeat first [apply Forall2_nil | apply Forall2_cons; [assumption|]].

(** ** Entities made of reals only *)

Lemma reals_round {A} etype seq k pd rd u vs extras (parse : str -> nat -> pres (A * nat * bool)) (f : list Q -> option A) R :
  100 <= etype <= 999 -> settings_ok pd rd seq k extras -> (0 < u)%Q -> vs <> [] -> Forall real300 vs ->
  room k (Z.of_nat (length vs)) 0 extras ->
  (forall data idx, parse data idx =
     do (l, i, e) <- parse_reals (length vs) data idx false pd rd;
     match f l with Some a => POk (a, i, e) | None => PFail end) ->
  (forall l, Forall2 (real_close u) vs l -> exists a, f l = Some a /\ R a) ->
  round_trip (format_frame (showZ etype ++ [pd]) (reals_acts u vs pd (fdel extras pd rd)) extras [] k seq pd rd)
    (fun n f => readPD_frame parse etype seq k n pd rd f) seq k (extras_ptrs extras) R.
Proof.
  intros He S Hu NE F RM E H. pose proof S as (D & _).
  apply (frame_round etype seq k pd rd [] [] (fun d => reals_acts u vs pd d) (uni u (map PReal vs)) extras parse R); auto.
  - lia.
  - constructor.
  - rewrite app_length. pose proof (showZ_type_len etype He). cbn [length]. lia.
  - apply opens_reals; auto.
  - apply closes_reals; auto.
  - rewrite ucosts_uni, costs_reals. unfold room in RM. lia.
  - cbn [app]. apply no_nl_reals.
  - intros ps' W. cbn [app]. eapply parses_reals; eauto. apply uwrote_reals, W.
Qed.

(** Six reals. *)
Lemma round110 l extras k seq pd rd u : settings_ok pd rd seq k extras -> (0 < u)%Q -> Forall real300 (line_reals l) ->
  room k 6 0 extras ->
  round_trip (format110 l extras [] k seq pd rd u) (fun n f => readPD110 seq k n pd rd f) seq k (extras_ptrs extras)
    (fun l' => Forall2 (real_close u) (line_reals l) (line_reals l')).
Proof.
  intros S Hu F RM. unfold format110, readPD110.
  apply (reals_round 110 seq k pd rd u (line_reals l) extras (parse110 pd rd)
    (fun q => match q with [a; b; c; d; x; y] => Some (mkLine a b c d x y) | _ => None end)); auto; try lia; try discriminate.
  - intros data idx. unfold parse110. change (length (line_reals l)) with 6%nat.
    destruct (parse_reals 6 data idx false pd rd) as [| |[[q i] e]]; try reflexivity. cbn [pbind].
    repeat (destruct q as [|? q]; try reflexivity).
  - intros q Q. unfold line_reals in Q. repeat match goal with H : Forall2 _ _ _ |- _ => inversion H; clear H; subst end.
    eexists. split; [reflexivity|]. cbn. close2.
Qed.

Lemma round124 m extras k seq pd rd u : settings_ok pd rd seq k extras -> (0 < u)%Q -> Forall real300 (xform_reals m) ->
  room k 12 0 extras ->
  round_trip (format124 m extras [] k seq pd rd u) (fun n f => readPD124 seq k n pd rd f) seq k (extras_ptrs extras)
    (fun m' => Forall2 (real_close u) (xform_reals m) (xform_reals m')).
Proof.
  intros S Hu F RM. unfold format124, readPD124.
  apply (reals_round 124 seq k pd rd u (xform_reals m) extras (parse124 pd rd)
    (fun q => match q with [a; b; c; d; x; f; g; h; k; l; m; n] => Some (mkX a b c d x f g h k l m n) | _ => None end));
    auto; try lia; try discriminate.
  - intros data idx. unfold parse124. change (length (xform_reals m)) with 12%nat.
    destruct (parse_reals 12 data idx false pd rd) as [| |[[q i] e]]; try reflexivity. cbn [pbind].
    repeat (destruct q as [|? q]; try reflexivity).
  - intros q Q. unfold xform_reals in Q. repeat match goal with H : Forall2 _ _ _ |- _ => inversion H; clear H; subst end.
    eexists. split; [reflexivity|]. cbn. close2.
Qed.

Lemma round104 c extras k seq pd rd : settings_ok pd rd seq k extras -> Forall real300 (conic_reals c) ->
  room k 11 0 extras ->
  round_trip (format104 c extras [] k seq pd rd) (fun n f => readPD104 seq k n pd rd f) seq k (extras_ptrs extras)
    (fun c' => Forall2 (real_close conic_res) (conic_reals c) (conic_reals c')).
Proof.
  intros S F RM. unfold format104, readPD104.
  apply (reals_round 104 seq k pd rd conic_res (conic_reals c) extras (parse104 pd rd)
    (fun q => match q with [A; B; C; D; E; F; ZT; X1; Y1; X2; Y2] => Some (mkConic A B C D E F ZT X1 Y1 X2 Y2) | _ => None end));
    auto; try lia; try discriminate.
  - reflexivity.
  - intros data idx. unfold parse104. change (length (conic_reals c)) with 11%nat.
    destruct (parse_reals 11 data idx false pd rd) as [| |[[q i] e]]; try reflexivity. cbn [pbind].
    repeat (destruct q as [|? q]; try reflexivity).
  - intros q Q. unfold conic_reals in Q. repeat match goal with H : Forall2 _ _ _ |- _ => inversion H; clear H; subst end.
    eexists. split; [reflexivity|]. cbn. close2.
Qed.

(** The frame part of an arc: coordinates before the checks. *)
Lemma round100 a extras k seq pd rd u : settings_ok pd rd seq k extras -> (0 < u)%Q -> Forall real300 (arc_reals a) ->
  room k 7 0 extras ->
  round_trip (format100 a extras [] k seq pd rd u) (fun n f => readPD_frame (parse100 pd rd) 100 seq k n pd rd f)
    seq k (extras_ptrs extras)
    (fun a' => Forall2 (real_close u) (arc_reals a) (arc_reals a')).
Proof.
  intros S Hu F RM. unfold format100.
  apply (reals_round 100 seq k pd rd u (arc_reals a) extras (parse100 pd rd)
    (fun q => match q with [z; xc; yc; xs; ys; xe; ye] => Some (mkArc z xc yc xs ys xe ye) | _ => None end));
    auto; try lia; try discriminate.
  - intros data idx. unfold parse100. change (length (arc_reals a)) with 7%nat.
    destruct (parse_reals 7 data idx false pd rd) as [| |[[q i] e]]; try reflexivity. cbn [pbind].
    repeat (destruct q as [|? q]; try reflexivity).
  - intros q Q. unfold arc_reals in Q. repeat match goal with H : Forall2 _ _ _ |- _ => inversion H; clear H; subst end.
    eexists. split; [reflexivity|]. cbn. close2.
Qed.

(** ** Entities with pointers *)

Lemma any_ptr_range v : any_ptr v = true <-> 1 <= v <= 9999997.
Proof. unfold any_ptr. lia. Qed.

Ltac lens := repeat (rewrite app_length; cbn [length]).

Lemma one_pos : (0 < 1)%Q. Proof. reflexivity. Qed.

(** A header of integers and a list of pointers. *)
Lemma ints_round {A} etype seq k pd rd x ps0 l extras (parse : str -> nat -> pres (A * nat * bool)) R :
  100 <= etype <= 999 -> settings_ok pd rd seq k extras -> spaced_open pd ps0 x -> (length x <= 60)%nat ->
  Forall no_nl ps0 -> l <> [] -> Forall is_int32 l -> room k (Z.of_nat (length l)) 0 extras ->
  parses pd rd parse (ps0 ++ ptr_params l) R ->
  round_trip (format_frame (showZ etype ++ pd :: x) (ints_acts l pd (fdel extras pd rd)) extras [] k seq pd rd)
    (fun n f => readPD_frame parse etype seq k n pd rd f) seq k (extras_ptrs extras) R.
Proof.
  intros He S SO LX NL NE F RM P. pose proof S as (D & _).
  apply (frame_round etype seq k pd rd x ps0 (fun d => ints_acts l pd d) (uni 1 (ptr_params l)) extras parse R); auto.
  - lia.
  - lens. pose proof (showZ_type_len etype He). lia.
  - apply opens_ints; auto; reflexivity.
  - apply closes_ints; auto; reflexivity.
  - rewrite ucosts_uni, costs_ints. unfold room in RM. lia.
  - apply Forall_app. split; [exact NL|]. apply no_nl_ints.
  - intros ps' W. apply uwrote_ints in W. subst ps'. exact P.
Qed.

Ltac hdr := repeat apply open_int; apply spo_nil.

Lemma extra_ok_int32 v : extra_ok v = true -> is_int32 v.
Proof. intros H. apply extra_ok_range in H. unfold is_int32. lia. Qed.

Lemma ptrs_int32 ok l : (forall v, ok v = true -> is_int32 v) -> Forall (fun v => ok v = true) l ->
  Forall is_int32 l /\ Forall (fun v => ok v = true /\ is_int32 v) l.
Proof. intros H F. split; (eapply Forall_impl; [|exact F]); cbn; auto. Qed.

Lemma showZ_len31 n : is_int32 n -> (length (showZ n) <= 11)%nat.
Proof. apply showZ_len_int. Qed.

(** Composite curves. *)
Lemma round102 l extras k seq pd rd : settings_ok pd rd seq k extras -> l <> [] -> Forall (fun v => extra_ok v = true) l ->
  room k (Z.of_nat (length l)) 0 extras ->
  round_trip (format102 l extras [] k seq pd rd) (fun n f => readPD102 seq k n pd rd f) seq k (extras_ptrs extras)
    (fun l' => l' = l).
Proof.
  intros S NE F RM. pose proof S as (D & Hs & Hk & _). destruct (ptrs_int32 _ _ extra_ok_int32 F) as [F1 F2].
  assert (LL : is_int32 (Z.of_nat (length l))) by (unfold room in RM; unfold is_int32; lia).
  unfold format102, readPD102.
  replace (match l, extras with [], [] => rd | _, _ => pd end) with pd by (destruct l; [congruence|destruct extras; reflexivity]).
  apply (ints_round 102 seq k pd rd _ [PInt (Z.of_nat (length l))]); auto; try lia.
  - hdr.
  - lens. pose proof (showZ_len31 _ LL). lia.
  - repeat constructor.
  - intros data n idx ex C. cbn [app] in C. unfold parse102.
    destruct (st_int pd rd data n D (fun n => 1 <=? n) _ _ _ _ C) as (i & e & P & C1); auto.
    { destruct l; [congruence|cbn [length]; lia]. }
    rewrite P. cbn [pbind]. rewrite Nat2Z.id.
    destruct (st_ints pd rd data n D extra_ok l i e ex C1 F2) as (i2 & e2 & P2 & C2).
    exists l, i2, e2. auto.
Qed.

(** Surfaces of revolution. *)
Lemma round120 l c sa ta extras k seq pd rd : settings_ok pd rd seq k extras -> any_ptr l = true -> any_ptr c = true ->
  real300 sa -> real300 ta -> room k 2 0 extras ->
  round_trip (format120 (mkRev (Some l) (Some c) sa ta) extras [] k seq pd rd) (fun n f => readPD120 seq k n pd rd f)
    seq k (extras_ptrs extras)
    (fun r => rv_axis r = Some l /\ rv_curve r = Some c /\ real_close angle_res sa (rv_start r) /\ real_close angle_res ta (rv_end r)).
Proof.
  intros S Ol Oc R1 R2 RM. pose proof S as (D & Hs & Hk & _). pose proof (proj1 (any_ptr_range l) Ol). pose proof (proj1 (any_ptr_range c) Oc).
  unfold format120, readPD120. cbn [rv_axis rv_curve rv_start rv_end].
  apply (frame_round 120 seq k pd rd _ [PInt l; PInt c] (fun d => reals_acts angle_res [sa; ta] pd d)
    (uni angle_res (map PReal [sa; ta])) extras); auto; try lia.
  - hdr.
  - lens. pose proof (showZ_type_len 120 ltac:(lia)). pose proof (showZ_ptr_len l ltac:(lia)). pose proof (showZ_ptr_len c ltac:(lia)). lia.
  - apply opens_reals; auto; reflexivity.
  - apply closes_reals; auto; try reflexivity; discriminate.
  - rewrite ucosts_uni, costs_reals. unfold room in RM. cbn [length]. lia.
  - repeat constructor.
  - intros ps' W data n idx ex C. apply uwrote_reals in W. cbn [app] in C. unfold parse120.
    destruct (st_int pd rd data n D any_ptr _ _ _ _ C Ol ltac:(unfold is_int32; lia)) as (i & e & P & C1).
    rewrite P. cbn [pbind].
    destruct (st_int pd rd data n D any_ptr _ _ _ _ C1 Oc ltac:(unfold is_int32; lia)) as (i1 & e1 & P1 & C2).
    rewrite P1. cbn [pbind].
    destruct (st_reals pd rd data n D angle_res [sa; ta] ps' i1 e1 ex C2 W) as (q & i2 & e2 & P2 & Q & C3).
    cbn [length] in P2. rewrite P2. cbn [pbind].
    repeat match goal with H : Forall2 _ _ q |- _ => inversion H; clear H; subst | H : Forall2 _ _ _ |- _ => inversion H; clear H; subst end.
    eexists. exists i2, e2. split; [reflexivity|]. split; [|exact C3]. cbn. auto.
Qed.

(** Tabulated cylinders. *)
Lemma round122 c x y z extras k seq pd rd u : settings_ok pd rd seq k extras -> (0 < u)%Q -> extra_ok c = true ->
  Forall real300 [x; y; z] -> room k 3 0 extras ->
  round_trip (format122 (mkTab (Some c) x y z) extras [] k seq pd rd u) (fun n f => readPD122 seq k n pd rd f)
    seq k (extras_ptrs extras)
    (fun t => tc_curve t = Some c /\ Forall2 (real_close u) [x; y; z] [tc_x t; tc_y t; tc_z t]).
Proof.
  intros S Hu Oc F RM. pose proof S as (D & Hs & Hk & _). pose proof (extra_ok_range _ Oc) as [R _].
  unfold format122, readPD122. cbn [tc_curve tc_x tc_y tc_z].
  apply (frame_round 122 seq k pd rd _ [PInt c] (fun d => reals_acts u [x; y; z] pd d)
    (uni u (map PReal [x; y; z])) extras); auto; try lia.
  - hdr.
  - lens. pose proof (showZ_type_len 122 ltac:(lia)). pose proof (showZ_ptr_len c ltac:(lia)). lia.
  - apply opens_reals; auto.
  - apply closes_reals; auto; discriminate.
  - rewrite ucosts_uni, costs_reals. unfold room in RM. cbn [length]. lia.
  - repeat constructor.
  - intros ps' W data n idx ex C. apply uwrote_reals in W. cbn [app] in C. unfold parse122.
    destruct (st_int pd rd data n D extra_ok _ _ _ _ C Oc ltac:(unfold is_int32; lia)) as (i & e & P & C1).
    rewrite P. cbn [pbind].
    destruct (st_reals pd rd data n D u [x; y; z] ps' i e ex C1 W) as (q & i2 & e2 & P2 & Q & C3).
    cbn [length] in P2. rewrite P2. cbn [pbind].
    repeat match goal with H : Forall2 _ _ q |- _ => inversion H; clear H; subst | H : Forall2 _ _ _ |- _ => inversion H; clear H; subst end.
    eexists. exists i2, e2. split; [reflexivity|]. split; [|exact C3]. cbn. auto 6.
Qed.

Lemma optp_ptr0 o : optp o -> opt_ptr (ptr0 o) = true /\ 0 <= ptr0 o <= 9999997 /\ to_ptr (ptr0 o) = o.
Proof.
  destruct o as [n|]; cbn; intros H; [|unfold opt_ptr, to_ptr; cbn; auto with zarith].
  unfold opt_ptr, to_ptr. pose proof (extra_ok_range _ H). rewrite H, orb_true_r. replace (n =? 0) with false by lia. auto with zarith.
Qed.

Lemma force_pref_idem b c p : force_pref b c (force_pref b c p) = force_pref b c p.
Proof. destruct b, c; reflexivity. Qed.

Lemma round142 crtn s b c pref extras k seq pd rd : settings_ok pd rd seq k extras -> 0 <= crtn <= 3 -> 0 <= pref <= 3 ->
  extra_ok s = true -> optp b -> optp c -> (b <> None \/ c <> None) -> room k 1 0 extras ->
  round_trip (format142 (mkOn crtn (Some s) b c pref) extras [] k seq pd rd) (fun n f => readPD142 seq k n pd rd f)
    seq k (extras_ptrs extras)
    (fun o => o = mkOn crtn (Some s) b c (force_pref b c pref)).
Proof.
  intros S Hc Hp Os Ob Oc NE RM. pose proof S as (D & Hs & Hk & _). pose proof (extra_ok_range _ Os) as [R _].
  destruct (optp_ptr0 _ Ob) as (B1 & B2 & B3). destruct (optp_ptr0 _ Oc) as (C1 & C2 & C3).
  unfold format142, readPD142. cbn [os_crtn os_surf os_b os_c os_pref].
  replace (match b with Some _ => true | None => match c with Some _ => true | None => false end end) with true
    by (destruct b, c; auto; destruct NE; congruence).
  unfold guard. replace (range03 crtn) with true by (unfold range03; lia).
  assert (RP : 0 <= force_pref b c pref <= 3) by (destruct b, c; cbn; lia).
  replace (range03 (force_pref b c pref)) with true by (unfold range03; lia).
  apply (ints_round 142 seq k pd rd _ [PInt crtn; PInt s; PInt (ptr0 b); PInt (ptr0 c)] [force_pref b c pref] extras); auto; try lia.
  - hdr.
  - lens. pose proof (showZ_ptr_len s ltac:(lia)). pose proof (showZ_ptr_len crtn ltac:(lia)).
    pose proof (showZ_ptr_len (ptr0 b) ltac:(lia)). pose proof (showZ_ptr_len (ptr0 c) ltac:(lia)). lia.
  - repeat constructor.
  - discriminate.
  - repeat constructor; unfold is_int32; lia.
  - intros data n idx ex C. cbn [app ptr_params map] in C. unfold parse142.
    destruct (st_int pd rd data n D range03 _ _ _ _ C ltac:(unfold range03; lia) ltac:(unfold is_int32; lia)) as (i & e & P & X1).
    rewrite P. cbn [pbind].
    destruct (st_int pd rd data n D extra_ok _ _ _ _ X1 Os ltac:(unfold is_int32; lia)) as (i1 & e1 & P1 & X2). rewrite P1. cbn [pbind].
    destruct (st_int pd rd data n D opt_ptr _ _ _ _ X2 B1 ltac:(unfold is_int32; lia)) as (i2 & e2 & P2 & X3). rewrite P2. cbn [pbind].
    destruct (st_int pd rd data n D opt_ptr _ _ _ _ X3 C1 ltac:(unfold is_int32; lia)) as (i3 & e3 & P3 & X4). rewrite P3. cbn [pbind].
    destruct (st_int pd rd data n D range03 _ _ _ _ X4 ltac:(unfold range03; lia) ltac:(unfold is_int32; lia)) as (i4 & e4 & P4 & X5).
    rewrite P4. cbn [pbind]. unfold guard.
    replace (negb ((ptr0 b =? 0) && (ptr0 c =? 0))) with true.
    2: { destruct b as [b|], c as [c|]; cbn in *; try (apply extra_ok_range in Ob); try (apply extra_ok_range in Oc); try lia.
         destruct NE; congruence. }
    rewrite B3, C3, force_pref_idem. eexists. exists i4, e4. auto.
Qed.

(** Trimmed surfaces. *)
Lemma round144 s n1 o l extras k seq pd rd : settings_ok pd rd seq k extras -> extra_ok s = true -> (n1 = 0 \/ n1 = 1) ->
  extra_ok o = true -> Forall (fun v => extra_ok v = true) l -> room k (Z.of_nat (length l) + 1) 0 extras ->
  round_trip (format144 (mkTrim (Some s) n1 (Some o) l) extras [] k seq pd rd) (fun n f => readPD144 seq k n pd rd f)
    seq k (extras_ptrs extras) (fun t => t = mkTrim (Some s) n1 (Some o) l).
Proof.
  intros S Os N1 Oo F RM. pose proof S as (D & Hs & Hk & _). destruct (ptrs_int32 _ _ extra_ok_int32 F) as [F1 F2].
  assert (LL : 0 <= Z.of_nat (length l) <= 9999999) by (unfold room in RM; lia).
  pose proof (extra_ok_range _ Os) as [R _]. pose proof (extra_ok_range _ Oo) as [Ro _].
  unfold format144, readPD144. cbn [tr_surf tr_n1 tr_outer tr_inner ptr0]. unfold guard.
  replace (flag01 n1) with true by (unfold flag01; lia).
  apply (ints_round 144 seq k pd rd _ [PInt s; PInt n1; PInt (Z.of_nat (length l))]); auto; try lia.
  - hdr.
  - lens. pose proof (showZ_ptr_len s ltac:(lia)). pose proof (showZ_ptr_len n1 ltac:(lia)). pose proof (showZ_ptr_len _ LL). lia.
  - repeat constructor.
  - discriminate.
  - constructor; [unfold is_int32; lia|exact F1].
  - cbn [length]. unfold room in *. lia.
  - intros data n idx ex C. cbn [app ptr_params map] in C. unfold parse144.
    destruct (st_int pd rd data n D extra_ok _ _ _ _ C Os ltac:(unfold is_int32; lia)) as (i & e & P & X1). rewrite P. cbn [pbind].
    destruct (st_int pd rd data n D flag01 _ _ _ _ X1 ltac:(unfold flag01; lia) ltac:(unfold is_int32; lia)) as (i1 & e1 & P1 & X2). rewrite P1. cbn [pbind].
    destruct (st_int pd rd data n D (fun n => 0 <=? n) _ _ _ _ X2 ltac:(cbn; lia) ltac:(unfold is_int32; lia)) as (i2 & e2 & P2 & X3). rewrite P2. cbn [pbind].
    destruct (st_int pd rd data n D extra_ok _ _ _ _ X3 Oo ltac:(unfold is_int32; lia)) as (i3 & e3 & P3 & X4). rewrite P3. cbn [pbind].
    rewrite Nat2Z.id. destruct (st_ints pd rd data n D extra_ok l _ _ _ X4 F2) as (i4 & e4 & P4 & X5). rewrite P4. cbn [pbind].
    eexists. exists i4, e4. auto.
Qed.
