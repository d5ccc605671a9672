(** The claims about the Parameter Data of single entities (C20 - C22, C26 - C30,
    C45 - C53), each with a concrete case. *)

From Coq Require Import QArith Qabs Lia.
From Verif Require Import Base Num Spec IoModel BuildFacts PdModel PdFacts EntModel EntModel2 EntModel3 EntSpec
  EntProps EntProps2 EntProps3 EntProps4 EntProps5 EntNeg2 PdSpec IoProps PdProps PropGlobal.
Open Scope Z_scope.

(** Two optional entities, a property listed before an associativity. *)
Definition opts : list (Z * Z) := [(406, 7); (402, 3)].

Example opts_settings : settings_ok "," ";" 5 1 opts /\ settings_ok "," ";" 5 1 [] /\ extras_ptrs opts = [3; 7].
Proof.
  split; [|split].
  - split; [exact default_delims|]. split; [lia|]. split; [lia|]. split; [|cbn; lia]. repeat constructor.
  - split; [exact default_delims|]. split; [lia|]. split; [lia|]. split; [constructor|cbn; lia].
  - reflexivity.
Qed.

(** What the reader makes of a written record followed by a line of the next
    section; the flag says that exactly the record was taken. *)
Definition back {A} (fmt : pres pdrec) (read : Z -> stream -> pres (A * list Z * list str * stream)) : pres (A * list Z * bool) :=
  match fmt with
  | POk r => match read (p_count r) (mkStream (p_out r ++ behind) false) with
             | POk (a, ptrs, _, f) => POk (a, ptrs, (length (s_rest f) =? length behind)%nat)
             | PFail => PFail
             | PCrash => PCrash
             end
  | PFail => PFail
  | PCrash => PCrash
  end.
Definition sameQ (a b : list Q) : bool := (length a =? length b)%nat && forallb (fun p => Qeq_bool (fst p) (snd p)) (combine a b).
Definition got {A} (x : pres (A * list Z * bool)) (ptrs : list Z) (ok : A -> bool) : bool :=
  match x with POk (a, l, true) => ok a && (if list_eq_dec Z.eq_dec l ptrs then true else false) | _ => false end.
Definition written (x : pres pdrec) : bool := match x with POk r => negb (length (p_out r) =? 0)%nat | _ => false end.

(** *** C20: Parameter Data is attributed to its own Directory Entry *)

Theorem c20_own_lines_only : forall A (parse : str -> nat -> pres (A * nat * bool)) etype seq pdata count pd rd f a ptrs cs f', etype <> 0 ->
  readPD_frame parse etype seq pdata count pd rd f = POk (a, ptrs, cs, f') ->
  exists d ds i, Z.of_nat (length (d :: ds)) = count /\ own_lines seq pdata (d :: ds) f f' /\
    ParseInt d 0 false pd rd None = POk (etype, i, false).
Proof. exact frame_own. Qed.
Print Assumptions c20_own_lines_only.

Theorem c20_lines_taken : forall etype seq pdata count pd rd f data f', etype <> 0 ->
  (readPD_base etype seq pdata count pd rd f = POk (data, f') <->
   1 <= pdata <= 9999999 /\ 1 <= count /\ pdata + count <= 10000000 /\
   exists d ds i, Z.of_nat (length (d :: ds)) = count /\ own_lines seq pdata (d :: ds) f f' /\
     data = concat (map (firstn 64) (d :: ds)) /\ ParseInt d 0 false pd rd None = POk (etype, i, false)).
Proof. exact readPD_base_iff. Qed.
Print Assumptions c20_lines_taken.

Definition line_ex : line := mkLine (1 # 2) 2 3 (-1) (1 # 4) 100000.
Definition line_rec (seq k : Z) : str := match format110 line_ex [] [] k seq "," ";" (1 # 1000) with POk r => p_out r | _ => [] end.

(** Read under its own number; under another number; at another position; as
    another type of entity. *)
Example c20_case :
  (exists a, readPD110 5 8 1 "," ";" (mkStream (line_rec 5 8 ++ behind) false) = POk (a, [], [], mkStream behind false)) /\
  readPD110 7 8 1 "," ";" (mkStream (line_rec 5 8) false) = PFail /\
  readPD110 5 9 1 "," ";" (mkStream (line_rec 5 8) false) = PFail /\
  readPD124 5 8 1 "," ";" (mkStream (line_rec 5 8) false) = PFail.
Proof. split; [eexists; vm_compute; reflexivity|]. vm_compute. auto. Qed.

(** *** C21: comments *)

Theorem c21_comments_refused : forall A (parse : str -> nat -> pres (A * nat * bool)) etype init acts extras cs c k seq pd rd ptrs good,
  etype <> 0 -> 1 <= seq -> 1 <= k ->
  round_trip (format_frame init acts extras [] k seq pd rd)
    (fun n f => readPD_frame parse etype seq k n pd rd f) seq k ptrs good ->
  first_comment cs = Some c -> ~ In nl (firstn 72 c) -> ~ tagged seq (padr 72 (firstn 72 c)) ->
  forall r, format_frame init acts extras cs k seq pd rd = POk r ->
  forall rest, readPD_frame parse etype seq k (p_count r) pd rd (mkStream (p_out r ++ rest) false) = PFail.
Proof. exact comment_refused. Qed.
Print Assumptions c21_comments_refused.

Theorem c21_line_comments_refused : forall l extras cs c k seq pd rd u, settings_ok pd rd seq k extras -> (0 < u)%Q ->
  Forall real300 (line_reals l) -> room k 6 0 extras ->
  first_comment cs = Some c -> ~ In nl (firstn 72 c) -> ~ tagged seq (padr 72 (firstn 72 c)) ->
  forall r, format110 l extras cs k seq pd rd u = POk r ->
  forall rest, readPD110 seq k (p_count r) pd rd (mkStream (p_out r ++ rest) false) = PFail.
Proof. exact line_comments_refused. Qed.
Print Assumptions c21_line_comments_refused.

(** A line with a comment; the exception, a comment with the entity's own number
    in columns 66 to 72, which is read without its last eight columns. *)
Example c21_case : let read n f := readPD110 5 1 n "," ";" f in
  back (format110 line_ex opts [S2 "left edge"] 1 5 "," ";" (1 # 1000)) read = PFail /\
  written (format110 line_ex opts [S2 "left edge"] 1 5 "," ";" (1 # 1000)) = true /\
  first_comment [[]; S2 "left edge"] = Some (S2 "left edge") /\
  got (back (format110 line_ex opts [padr 64 (S2 "left edge") ++ S2 "       5"] 1 5 "," ";" (1 # 1000)) read) [3; 7]
    (fun l => sameQ (line_reals l) [1 # 2; 2; 3; -1; 1 # 4; 100000]%Q) = true.
Proof. vm_compute. auto. Qed.

(** *** C22: optional entity lists *)

Theorem c22_optional_lists_round_trip : forall l extras k seq pd rd u, settings_ok pd rd seq k extras -> (0 < u)%Q ->
  Forall real300 (line_reals l) -> room k 6 0 extras ->
  round_trip (format110 l extras [] k seq pd rd u) (fun n f => readPD110 seq k n pd rd f) seq k
    (map snd (filter (fun e => (fst e =? 212) || (fst e =? 312) || (fst e =? 402)) extras) ++
     map snd (filter (fun e => fst e =? 406) extras))
    (fun l' => Forall2 (real_close u) (line_reals l) (line_reals l')).
Proof. exact round110. Qed.
Print Assumptions c22_optional_lists_round_trip.

Example c22_case : got (back (format110 line_ex opts [] 1 5 "," ";" (1 # 1000)) (fun n f => readPD110 5 1 n "," ";" f)) [3; 7] (fun _ => true) = true.
Proof. vm_compute. reflexivity. Qed.

(** *** C26: circular arcs *)

Theorem c26_arcs_round_trip : forall a extras k seq pd rd u, settings_ok pd rd seq k extras -> (0 < u)%Q ->
  Forall real300 (arc_reals a) -> room k 7 0 extras ->
  exists r a', format100 a extras [] k seq pd rd u = POk r /\ Forall2 (real_close u) (arc_reals a) (arc_reals a') /\
    forall rest,
    (radii_ok u (a_xc a') (a_yc a') (a_xs a') (a_ys a') (a_xe a') (a_ye a') ->
       readPD100 seq k (p_count r) pd rd u (mkStream (p_out r ++ rest) false) =
         POk (a', extras_ptrs extras, [], mkStream rest false)) /\
    (~ radii_ok u (a_xc a') (a_yc a') (a_xs a') (a_ys a') (a_xe a') (a_ye a') ->
       readPD100 seq k (p_count r) pd rd u (mkStream (p_out r ++ rest) false) = PFail).
Proof. exact arc_round. Qed.
Print Assumptions c26_arcs_round_trip.

(** Arcs with coordinates of at most six digits: the checks apply to the arc itself. *)
Theorem c26_six_digit_arcs : forall a extras k seq pd rd u, settings_ok pd rd seq k extras -> (0 < u)%Q ->
  Forall real300 (arc_reals a) -> Forall six_digits (arc_reals a) -> room k 7 0 extras ->
  exists r a', format100 a extras [] k seq pd rd u = POk r /\ Forall2 Qeq (arc_reals a) (arc_reals a') /\
    forall rest,
    (radii_ok u (a_xc a) (a_yc a) (a_xs a) (a_ys a) (a_xe a) (a_ye a) ->
       readPD100 seq k (p_count r) pd rd u (mkStream (p_out r ++ rest) false) =
         POk (a', extras_ptrs extras, [], mkStream rest false)) /\
    (~ radii_ok u (a_xc a) (a_yc a) (a_xs a) (a_ys a) (a_xe a) (a_ye a) ->
       readPD100 seq k (p_count r) pd rd u (mkStream (p_out r ++ rest) false) = PFail).
Proof. exact arc_exact. Qed.
Print Assumptions c26_six_digit_arcs.

(** An arc on a perfect circle of radius 1000000 about the origin is written but
    refused, for the rounding of its end moves the square of the radius by more
    than twice the resolution. *)
Theorem c26_perfect_arc_refuted : exists a u, (0 < u)%Q /\
  (a_xs a * a_xs a + a_ys a * a_ys a == a_xe a * a_xe a + a_ye a * a_ye a)%Q /\ (a_xc a == 0)%Q /\ (a_yc a == 0)%Q /\
  refused (format100 a [] [] 1 5 "," ";" u) (fun n f => readPD100 5 1 n "," ";" u f).
Proof. exact perfect_arc_refused. Qed.
Print Assumptions c26_perfect_arc_refuted.

Example c26_case : let u := 1 # 1000 in
  got (back (format100 (mkArc 2 1 1 4 5 5 4) opts [] 1 5 "," ";" u) (fun n f => readPD100 5 1 n "," ";" u f)) [3; 7]
    (fun a => sameQ (arc_reals a) [2; 1; 1; 4; 5; 5; 4]%Q) = true /\
  back (format100 (mkArc 2 1 1 1 1 1 1) opts [] 1 5 "," ";" u) (fun n f => readPD100 5 1 n "," ";" u f) = PFail /\
  back (format100 (mkArc 2 1 1 4 5 5 5) opts [] 1 5 "," ";" u) (fun n f => readPD100 5 1 n "," ";" u f) = PFail.
Proof. vm_compute. auto. Qed.

(** *** C27: lists of pointers *)

Theorem c27_composite_curves_round_trip : forall l extras k seq pd rd, settings_ok pd rd seq k extras -> l <> [] ->
  Forall (fun v => extra_ok v = true) l -> room k (Z.of_nat (length l)) 0 extras ->
  round_trip (format102 l extras [] k seq pd rd) (fun n f => readPD102 seq k n pd rd f) seq k (extras_ptrs extras)
    (fun l' => l' = l).
Proof. exact round102. Qed.
Print Assumptions c27_composite_curves_round_trip.

Theorem c27_subfigures_round_trip : forall d nm l extras k seq pd rd, settings_ok pd rd seq k extras -> 0 <= d <= 2147483647 -> l <> [] ->
  Forall (fun v => extra_ok v = true) l -> Z.of_nat (length nm) <= int_max -> ~ In nl nm ->
  k + str_cost nm + 2 + 2 * Z.of_nat (length l) + 2 * Z.of_nat (length extras) + 6 <= 9999999 ->
  round_trip (format308 (mkSub d nm l) extras [] k seq pd rd) (fun n f => readPD308 seq k n pd rd f)
    seq k (extras_ptrs extras) (fun s => s = mkSub d nm l).
Proof. exact round308. Qed.
Print Assumptions c27_subfigures_round_trip.

(** Thirty members, more than fit on a line; a name holding both delimiters. *)
Definition many : list Z := map (fun i => 2 * Z.of_nat i + 1) (seq 10 30).
Example c27_case : got (back (format102 many opts [] 1 5 "," ";") (fun n f => readPD102 5 1 n "," ";" f)) [3; 7]
    (fun l => if list_eq_dec Z.eq_dec l many then true else false) = true /\
  got (back (format308 (mkSub 2 (S2 "bolt, M4; long") many) opts [] 1 5 "," ";") (fun n f => readPD308 5 1 n "," ";" f)) [3; 7]
    (fun s => (sf_depth s =? 2) && (if list_eq_dec ascii_dec (sf_name s) (S2 "bolt, M4; long") then true else false) &&
       (if list_eq_dec Z.eq_dec (sf_ents s) many then true else false)) = true.
Proof. vm_compute. auto. Qed.

(** *** C28: lines and transformation matrices *)

Theorem c28_lines_round_trip : forall l extras k seq pd rd u, settings_ok pd rd seq k extras -> (0 < u)%Q -> Forall real300 (line_reals l) ->
  room k 6 0 extras ->
  round_trip (format110 l extras [] k seq pd rd u) (fun n f => readPD110 seq k n pd rd f) seq k (extras_ptrs extras)
    (fun l' => Forall2 (real_close u) (line_reals l) (line_reals l')).
Proof. exact round110. Qed.
Print Assumptions c28_lines_round_trip.

Theorem c28_transforms_round_trip : forall m extras k seq pd rd u, settings_ok pd rd seq k extras -> (0 < u)%Q -> Forall real300 (xform_reals m) ->
  room k 12 0 extras ->
  round_trip (format124 m extras [] k seq pd rd u) (fun n f => readPD124 seq k n pd rd f) seq k (extras_ptrs extras)
    (fun m' => Forall2 (real_close u) (xform_reals m) (xform_reals m')).
Proof. exact round124. Qed.
Print Assumptions c28_transforms_round_trip.

Example c28_case : got (back (format124 (mkX 0 (-1) 0 (5 # 2) 1 0 0 (1 # 1000) 0 0 1 (-30000)) opts [] 1 5 "," ";" (1 # 1000))
    (fun n f => readPD124 5 1 n "," ";" f)) [3; 7]
    (fun m => sameQ (xform_reals m) [0; -1; 0; 5 # 2; 1; 0; 0; 1 # 1000; 0; 0; 1; -30000]%Q) = true.
Proof. vm_compute. reflexivity. Qed.

(** *** C29: boolean trees *)

Theorem c29_boolean_trees_refused : forall nodes extras k seq pd rd, settings_ok pd rd seq k extras -> Forall node_valid nodes ->
  (3 <= length nodes)%nat -> balanced nodes = true -> room k (Z.of_nat (length nodes)) 0 extras ->
  refused (format180 nodes extras [] k seq pd rd) (fun n f => readPD180 seq k n pd rd f).
Proof. exact refused180. Qed.
Print Assumptions c29_boolean_trees_refused.

(** Trees which are too small or not balanced are not written at all. *)
Theorem c29_other_trees_not_written : forall nodes extras cs k seq pd rd,
  (length nodes < 3)%nat \/ balanced nodes = false -> format180 nodes extras cs k seq pd rd = PFail.
Proof. exact unwritten180. Qed.
Print Assumptions c29_other_trees_not_written.

Example c29_case : let t := [Arg (Some 1); Arg (Some 3); Op 2] in
  balanced t = true /\ Forall node_valid t /\ written (format180 t opts [] 1 5 "," ";") = true /\
  back (format180 t opts [] 1 5 "," ";") (fun n f => readPD180 5 1 n "," ";" f) = PFail.
Proof. cbv zeta. split; [reflexivity|]. split; [repeat constructor; lia|]. vm_compute. auto. Qed.

(** *** C30: trimmed surfaces *)

Theorem c30_trimmed_surfaces_round_trip : forall s n1 o l extras k seq pd rd, settings_ok pd rd seq k extras -> extra_ok s = true -> (n1 = 0 \/ n1 = 1) ->
  extra_ok o = true -> Forall (fun v => extra_ok v = true) l -> room k (Z.of_nat (length l) + 1) 0 extras ->
  round_trip (format144 (mkTrim (Some s) n1 (Some o) l) extras [] k seq pd rd) (fun n f => readPD144 seq k n pd rd f)
    seq k (extras_ptrs extras) (fun t => t = mkTrim (Some s) n1 (Some o) l).
Proof. exact round144. Qed.
Print Assumptions c30_trimmed_surfaces_round_trip.

Theorem c30_no_outer_boundary_refused : forall s n1 l extras k seq pd rd, settings_ok pd rd seq k extras -> extra_ok s = true -> (n1 = 0 \/ n1 = 1) ->
  Forall (fun v => extra_ok v = true) l -> room k (Z.of_nat (length l) + 1) 0 extras ->
  refused (format144 (mkTrim (Some s) n1 None l) extras [] k seq pd rd) (fun n f => readPD144 seq k n pd rd f).
Proof. exact refused144. Qed.
Print Assumptions c30_no_outer_boundary_refused.

Example c30_case :
  back (format144 (mkTrim (Some 9) 1 (Some 11) [13; 15]) opts [] 1 5 "," ";") (fun n f => readPD144 5 1 n "," ";" f) =
    POk (mkTrim (Some 9) 1 (Some 11) [13; 15], [3; 7], true) /\
  written (format144 (mkTrim (Some 9) 0 None [13; 15]) opts [] 1 5 "," ";") = true /\
  back (format144 (mkTrim (Some 9) 0 None [13; 15]) opts [] 1 5 "," ";") (fun n f => readPD144 5 1 n "," ";" f) = PFail.
Proof. vm_compute. auto. Qed.

(** *** C45: planes *)

Theorem c45_planes_never_read : forall p k seq pd rd u, settings_ok pd rd seq k [] -> (0 < u)%Q -> plane_ok p -> room k 9 0 [] ->
  only_read_as (format108 p [] [] k seq pd rd u) (fun n f => readPD108 (pl_form p) seq k n pd rd f) (fun _ => False).
Proof. exact lost108. Qed.
Print Assumptions c45_planes_never_read.

Theorem c45_planes_with_options_round_trip : forall p c extras k seq pd rd u, settings_ok pd rd seq k extras -> extras <> [] -> (0 < u)%Q ->
  pl_ptr p = Some c -> extra_ok c = true -> pl_form p <> 0 -> Forall real300 (plane_reals p) ->
  (1 # 100000000 <= Qabs (pl_A p) \/ 1 # 100000000 <= Qabs (pl_B p) \/ 1 # 100000000 <= Qabs (pl_C p))%Q -> room k 9 0 extras ->
  round_trip (format108 p extras [] k seq pd rd u) (fun n f => readPD108 (pl_form p) seq k n pd rd f)
    seq k (extras_ptrs extras)
    (fun p' => pl_form p' = pl_form p /\ pl_ptr p' = Some c /\ Forall2 (real_close u) (plane_reals p) (plane_reals p')).
Proof. exact round108. Qed.
Print Assumptions c45_planes_with_options_round_trip.

(** Nothing of this plane reaches the file, for the last line is never finished. *)
Definition plane_ex : plane := mkPlane 1 (Some 9) 0 0 1 (5 # 2) 1 2 3 10.
Example c45_case : let u := 1 # 1000 in
  plane_ok plane_ex /\ format108 plane_ex [] [] 1 5 "," ";" u = POk (mkPd [] 1 0) /\
  back (format108 plane_ex [] [] 1 5 "," ";" u) (fun n f => readPD108 1 5 1 n "," ";" f) = PFail /\
  got (back (format108 plane_ex opts [] 1 5 "," ";" u) (fun n f => readPD108 1 5 1 n "," ";" f)) [3; 7]
    (fun p => sameQ (plane_reals p) (plane_reals plane_ex)) = true.
Proof.
  cbv zeta. split; [|vm_compute; auto]. split; [|split; [reflexivity|split; [discriminate|reflexivity]]].
  repeat constructor; vm_compute; discriminate.
Qed.

(** *** C46: solids with voids *)

Theorem c46_voids_refused : forall s sof voids k seq pd rd, settings_ok pd rd seq k [] -> extra_ok s = true ->
  voids <> [] -> Forall (fun v => extra_ok (fst v) = true) voids -> NoDup (map fst voids) ->
  room k (2 * Z.of_nat (length voids)) 0 [] ->
  refused (format186 (mkBrep (Some s) sof voids) [] [] k seq pd rd) (fun n f => readPD186 seq k n pd rd f).
Proof. exact refused186. Qed.
Print Assumptions c46_voids_refused.

Theorem c46_voids_lost : forall s sof voids k seq pd rd, settings_ok pd rd seq k [] -> extra_ok s = true ->
  voids <> [] -> Forall (fun v => extra_ok (fst v) = true) voids ->
  room k (2 * Z.of_nat (length voids)) 0 [] ->
  only_read_as (format186 (mkBrep (Some s) sof voids) [] [] k seq pd rd) (fun n f => readPD186 seq k n pd rd f)
    (fun b => (length (br_voids b) < length voids)%nat).
Proof. exact lost186. Qed.
Print Assumptions c46_voids_lost.

Theorem c46_plain_solids_round_trip : forall s o extras k seq pd rd, settings_ok pd rd seq k extras -> any_ptr s = true -> room k 1 0 extras ->
  round_trip (format186 (mkBrep (Some s) o []) extras [] k seq pd rd) (fun n f => readPD186 seq k n pd rd f)
    seq k (extras_ptrs extras) (fun b => b = mkBrep (Some s) o []).
Proof. exact round186. Qed.
Print Assumptions c46_plain_solids_round_trip.

Example c46_case :
  back (format186 (mkBrep (Some 9) true []) opts [] 1 5 "," ";") (fun n f => readPD186 5 1 n "," ";" f) = POk (mkBrep (Some 9) true [], [3; 7], true) /\
  written (format186 (mkBrep (Some 9) true [(11, false); (13, true)]) [] [] 1 5 "," ";") = true /\
  back (format186 (mkBrep (Some 9) true [(11, false); (13, true)]) [] [] 1 5 "," ";") (fun n f => readPD186 5 1 n "," ";" f) = PFail.
Proof. vm_compute. auto. Qed.

(** *** C47: loops *)

Theorem c47_loops_lose_data : forall l k seq pd rd, settings_ok pd rd seq k [] -> l <> [] -> Forall ledge_ok l ->
  room k (Z.of_nat (loop_size l)) 0 [] ->
  only_read_as (format508 l [] [] k seq pd rd) (fun n f => readPD508 seq k n pd rd f)
    (fun l' => (loop_size l' + 2 * length l <= loop_size l)%nat).
Proof. exact lost508. Qed.
Print Assumptions c47_loops_lose_data.

Definition loop_ex : list ledge :=
  [mkLedge false (Some 9) 1 true [(true, 11)]; mkLedge false (Some 9) 2 true [(true, 13)]].
Example c47_case : Forall ledge_ok loop_ex /\ written (format508 loop_ex [] [] 1 5 "," ";") = true /\
  back (format508 loop_ex [] [] 1 5 "," ";") (fun n f => readPD508 5 1 n "," ";" f) = PFail.
Proof.
  split; [|vm_compute; auto]. repeat constructor; try discriminate; try (eexists; split; [reflexivity|]); unfold is_int32; cbn; lia.
Qed.

(** *** C48: vertex, edge, shell lists and faces *)

Theorem c48_vertices_round_trip : forall v extras k seq pd rd u, settings_ok pd rd seq k extras -> (0 < u)%Q -> v <> [] ->
  Forall real300 (flat_map pt_reals v) -> room k (3 * Z.of_nat (length v)) 0 extras ->
  round_trip (format502 v extras [] k seq pd rd u) (fun n f => readPD502 seq k n pd rd f)
    seq k (extras_ptrs extras) (fun v' => Forall2 (point_close u) v v').
Proof. exact round502. Qed.
Print Assumptions c48_vertices_round_trip.

Theorem c48_edges_round_trip : forall l extras k seq pd rd, settings_ok pd rd seq k extras -> l <> [] -> Forall edge_ok l ->
  room k (5 * Z.of_nat (length l)) 0 extras ->
  round_trip (format504 l extras [] k seq pd rd) (fun n f => readPD504 seq k n pd rd f)
    seq k (extras_ptrs extras) (fun l' => l' = l).
Proof. exact round504. Qed.
Print Assumptions c48_edges_round_trip.

Theorem c48_faces_round_trip : forall s o l extras k seq pd rd, settings_ok pd rd seq k extras -> any_ptr s = true -> l <> [] ->
  Forall (fun v => any_ptr v = true) l -> room k (Z.of_nat (length l)) 0 extras ->
  round_trip (format510 (mkFace (Some s) o l) extras [] k seq pd rd) (fun n f => readPD510 seq k n pd rd f)
    seq k (extras_ptrs extras) (fun b => b = mkFace (Some s) o l).
Proof. exact round510. Qed.
Print Assumptions c48_faces_round_trip.

Theorem c48_shells_round_trip : forall l extras k seq pd rd, settings_ok pd rd seq k extras -> l <> [] ->
  Forall (fun p => any_ptr (fst p) = true) l -> room k (2 * Z.of_nat (length l)) 0 extras ->
  round_trip (format514 l extras [] k seq pd rd) (fun n f => readPD514 seq k n pd rd f) seq k (extras_ptrs extras)
    (fun l' => l' = l).
Proof. exact round514. Qed.
Print Assumptions c48_shells_round_trip.

Example c48_case : let e := mkEdge (Some 9) (Some 11) 1 (Some 11) 2 in
  got (back (format502 [(1, 2, 3); (1 # 2, 0, -1); (7, 8, 9)]%Q opts [] 1 5 "," ";" (1 # 1000)) (fun n f => readPD502 5 1 n "," ";" f)) [3; 7]
    (fun v => sameQ (flat_map pt_reals v) [1; 2; 3; 1 # 2; 0; -1; 7; 8; 9]%Q) = true /\
  edge_ok e /\
  back (format504 [e; e] opts [] 1 5 "," ";") (fun n f => readPD504 5 1 n "," ";" f) = POk ([e; e], [3; 7], true) /\
  back (format510 (mkFace (Some 9) true [11; 13]) opts [] 1 5 "," ";") (fun n f => readPD510 5 1 n "," ";" f) =
    POk (mkFace (Some 9) true [11; 13], [3; 7], true) /\
  back (format514 [(9, true); (11, false)] opts [] 1 5 "," ";") (fun n f => readPD514 5 1 n "," ";" f) =
    POk ([(9, true); (11, false)], [3; 7], true).
Proof.
  cbv zeta. split; [vm_compute; reflexivity|]. split; [|vm_compute; auto].
  split; [reflexivity|]. repeat constructor; unfold is_int32; cbn; lia.
Qed.

(** *** C49: rational B-spline curves and surfaces *)

Theorem c49_curves_round_trip : forall c i j k extras n seq pd rd, settings_ok pd rd seq n extras -> ncurve_ok c -> Forall real300 [i; j; k] ->
  room n (ncurve_size c) 0 extras ->
  round_trip (format126 c i j k extras [] n seq pd rd) (fun m f => readPD126 seq n m pd rd f)
    seq n (extras_ptrs extras)
    (fun a => ncurve_close c (fst a) /\
       if nth 0 (n_props c) 0 =? 1 then direction_close nurbs_res i j k (snd a) else snd a = Exact 0 0 1).
Proof. exact round126. Qed.
Print Assumptions c49_curves_round_trip.

Theorem c49_surfaces_round_trip : forall s extras n seq pd rd, settings_ok pd rd seq n extras -> nsurf_ok s ->
  room n (nsurf_size s) 0 extras ->
  round_trip (format128 s extras [] n seq pd rd) (fun m f => readPD128 seq n m pd rd f)
    seq n (extras_ptrs extras) (nsurf_close s).
Proof. exact round128. Qed.
Print Assumptions c49_surfaces_round_trip.

(** A quarter of a circle, and a bilinear patch. *)
Definition curve_ex : ncurve := mkNc 2 2 [1; 0; 0; 0] [0; 0; 0; 1; 1; 1]%Q [1; 7071 # 10000; 1]%Q [(1, 0, 0); (1, 1, 0); (0, 1, 0)]%Q 0 1.
Definition surf_ex : nsurf := mkNs 1 1 1 1 [0; 0; 1; 0; 0] [0; 0; 1; 1]%Q [0; 0; 1; 1]%Q [] [(0, 0, 0); (1, 0, 0); (0, 1, 0); (1, 1, 1 # 2)]%Q 0 1 0 1.
Example c49_case : ncurve_ok curve_ex /\ nsurf_ok surf_ex /\
  got (back (format126 curve_ex 0 0 1 opts [] 1 5 "," ";") (fun n f => readPD126 5 1 n "," ";" f)) [3; 7]
    (fun a => sameQ (n_knots (fst a)) (n_knots curve_ex) && sameQ (n_wts (fst a)) (n_wts curve_ex) &&
       sameQ (flat_map pt_reals (n_pts (fst a))) (flat_map pt_reals (n_pts curve_ex)) && (n_K (fst a) =? 2)) = true /\
  got (back (format128 surf_ex opts [] 1 5 "," ";") (fun n f => readPD128 5 1 n "," ";" f)) [3; 7]
    (fun s => sameQ (s_knots1 s) (s_knots1 surf_ex) && sameQ (flat_map pt_reals (s_pts s)) (flat_map pt_reals (s_pts surf_ex))) = true.
Proof.
  split; [|split; [|vm_compute; auto]].
  - constructor; try reflexivity; try (cbn; lia).
    + repeat apply Forall_cons; auto.
    + cbn. split; [reflexivity|]. repeat apply Forall_cons; auto; vm_compute; discriminate.
    + repeat apply Forall_cons; auto; vm_compute; discriminate.
  - constructor; try reflexivity; try (cbn; lia).
    + repeat apply Forall_cons; auto.
    + repeat apply Forall_cons; auto; vm_compute; discriminate.
Qed.

(** *** C50: conics, swept surfaces, curves on surfaces, solids *)

Theorem c50_conics_round_trip : forall c extras k seq pd rd, settings_ok pd rd seq k extras -> Forall real300 (conic_reals c) ->
  room k 11 0 extras ->
  round_trip (format104 c extras [] k seq pd rd) (fun n f => readPD104 seq k n pd rd f) seq k (extras_ptrs extras)
    (fun c' => Forall2 (real_close conic_res) (conic_reals c) (conic_reals c')).
Proof. exact round104. Qed.
Print Assumptions c50_conics_round_trip.

Theorem c50_revolutions_round_trip : forall l c sa ta extras k seq pd rd, settings_ok pd rd seq k extras -> any_ptr l = true -> any_ptr c = true ->
  real300 sa -> real300 ta -> room k 2 0 extras ->
  round_trip (format120 (mkRev (Some l) (Some c) sa ta) extras [] k seq pd rd) (fun n f => readPD120 seq k n pd rd f)
    seq k (extras_ptrs extras)
    (fun r => rv_axis r = Some l /\ rv_curve r = Some c /\ real_close angle_res sa (rv_start r) /\ real_close angle_res ta (rv_end r)).
Proof. exact round120. Qed.
Print Assumptions c50_revolutions_round_trip.

Theorem c50_tabulated_cylinders_round_trip : forall c x y z extras k seq pd rd u, settings_ok pd rd seq k extras -> (0 < u)%Q -> extra_ok c = true ->
  Forall real300 [x; y; z] -> room k 3 0 extras ->
  round_trip (format122 (mkTab (Some c) x y z) extras [] k seq pd rd u) (fun n f => readPD122 seq k n pd rd f)
    seq k (extras_ptrs extras)
    (fun t => tc_curve t = Some c /\ Forall2 (real_close u) [x; y; z] [tc_x t; tc_y t; tc_z t]).
Proof. exact round122. Qed.
Print Assumptions c50_tabulated_cylinders_round_trip.

Theorem c50_curves_on_surfaces_round_trip : forall crtn s b c pref extras k seq pd rd, settings_ok pd rd seq k extras -> 0 <= crtn <= 3 -> 0 <= pref <= 3 ->
  extra_ok s = true -> optp b -> optp c -> (b <> None \/ c <> None) -> room k 1 0 extras ->
  round_trip (format142 (mkOn crtn (Some s) b c pref) extras [] k seq pd rd) (fun n f => readPD142 seq k n pd rd f)
    seq k (extras_ptrs extras)
    (fun o => o = mkOn crtn (Some s) b c (force_pref b c pref)).
Proof. exact round142. Qed.
Print Assumptions c50_curves_on_surfaces_round_trip.

Theorem c50_cylinders_round_trip : forall c i j k extras n seq pd rd u,
  settings_ok pd rd seq n extras -> (0 < u)%Q -> Forall real300 (cyl_reals c ++ [i; j; k]) ->
  (1 # 100000000 <= cy_h c)%Q -> (1 # 100000000 <= cy_r c)%Q ->
  ((1002 # 1000) * u <= cy_h c)%Q -> ((1002 # 1000) * u <= cy_r c)%Q -> room n 8 0 extras ->
  round_trip (format154 c i j k extras [] n seq pd rd u) (fun m f => readPD154 seq n m pd rd u f)
    seq n (extras_ptrs extras)
    (fun a => Forall2 (real_close u) (cyl_reals c) (cyl_reals (fst a)) /\ direction_close u i j k (snd a)).
Proof. exact round154. Qed.
Print Assumptions c50_cylinders_round_trip.

Theorem c50_extrusions_round_trip : forall c l i j k extras n seq pd rd u,
  settings_ok pd rd seq n extras -> (0 < u)%Q -> any_ptr c = true -> Forall real300 [l; i; j; k] -> room n 5 0 extras ->
  round_trip (format164 (mkExt (Some c) l) i j k extras [] n seq pd rd u) (fun m f => readPD164 seq n m pd rd f)
    seq n (extras_ptrs extras)
    (fun a => ex_curve (fst a) = Some c /\ real_close u l (ex_len (fst a)) /\ direction_close u i j k (snd a)).
Proof. exact round164. Qed.
Print Assumptions c50_extrusions_round_trip.

Example c50_case : let u := 1 # 1000 in
  got (back (format104 (mkConic 1 0 4 0 0 (-4) 0 2 0 0 1) opts [] 1 5 "," ";") (fun n f => readPD104 5 1 n "," ";" f)) [3; 7]
    (fun c => sameQ (conic_reals c) [1; 0; 4; 0; 0; -4; 0; 2; 0; 0; 1]%Q) = true /\
  got (back (format120 (mkRev (Some 9) (Some 11) 0 (31416 # 10000)) opts [] 1 5 "," ";") (fun n f => readPD120 5 1 n "," ";" f)) [3; 7]
    (fun r => (ptr0 (rv_axis r) =? 9) && (ptr0 (rv_curve r) =? 11) && sameQ [rv_start r; rv_end r]%Q [0; 31416 # 10000]%Q) = true /\
  got (back (format122 (mkTab (Some 9) 1 2 3) opts [] 1 5 "," ";" u) (fun n f => readPD122 5 1 n "," ";" f)) [3; 7]
    (fun r => (ptr0 (tc_curve r) =? 9) && sameQ [tc_x r; tc_y r; tc_z r]%Q [1; 2; 3]%Q) = true /\
  back (format142 (mkOn 1 (Some 9) None (Some 11) 3) opts [] 1 5 "," ";") (fun n f => readPD142 5 1 n "," ";" f) =
    POk (mkOn 1 (Some 9) None (Some 11) 2, [3; 7], true) /\
  got (back (format154 (mkCyl 10 2 1 2 3) 0 0 1 opts [] 1 5 "," ";" u) (fun n f => readPD154 5 1 n "," ";" u f)) [3; 7]
    (fun a => sameQ (cyl_reals (fst a)) [10; 2; 1; 2; 3]%Q) = true /\
  got (back (format164 (mkExt (Some 9) 10) 0 1 0 opts [] 1 5 "," ";" u) (fun n f => readPD164 5 1 n "," ";" f)) [3; 7]
    (fun a => (ptr0 (ex_curve (fst a)) =? 9) && sameQ [ex_len (fst a)]%Q [10]%Q) = true.
Proof. vm_compute. auto 10. Qed.

(** *** C51: thin cylinders *)

Theorem c51_thin_cylinders_change_height : forall c i j k extras n seq pd rd u,
  settings_ok pd rd seq n extras -> (0 < u)%Q -> Forall real300 (cyl_reals c ++ [i; j; k]) ->
  (1 # 100000000 <= cy_h c)%Q -> (1 # 100000000 <= cy_r c)%Q -> (cy_r c <= (998 # 1000) * u)%Q -> room n 8 0 extras ->
  round_trip (format154 c i j k extras [] n seq pd rd u) (fun m f => readPD154 seq n m pd rd u f)
    seq n (extras_ptrs extras)
    (fun a => cy_h (fst a) = u /\ real_close u (cy_r c) (cy_r (fst a))).
Proof. exact round154_small. Qed.
Print Assumptions c51_thin_cylinders_change_height.

Example c51_case : let u := 1 # 1000 in
  got (back (format154 (mkCyl 10 (1 # 10000) 1 2 3) 0 0 1 opts [] 1 5 "," ";" u) (fun n f => readPD154 5 1 n "," ";" u f)) [3; 7]
    (fun a => sameQ (cyl_reals (fst a)) [1 # 1000; 1 # 10000; 1; 2; 3]%Q) = true.
Proof. vm_compute. reflexivity. Qed.

(** *** C52: colors *)

Theorem c52_colors_round_trip : forall c extras k seq pd rd, settings_ok pd rd seq k extras ->
  shade_ok (co_r c) -> shade_ok (co_g c) -> shade_ok (co_b c) -> (length (co_name c) <= 60)%nat -> ~ In nl (co_name c) ->
  (co_name c = [] -> extras = []) -> room k 4 2 extras ->
  round_trip (format314 c extras [] k seq pd rd) (fun n f => readPD314 seq k n pd rd f)
    seq k (extras_ptrs extras) (shades c).
Proof. exact round314. Qed.
Print Assumptions c52_colors_round_trip.

Theorem c52_long_names_never_read : forall c k seq pd rd, settings_ok pd rd seq k [] -> (61 <= length (co_name c))%nat -> room k 4 0 [] ->
  only_read_as (format314 c [] [] k seq pd rd) (fun n f => readPD314 seq k n pd rd f) (fun _ => False).
Proof. exact lost314. Qed.
Print Assumptions c52_long_names_never_read.

Example c52_case :
  got (back (format314 (mkColor 50 (200 # 1) (25 # 2) (S2 "teal, dark")) opts [] 1 5 "," ";") (fun n f => readPD314 5 1 n "," ";" f)) [3; 7]
    (fun c => sameQ [co_r c; co_g c; co_b c]%Q [50; 20; 25 # 2]%Q) = true /\
  format314 (mkColor 50 50 50 (repeat "x"%char 61)) [] [] 1 5 "," ";" = POk (mkPd [] 1 0) /\
  back (format314 (mkColor 50 50 50 (repeat "x"%char 61)) [] [] 1 5 "," ";") (fun n f => readPD314 5 1 n "," ";" f) = PFail.
Proof. vm_compute. auto. Qed.

(** *** C53: name properties and subfigure instances *)

Theorem c53_names_round_trip : forall nm extras k seq pd rd, settings_ok pd rd seq k extras ->
  Z.of_nat (length nm) <= int_max -> ~ In nl nm ->
  k + str_cost nm + 2 * Z.of_nat (length extras) + 6 <= 9999999 ->
  round_trip (format406 15 nm extras [] k seq pd rd) (fun n f => readPD406 seq k n pd rd f)
    seq k (extras_ptrs extras) (fun s => s = nm).
Proof. exact round406. Qed.
Print Assumptions c53_names_round_trip.

Theorem c53_instances_round_trip : forall d x y z s extras k seq pd rd u, settings_ok pd rd seq k extras -> (0 < u)%Q -> extra_ok d = true ->
  Forall real300 [x; y; z; s] -> room k 4 0 extras ->
  round_trip (format408 (mkInst (Some d) x y z s) extras [] k seq pd rd u) (fun n f => readPD408 seq k n pd rd f)
    seq k (extras_ptrs extras)
    (fun t => in_def t = Some d /\ Forall2 (real_close u) [x; y; z; s] [in_x t; in_y t; in_z t; in_s t]).
Proof. exact round408. Qed.
Print Assumptions c53_instances_round_trip.

(** A name of a hundred delimiters, which takes two lines. *)
Example c53_case :
  back (format406 15 (repeat ";"%char 100) opts [] 1 5 "," ";") (fun n f => readPD406 5 1 n "," ";" f) = POk (repeat ";"%char 100, [3; 7], true) /\
  got (back (format408 (mkInst (Some 9) 1 2 3 (1 # 2)) opts [] 1 5 "," ";" (1 # 1000)) (fun n f => readPD408 5 1 n "," ";" f)) [3; 7]
    (fun t => (ptr0 (in_def t) =? 9) && sameQ [in_x t; in_y t; in_z t; in_s t]%Q [1; 2; 3; 1 # 2]%Q) = true.
Proof. vm_compute. auto. Qed.
