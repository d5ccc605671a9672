(** Vocabulary for the claims about whole files: documents which can be written and
    read, and what is left of them. *)

From Coq Require Import QArith Qabs.
From Verif Require Import Base Num Spec IoModel BuildFacts PdModel PdSpec PdFacts EntModel EntModel2 EntModel3 EntSpec DeModel DeSpec PayloadModel
  GlobalModel GlobSpec FileModel FileSpec.
Open Scope Z_scope.

(** *** The data of an entity *)

(** The data can be written with the resolution [u] and read with the resolution
    [u']; each line repeats the conditions of the claim about that type of entity
    (C26 to C30, C46, C48 to C50, C52, C53).  Boolean trees (C29), loops (C47) and
    solids with voids (C46) do not survive. *)
Definition data_ok (u' : Q) (u : Q) (form : Z) (extras : list (Z * Z)) (p : payload (Q * Q * Q)) : Prop :=
  match p with
  | P100 a => Forall real300 (arc_reals a) /\
      forall a', Forall2 (real_close u) (arc_reals a) (arc_reals a') ->
        radii_ok u' (a_xc a') (a_yc a') (a_xs a') (a_ys a') (a_xe a') (a_ye a')
  | P102 l => l <> [] /\ Forall (fun v => extra_ok v = true) l
  | P104 c => Forall real300 (conic_reals c)
  | P110 l => Forall real300 (line_reals l)
  | P120 r => (exists a, rv_axis r = Some a /\ any_ptr a = true) /\ (exists c, rv_curve r = Some c /\ any_ptr c = true) /\
      real300 (rv_start r) /\ real300 (rv_end r)
  | P122 t => (exists c, tc_curve t = Some c /\ extra_ok c = true) /\ Forall real300 [tc_x t; tc_y t; tc_z t]
  | P124 m => Forall real300 (xform_reals m)
  | P126 c (i, j, k) => ncurve_ok c /\ Forall real300 [i; j; k]
  | P128 s => nsurf_ok s
  | P142 o => 0 <= os_crtn o <= 3 /\ 0 <= os_pref o <= 3 /\ (exists s, os_surf o = Some s /\ extra_ok s = true) /\
      optp (os_b o) /\ optp (os_c o) /\ (os_b o <> None \/ os_c o <> None)
  | P144 t => (exists s, tr_surf t = Some s /\ extra_ok s = true) /\ (tr_n1 t = 0 \/ tr_n1 t = 1) /\
      (exists b, tr_outer t = Some b /\ extra_ok b = true) /\ Forall (fun v => extra_ok v = true) (tr_inner t)
  | P154 c (i, j, k) => Forall real300 [cy_h c; cy_r c; cy_x c; cy_y c; cy_z c; i; j; k] /\
      (1 # 100000000 <= cy_h c)%Q /\ (1 # 100000000 <= cy_r c)%Q /\
      ((1002 # 1000) * u' <= cy_h c)%Q /\ ((1002 # 1000) * u' <= cy_r c)%Q
  | P164 x (i, j, k) => (exists c, ex_curve x = Some c /\ any_ptr c = true) /\ Forall real300 [ex_len x; i; j; k]
  | P180 _ => False
  | P186 b => (exists s, br_shell b = Some s /\ any_ptr s = true) /\ br_voids b = []
  | P308 s => 0 <= sf_depth s <= 2147483647 /\ sf_ents s <> [] /\ Forall (fun v => extra_ok v = true) (sf_ents s) /\
      Z.of_nat (length (sf_name s)) <= int_max /\ ~ In nl (sf_name s)
  | P314 c => shade_ok (co_r c) /\ shade_ok (co_g c) /\ shade_ok (co_b c) /\ (length (co_name c) <= 60)%nat /\
      ~ In nl (co_name c) /\ (co_name c = [] -> extras = [])
  | P406 nm => form = 15 /\ Z.of_nat (length nm) <= int_max /\ ~ In nl nm
  | P408 i => (exists d, in_def i = Some d /\ extra_ok d = true) /\ Forall real300 [in_x i; in_y i; in_z i; in_s i]
  | P502 v => v <> [] /\ Forall real300 (flat_map pt_reals v)
  | P504 l => l <> [] /\ Forall edge_ok l
  | P508 _ => False
  | P510 f => (exists s, fc_surf f = Some s /\ any_ptr s = true) /\ fc_loops f <> [] /\
      Forall (fun v => any_ptr v = true) (fc_loops f)
  | P514 l => l <> [] /\ Forall (fun q => any_ptr (fst q) = true) l
  end.

(** What is read in place of the data. *)
Definition data_close (u : Q) (p : payload (Q * Q * Q)) (p' : payload direction) : Prop :=
  match p, p' with
  | P100 a, P100 b => Forall2 (real_close u) (arc_reals a) (arc_reals b)
  | P102 l, P102 l' => l' = l
  | P104 c, P104 c' => Forall2 (real_close conic_res) (conic_reals c) (conic_reals c')
  | P110 l, P110 l' => Forall2 (real_close u) (line_reals l) (line_reals l')
  | P120 r, P120 r' => rv_axis r' = rv_axis r /\ rv_curve r' = rv_curve r /\
      real_close angle_res (rv_start r) (rv_start r') /\ real_close angle_res (rv_end r) (rv_end r')
  | P122 t, P122 t' => tc_curve t' = tc_curve t /\ Forall2 (real_close u) [tc_x t; tc_y t; tc_z t] [tc_x t'; tc_y t'; tc_z t']
  | P124 m, P124 m' => Forall2 (real_close u) (xform_reals m) (xform_reals m')
  | P126 c (i, j, k), P126 c' d => ncurve_close c c' /\
      if nth 0 (n_props c) 0 =? 1 then direction_close nurbs_res i j k d else d = Exact 0 0 1
  | P128 s, P128 s' => nsurf_close s s'
  | P142 o, P142 o' => o' = mkOn (os_crtn o) (os_surf o) (os_b o) (os_c o) (force_pref (os_b o) (os_c o) (os_pref o))
  | P144 t, P144 t' => t' = t
  | P154 c (i, j, k), P154 c' d => Forall2 (real_close u) [cy_h c; cy_r c; cy_x c; cy_y c; cy_z c] [cy_h c'; cy_r c'; cy_x c'; cy_y c'; cy_z c'] /\ direction_close u i j k d
  | P164 x (i, j, k), P164 x' d => ex_curve x' = ex_curve x /\ real_close u (ex_len x) (ex_len x') /\ direction_close u i j k d
  | P186 b, P186 b' => b' = b
  | P308 s, P308 s' => s' = s
  | P314 c, P314 c' => shades c c'
  | P406 n, P406 n' => n' = n
  | P408 i, P408 i' => in_def i' = in_def i /\ Forall2 (real_close u) [in_x i; in_y i; in_z i; in_s i] [in_x i'; in_y i'; in_z i'; in_s i']
  | P502 v, P502 v' => Forall2 (point_close u) v v'
  | P504 l, P504 l' => l' = l
  | P510 f, P510 f' => f' = f
  | P514 l, P514 l' => l' = l
  | _, _ => False
  end.

(** *** Sequence numbers *)

(** Numbers in a record behind its fixed part, and lines for its texts. *)
Definition items {D} (p : payload D) : Z :=
  match p with
  | P100 _ => 7 | P102 l => Z.of_nat (length l) | P104 _ => 11 | P110 _ => 6 | P120 _ => 2 | P122 _ => 3 | P124 _ => 12
  | P126 c _ => ncurve_size c | P128 s => nsurf_size s | P142 _ => 1 | P144 t => Z.of_nat (length (tr_inner t)) + 1
  | P154 _ _ => 8 | P164 _ _ => 5 | P180 l => Z.of_nat (length l) | P186 b => 1 + 2 * Z.of_nat (length (br_voids b))
  | P308 s => Z.of_nat (length (sf_ents s)) | P314 _ => 4 | P406 _ => 0 | P408 _ => 4 | P502 v => 3 * Z.of_nat (length v)
  | P504 l => 5 * Z.of_nat (length l) | P508 l => Z.of_nat (loop_size l) | P510 f => Z.of_nat (length (fc_loops f))
  | P514 l => 2 * Z.of_nat (length l)
  end.
Definition text_lines {D} (p : payload D) : Z :=
  match p with P308 s => str_cost (sf_name s) + 2 | P314 _ => 2 | P406 n => str_cost n | _ => 0 end.

(** An upper bound for the number of lines of an entity without comments. *)
Definition ent_lines (e : ent) : Z :=
  2 * items (e_data e) + text_lines (e_data e) + 2 * Z.of_nat (length (e_extras e)) + 6.

Fixpoint all_lines (es : list ent) : Z :=
  match es with [] => 0 | e :: r => ent_lines e + all_lines r end.

(** *** Entities *)

(** The members which end up in the Directory Entry: no level entity (C19), a form
    of the type (C54), numbers which fit the columns. *)
Definition dir_ok (etype : Z) (d : dir) : Prop :=
  dir_sane d /\ d_plevel d = None /\ 0 <= d_form d <= 99999999 /\ form_accepted etype (d_form d) /\
  0 <= d_weight d <= 99999999 /\ 0 <= d_sub d <= 99999999 /\ d_level d <= 99999999.

(** Entities without comments (C21). *)
Definition ent_ok (u' u : Q) (e : ent) : Prop :=
  dir_ok (type_no (e_data e)) (e_dir e) /\ data_ok u' u (d_form (e_dir e)) (e_extras e) (e_data e) /\
  extras_ok (e_extras e) /\ e_comments e = [].

(** The entity with number [seq], whose parameters occupy [count] lines from
    [pdata], as found by the reader. *)
Definition read_as (u : Q) (maxgrad seq pdata count : Z) (e : ent) (n : rent) : Prop :=
  n_type n = type_no (e_data e) /\ kept_by_type maxgrad (filed seq pdata count e) (n_dir n) /\
  (exists p, n_data n = Some p /\ data_close u (e_data e) p) /\ n_ptrs n = extras_ptrs (e_extras e) /\ n_comments n = [].

(** The entities in order, with consecutive numbers and lines. *)
Inductive all_read_as (u : Q) (maxgrad : Z) : Z -> Z -> list ent -> list rent -> Prop :=
| ra_nil : forall seq k, all_read_as u maxgrad seq k [] []
| ra_cons : forall seq k count e n es ns, 1 <= count <= ent_lines e -> read_as u maxgrad seq k count e n ->
    all_read_as u maxgrad (seq + 2) (k + count) es ns -> all_read_as u maxgrad seq k (e :: es) (n :: ns).

(** *** Documents *)

(** A Start Section which is written as it is but for blanks at the end of lines.
    (C11 describes what becomes of longer lines.) *)
Definition start_ok (l : list str) : Prop :=
  Forall (fun s => (length s <= 72)%nat /\ ~ In nl s) l /\ Z.of_nat (length l) <= 9999999.

(** The lines found: filled up with blanks; one line which names the library when
    there were none. *)
Definition start_read (l l' : list str) : Prop :=
  match l with
  | [] => l' = [padr 72 (S2 "# Created via the free libIGES (https://github.com/cbernardo/libIGES)")]
  | _ => Forall2 (fun s s' => length s' = 72%nat /\ exists b, s' = s ++ b /\ blanks b) l l'
  end.

(** Start Section and settings which can be read back (C11, C12, C14). *)
Definition head_ok (d : doc) (name ver now : str) : Prop :=
  let g := with_name (d_glob d) name in
  start_ok (d_start d) /\ GlobSpec.settings_ok g ver now /\ delims_readable g /\
  ((0 < minResolution g /\ minResolution g < 1 # 1000000000000)%Q \/ (1 # 100000000 <= minResolution g)%Q).

(** The resolution, in millimetres or in units of the file, with which the entities
    of a file with the settings [g] are read (C76). *)
Definition resolution_used (g : globals) (u : Q) : Prop :=
  match applicationNote g with
  | [] => (u == minResolution g)%Q
  | _ => (unit_scale (modelScale g) -> (u == minResolution g * mm_per_unit (unitsFlag g))%Q) /\
         (~ unit_scale (modelScale g) -> (u == minResolution g / modelScale g * mm_per_unit (unitsFlag g))%Q)
  end.

(** A document which [Write] turns into a file that [Read] takes.  The entities are
    read with the resolution which is found in the file (see C76 for what becomes of
    it). *)
Definition doc_ok (d : doc) (name ver now : str) : Prop :=
  let g := with_name (d_glob d) name in
  head_ok d name ver now /\ d_ents d <> [] /\ all_lines (d_ents d) <= 9999998 /\
  forall g', reads_back g ver now g' -> Forall (ent_ok (minResolution g') (minResolution g)) (d_ents d).

(** *** What spoils a file *)

(** Data which are written but refused by the reader: arcs whose radii do not
    agree, rational splines with a weight that is not positive (C73), trimmed
    surfaces without an outer boundary (C30), boolean trees (C29), solids with
    voids (C46). *)
Definition data_refused (u' u : Q) (extras : list (Z * Z)) (p : payload (Q * Q * Q)) : Prop :=
  match p with
  | P100 a => Forall real300 (arc_reals a) /\
      forall a', Forall2 (real_close u) (arc_reals a) (arc_reals a') ->
        ~ radii_ok u' (a_xc a') (a_yc a') (a_xs a') (a_ys a') (a_xe a') (a_ye a')
  | P126 c (i, j, k) => 1 <= n_K c /\ 1 <= n_M c /\ length (n_props c) = 4%nat /\ Forall (fun v => v = 0 \/ v = 1) (n_props c) /\
      Z.of_nat (length (n_knots c)) = 2 + n_K c + n_M c /\ Z.of_nat (length (n_pts c)) = 1 + n_K c /\
      nth 2 (n_props c) 0 = 0 /\ length (n_wts c) = length (n_pts c) /\ Exists (fun w => w < 1 # 100000000)%Q (n_wts c) /\
      Forall real300 (n_knots c ++ n_wts c ++ flat_map pt_reals (n_pts c) ++ [n_v0 c; n_v1 c]) /\ Forall real300 [i; j; k]
  | P128 s => 1 <= s_K1 s /\ 1 <= s_K2 s /\ 1 <= s_M1 s /\ 1 <= s_M2 s /\ length (s_props s) = 5%nat /\
      Forall (fun v => v = 0 \/ v = 1) (s_props s) /\
      Z.of_nat (length (s_knots1 s)) = 2 + s_K1 s + s_M1 s /\ Z.of_nat (length (s_knots2 s)) = 2 + s_K2 s + s_M2 s /\
      Z.of_nat (length (s_pts s)) = (s_K1 s + 1) * (s_K2 s + 1) /\
      nth 2 (s_props s) 0 = 0 /\ length (s_wts s) = length (s_pts s) /\ Exists (fun w => w < 1 # 100000000)%Q (s_wts s) /\
      Forall real300 (s_knots1 s ++ s_knots2 s ++ s_wts s ++ flat_map pt_reals (s_pts s) ++ [s_u0 s; s_u1 s; s_v0 s; s_v1 s])
  | P144 t => (exists s, tr_surf t = Some s /\ extra_ok s = true) /\ (tr_n1 t = 0 \/ tr_n1 t = 1) /\ tr_outer t = None /\
      Forall (fun v => extra_ok v = true) (tr_inner t)
  | P180 l => Forall node_valid l /\ (3 <= length l)%nat /\ balanced l = true
  | P186 b => extras = [] /\ (exists s, br_shell b = Some s /\ extra_ok s = true) /\ br_voids b <> [] /\
      Forall (fun v => extra_ok (fst v) = true) (br_voids b) /\ NoDup (map fst (br_voids b))
  | _ => False
  end.

(** There is a comment, and the first one does not pass for a line of parameters of
    the entity [seq] (C21). *)
Definition spoiling_comment (seq : Z) (cs : list str) : Prop :=
  exists c, first_comment cs = Some c /\ ~ In nl (firstn 72 c) /\ ~ tagged seq (padr 72 (firstn 72 c)).

(** The texts of an entity are free of line breaks. *)
Definition ent_lined (e : ent) : Prop := Forall one_lined (texts_of (e_data e) ++ e_comments e).

(** An entity with the number [seq] whose record is refused. *)
Definition record_refused (u' u : Q) (seq : Z) (e : ent) : Prop :=
  extras_ok (e_extras e) /\
  (data_refused u' u (e_extras e) (e_data e) /\ e_comments e = [] \/
   data_ok u' u (d_form (e_dir e)) (e_extras e) (e_data e) /\ spoiling_comment seq (e_comments e)).

(** A Directory Entry which is refused: a level entity, a form which the type does
    not have, a negative line weight or subscript. *)
Definition dir_refused (e : ent) : Prop :=
  d_plevel (e_dir e) <> None \/ d_form (e_dir e) < 0 \/ ~ form_accepted (type_no (e_data e)) (d_form (e_dir e)) \/
  d_weight (e_dir e) < 0 \/ d_sub (e_dir e) < 0.
