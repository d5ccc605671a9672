(** The whole of [IGES::Read], /repo/src/iges/iges.cpp L422-624: the records read
    (FileModel), the pointers made from the numbers in them (AssocModel), the pending
    conversion of units (UnitModel) and Cull (GraphModel). *)

From Coq Require Import QArith.
From Verif Require Import Base IoModel PdModel EntModel EntModel2 EntModel3 DeModel GlobalModel PayloadModel FileModel UnitModel.
From Verif Require GraphModel AssocModel.
Open Scope Z_scope.

(** ** The numbers which [associate] finds in the members *)

(** Those of one entity: 120 [iL], [iC] (entity120.cpp L63-148), 122 [iDE] (L63-115),
    142 [iSPTR], [iBPTR], [iCPTR] (L71-180), 144 [iPTS], [iPTO] (L127-282), 164 [iPtr]
    (L65-130), 186 [mDEshell] (L76-176), 408 [iDE] (L65-124), 510 [mDEsurf]
    (L75-154).  0 stands for a member which was not set. *)
Definition slot_numbers {D} (p : payload D) : list Z :=
  match p with
  | P120 r => [ptr0 (rv_axis r); ptr0 (rv_curve r)]
  | P122 t => [ptr0 (tc_curve t)]
  | P142 o => [ptr0 (os_surf o); ptr0 (os_b o); ptr0 (os_c o)]
  | P144 t => [ptr0 (tr_surf t); ptr0 (tr_outer t)]
  | P164 x _ => [ptr0 (ex_curve x)]
  | P186 b => [ptr0 (br_shell b)]
  | P408 i => [ptr0 (in_def i)]
  | P510 f => [ptr0 (fc_surf f)]
  | _ => []
  end.

(** The lists: 102 [iCurves] (entity102.cpp L78-301), 144 [iPTI] (L127-282), 180 the operands
    among [nodes] (L117-185), 186
    [ivoids] (L76-176), 308 [iDE] (L74-135), 510 [iloops] (L75-154), 514 [ifaces] (L66-124). *)
Definition item_numbers {D} (p : payload D) : list Z :=
  match p with
  | P102 l => l
  | P144 t => tr_inner t
  | P180 l => flat_map (fun n => match n with Op _ => [] | Arg q => [ptr0 q] end) l
  | P186 b => map fst (br_voids b)
  | P308 s => sf_ents s
  | P510 f => fc_loops f
  | P514 l => map fst l
  | _ => []
  end.

(** 504 [deItems], entity504.cpp L95-166. *)
Definition edge_numbers {D} (p : payload D) : list (Z * (Z * Z) * (Z * Z)) :=
  match p with
  | P504 l => map (fun e => (ptr0 (ed_curv e), (ptr0 (ed_svp e), ed_sv e), (ptr0 (ed_tvp e), ed_tv e))) l
  | _ => []
  end.

(** 508 [deItems], entity508.cpp L129-205. *)
Definition loop_numbers {D} (p : payload D) : list (Z * list Z) :=
  match p with
  | P508 l => map (fun e => (ptr0 (le_data e), map snd (le_curves e))) l
  | _ => []
  end.

(** 502 [vertices], entity502.h. *)
Definition point_count {D} (p : payload D) : nat := match p with P502 v => length v | _ => O end.

(** The members of the base class, iges_entity.h, after [readDE] and [readPD]; those
    of the class follow.  An entity of an unsupported type has none of the latter. *)
Definition wants_of (r : rent) : AssocModel.wants :=
  let d := n_dir r in
  let with_data {A} (x : A) (f : payload direction -> A) := match n_data r with Some p => f p | None => x end in
  AssocModel.mkWants (n_type r) (i_form d) (i_dep d) (with_data O point_count)
    [i_struct d; i_font d; i_level d; i_view d; i_trans d; i_lassoc d; i_color d]
    (n_ptrs r) (with_data [] slot_numbers) (with_data [] item_numbers) (with_data [] edge_numbers) (with_data [] loop_numbers).

(** ** The conversion *)

(** The entity at place [i]: its data, [pTransform] and the first of [refs]. *)
Definition item_at (g : GraphModel.graph) (i : nat) (r : rent) : item direction :=
  match GraphModel.look g i with
  | Some n => mkItem (n_data r) (nth 4 (GraphModel.n_des n) None) (hd_error (GraphModel.n_refs n))
  | None => mkItem (n_data r) None None
  end.
Fixpoint items_from (g : GraphModel.graph) (i : nat) (rs : list rent) : list (item direction) :=
  match rs with [] => [] | r :: rest => item_at g i r :: items_from g (S i) rest end.

(** L613-618: what [rescale] returns is ignored; [None] = it does not return. *)
Fixpoint convert_each (es : list (item direction)) (i : nat) (s : Q) (l : list (item direction)) : option (list (item direction)) :=
  match l with
  | [] => Some []
  | it :: r =>
    match rescale_item es i s it with
    | PCrash => None
    | PFail => option_map (cons it) (convert_each es (S i) s r)
    | POk it' => option_map (cons it') (convert_each es (S i) s r)
    end
  end.

(** ** Read *)

(** The file was refused and the model cleared; its entities could not be connected
    and stay as they are (L608); the model was read: Start Section, settings,
    Directory Entries, entities in their places, and the pointers among those left by
    Cull. *)
Inductive outcome :=
| Refused
| Unconnected (g : GraphModel.graph)
| Loaded (start : list str) (glob : globals) (dirs : list dirin) (ents : list (item direction)) (g : GraphModel.graph)
| Undefined
| Endless.

(** L422-624.  [closed] and [joins] as in AssocModel. *)
Definition Read (closed : GraphModel.graph -> nat -> bool) (joins : GraphModel.graph -> nat -> nat -> bool)
  (lines : list str) (n : Z) (g0 : globals) (name : str) (f : stream) : outcome :=
  match read_file lines n g0 name f with
  | PCrash => Undefined
  | PFail => Refused
  | POk (start, glob, rs, _) =>
    let qs := map wants_of rs in
    let gr := AssocModel.loaded_graph qs in
    match AssocModel.associate_all closed joins (length qs) qs gr [] (GraphModel.g_ents gr) with
    | None => Undefined
    | Some (false, gr1) => Unconnected gr1
    | Some (true, gr1) =>
      let es := items_from gr1 0 rs in
      match (if convert glob then convert_each es 0 (cf glob) es else Some es) with
      | None => Endless
      | Some es1 =>
        match GraphModel.Cull gr1 false with
        | None => Undefined
        | Some gr2 => Loaded start glob (map n_dir rs) es1 gr2
        end
      end
    end
  end.
