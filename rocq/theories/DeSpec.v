(** Vocabulary for the claims about Directory Entries. *)

From Verif Require Import Base Spec IoModel DeModel.
Open Scope Z_scope.

(** A pointer is NULL or refers to an entity with a sequence number. *)
Definition seq_ptr (p : option Z) : Prop := match p with Some s => 1 <= s <= 9999997 | None => True end.

(** What the setters guarantee about an entity: its pointers refer to numbered
    entities, the flags are enumerators; and the label is a single line. *)
Record dir_sane (d : dir) : Prop := {
  sane_struct : seq_ptr (d_struct d); sane_font : seq_ptr (d_pfont d); sane_level : seq_ptr (d_plevel d);
  sane_view : seq_ptr (d_view d); sane_trans : seq_ptr (d_trans d); sane_lassoc : seq_ptr (d_lassoc d);
  sane_color : seq_ptr (d_pcolor d);
  sane_dep : 0 <= d_dep d <= 3; sane_use : 0 <= d_use d <= 6; sane_hier : 0 <= d_hier d <= 2;
  sane_label : ~ In nl (firstn 8 (d_label d)) }.

(** What the reader asks of every Directory Entry. *)
Record dir_readable (d : dir) : Prop := {
  rd_seq : 1 <= d_seq d <= 9999996; rd_odd : Z.Odd (d_seq d);
  rd_pdata : 0 <= d_pdata d;
  rd_level : d_plevel d = None;
  rd_count : 1 <= d_count d \/ (d_count d = 0 /\ d_type d = 0);
  rd_form : 0 <= d_form d; rd_weight : 0 <= d_weight d; rd_sub : 0 <= d_sub d }.

(** A field holding either the negated number of an entity or a plain number,
    which counts as 0 outside of [lo..hi]. *)
Definition neg_or_plain (p : option Z) (lo hi v : Z) (i : Z) : Prop :=
  (forall s, p = Some s -> i = - s) /\
  (p = None -> lo <= v <= hi -> i = v) /\
  (p = None -> v < lo \/ hi < v -> i = 0).

(** A field holding the number of an entity or 0. *)
Definition ptr_or_zero (p : option Z) (i : Z) : Prop :=
  (forall s, p = Some s -> i = s) /\ (p = None -> i = 0).

(** [s] without its leading blanks is [t]. *)
Definition unindented (s t : str) : Prop :=
  exists b, s = b ++ t /\ blanks b /\ (forall r, t <> sp :: r).

(** [i] holds everything [d] did; line weights are limited to [maxgrad]. *)
Record dir_kept (maxgrad : Z) (d : dir) (i : dirin) : Prop := {
  k_seq : i_seq i = d_seq d; k_pdata : i_pdata i = d_pdata d; k_count : i_count i = d_count d;
  k_struct : neg_or_plain (d_struct d) 0 0 0 (i_struct i);
  k_font : neg_or_plain (d_pfont d) 0 5 (d_font d) (i_font i);
  k_level : (0 <= d_level d -> i_level i = d_level d) /\ (d_level d < 0 -> i_level i = 0);
  k_view : ptr_or_zero (d_view d) (i_view i);
  k_trans : ptr_or_zero (d_trans d) (i_trans i);
  k_lassoc : ptr_or_zero (d_lassoc d) (i_lassoc i);
  k_visible : i_visible i = d_visible d; k_dep : i_dep i = d_dep d; k_use : i_use i = d_use d;
  k_hier : i_hier i = d_hier d;
  k_weight : i_weight i = Z.min (d_weight d) maxgrad;
  k_color : neg_or_plain (d_pcolor d) 0 8 (d_color d) (i_color i);
  k_form : i_form i = d_form d; k_sub : i_sub i = d_sub d;
  k_label : unindented (firstn 8 (d_label d)) (i_label i) }.

(** *** What the single entity types make of it *)

(** Fields which do not apply to every type of entity. *)
Inductive dfield := FStruct | FFont | FLevel | FView | FTrans | FLassoc | FBlank | FDep | FUse | FHier | FWeight | FColor.

Definition fval (f : dfield) (i : dirin) : Z :=
  match f with
  | FStruct => i_struct i | FFont => i_font i | FLevel => i_level i | FView => i_view i | FTrans => i_trans i
  | FLassoc => i_lassoc i | FBlank => if i_visible i then 0 else 1 | FDep => i_dep i | FUse => i_use i
  | FHier => i_hier i | FWeight => i_weight i | FColor => i_color i
  end.

(** Fields with a fixed value, whatever the file says, and the forms accepted
    ([None] = all). *)
Definition type_table : list (Z * (list (dfield * Z) * option (list Z))) :=
  [(100, ([(FStruct, 0); (FHier, 0)], Some [0]));
   (102, ([(FStruct, 0)], Some [0]));
   (104, ([(FStruct, 0); (FHier, 0)], Some [1; 2; 3]));
   (110, ([(FStruct, 0); (FHier, 0)], Some [0; 1; 2]));
   (120, ([(FStruct, 0); (FHier, 0)], Some [0]));
   (122, ([(FStruct, 0); (FHier, 0)], Some [0]));
   (124, ([(FStruct, 0); (FFont, 0); (FLevel, 0); (FView, 0); (FLassoc, 0); (FBlank, 0); (FHier, 0)], None));
   (126, ([(FStruct, 0); (FHier, 0)], Some [0; 1; 2; 3; 4; 5]));
   (128, ([(FStruct, 0); (FHier, 0)], Some [0; 1; 2; 3; 4; 5; 6; 7; 8; 9]));
   (142, ([(FStruct, 0); (FUse, 0); (FHier, 0)], Some [0]));
   (144, ([(FStruct, 0); (FUse, 0); (FHier, 0)], Some [0]));
   (154, ([(FStruct, 0); (FUse, 0); (FHier, 0)], Some [0]));
   (164, ([(FStruct, 0); (FUse, 0); (FHier, 0)], Some [0]));
   (180, ([(FStruct, 0); (FUse, 0)], Some [0; 1]));
   (186, ([(FStruct, 0)], Some [0]));
   (308, ([(FStruct, 0); (FUse, 2)], Some [0]));
   (314, ([(FDep, 0); (FUse, 2); (FStruct, 0); (FFont, 0); (FLevel, 0); (FView, 0); (FTrans, 0); (FLassoc, 0);
           (FWeight, 0)], Some [0]));
   (406, ([(FStruct, 0); (FFont, 0); (FView, 0); (FTrans, 0); (FLassoc, 0); (FBlank, 0); (FUse, 0); (FHier, 0)],
          Some [15]));
   (408, ([(FStruct, 0)], Some [0]));
   (502, ([(FStruct, 0); (FHier, 0); (FDep, 1); (FFont, 0); (FView, 0); (FTrans, 0); (FWeight, 0); (FColor, 0)],
          Some [1]));
   (504, ([(FStruct, 0); (FHier, 1); (FDep, 1); (FFont, 0); (FView, 0); (FTrans, 0); (FWeight, 0); (FColor, 0)],
          Some [1]));
   (508, ([(FStruct, 0); (FDep, 1); (FView, 0); (FTrans, 0)], Some [0; 1]));
   (510, ([(FStruct, 0); (FDep, 1); (FFont, 0); (FView, 0); (FTrans, 0); (FWeight, 0); (FColor, 0)], Some [1]));
   (514, ([(FStruct, 0); (FFont, 0); (FView, 0); (FTrans, 0); (FWeight, 0); (FColor, 0)], Some [1]))].

(** The entries for a type of entity; types not in the table are unsupported. *)
Definition fixed_fields (etype : Z) (l : list (dfield * Z)) : Prop :=
  (exists o, In (etype, (l, o)) type_table) \/ (~ In etype (map fst type_table) /\ l = []).
Definition form_accepted (etype form : Z) : Prop :=
  forall l fs, In (etype, (l, Some fs)) type_table -> In form fs.

(** Read by an entity of the type: the fixed fields have their fixed values and
    the rest is kept. *)
Definition kept_by_type (maxgrad : Z) (d : dir) (i : dirin) : Prop :=
  exists i0 l, dir_kept maxgrad d i0 /\ fixed_fields (d_type d) l /\
    (forall f, (exists c, In (f, c) l /\ fval f i = c) \/ (~ In f (map fst l) /\ fval f i = fval f i0)) /\
    i_seq i = i_seq i0 /\ i_pdata i = i_pdata i0 /\ i_count i = i_count i0 /\ i_form i = i_form i0 /\
    i_label i = i_label i0 /\ i_sub i = i_sub i0.

(** Reading the Directory Entry at the beginning of a stream as an entity of type
    [etype]: one record, then the method of that type. *)
Definition read_dir (etype maxgrad : Z) (f : stream) : pres (dirin * stream) :=
  do (rec, f1) <- ReadIGESRecord f; readDE etype maxgrad rec f1.
Definition read_dir_base (etype maxgrad : Z) (f : stream) : pres (dirin * stream) :=
  do (rec, f1) <- ReadIGESRecord f; readDE_base etype maxgrad rec f1.
