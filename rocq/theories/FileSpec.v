(** What the layout of a whole IGES file means.  Of the model only the records
    holding the data of a document are used. *)

From Coq Require Import QArith.
From Verif Require Import Base Spec DeModel GlobalModel PayloadModel FileModel.
Open Scope Z_scope.

(** Field [i] (counted from 0) of a line of eight column fields holds [n]. *)
Definition field_is (i : nat) (n : Z) (data : str) : Prop :=
  exists a b c, data = a ++ b ++ c /\ length a = (8 * i)%nat /\ column 8 n b.

(** A Parameter Data line which names the Directory Entry [seq]. *)
Definition owned (seq : Z) (data : str) : Prop :=
  exists a c, data = a ++ sp :: c /\ length a = 64%nat /\ column 7 seq c.

(** [ds] are the data columns of the Directory Entries of [es], two lines each,
    numbered from [seq] on; [ps] are those of their Parameter Data, numbered from
    [k] on.  The entry states the type, the first parameter line, the number of
    parameter lines and the form.  Comments follow the parameters of an entity;
    their lines do not name it. *)
Inductive catalogued : Z -> Z -> list ent -> list str -> list str -> Prop :=
| cat_nil : forall seq k, catalogued seq k [] [] []
| cat_cons : forall seq k e es d1 d2 ds own notes ps,
    field_is 0 (type_no (e_data e)) d1 -> field_is 1 k d1 ->
    field_is 0 (type_no (e_data e)) d2 -> field_is 3 (Z.of_nat (length own + length notes)) d2 ->
    field_is 4 (d_form (e_dir e)) d2 ->
    own ++ notes <> [] -> Forall (owned seq) own -> (e_comments e = [] -> notes = []) ->
    catalogued (seq + 2) (k + Z.of_nat (length own + length notes)) es ds ps ->
    catalogued seq k (e :: es) (d1 :: d2 :: ds) (own ++ notes ++ ps).

(** The data columns of the Terminate Section. *)
Definition totals (ns ng nd np : nat) (data : str) : Prop :=
  exists cs cg cd cp, data = "S"%char :: cs ++ "G"%char :: cg ++ "D"%char :: cd ++ "P"%char :: cp ++ repeat sp 40 /\
    column 7 (Z.of_nat ns) cs /\ column 7 (Z.of_nat ng) cg /\ column 7 (Z.of_nat nd) cd /\ column 7 (Z.of_nat np) cp.

Definition one_lined (s : str) : Prop := ~ In nl s.

(** A complete file for the entities [es]. *)
Definition well_laid (es : list ent) (file : str) : Prop :=
  exists ss gs ds ps tot s g d p t, file = s ++ g ++ d ++ p ++ t /\
    numbered (sec_line "S") 1 ss s /\ numbered (sec_line "G") 1 gs g /\
    numbered (sec_line "D") 1 ds d /\ numbered (sec_line "P") 1 ps p /\ sec_line "T" 1 tot t /\
    ss <> [] /\ gs <> [] /\ catalogued 1 1 es ds ps /\
    totals (length ss) (length gs) (length ds) (length ps) tot /\
    Forall one_lined (ss ++ gs ++ ds ++ ps).

(** No text of the document contains a line break. *)
Definition texts_of {D} (p : payload D) : list str :=
  match p with P308 s => [EntModel2.sf_name s] | P314 c => [EntModel2.co_name c] | P406 n => [n] | _ => [] end.
Definition doc_texts (d : doc) (name ver now : str) : list str :=
  let g := d_glob d in
  d_start d ++
  [productIDSS g; name; nativeSystemID g; ver; productIDRS g; creationDate g; author g; organization g; now; applicationNote g;
   [pdelim g]; [rdelim g]] ++
  flat_map (fun e => texts_of (e_data e) ++ firstn 8 (d_label (e_dir e)) :: e_comments e) (d_ents d).

(** The data columns of a Terminate Section stating the four counts; the
    remaining 40 columns are free. *)
Definition counts_text (ns ng nd np : Z) (data : str) : Prop :=
  exists cs cg cd cp r, data = "S"%char :: cs ++ "G"%char :: cg ++ "D"%char :: cd ++ "P"%char :: cp ++ r /\
    seven_columns ns cs /\ seven_columns ng cg /\ seven_columns nd cd /\ seven_columns np cp /\ length r = 40%nat.

(** A line of a Terminate Section. *)
Definition terminate_line (t : str) : Prop :=
  exists ns ng nd np data, counts_text ns ng nd np data /\ one_lined data /\ sec_line "T" 1 data t.

(** Nothing, or complete lines. *)
Definition whole_lines (s : str) : Prop := s = [] \/ exists y, s = y ++ [nl].

(** Can [Write] open its target, with the flag [over]?  A file which exists and
    can be read and written is only opened with the flag; one which can only be
    written is always opened. *)
Definition can_open (t : target) (over : bool) : Prop :=
  match t with Free => True | Old _ => over = true | WriteOnly _ => True | Closed => False end.
