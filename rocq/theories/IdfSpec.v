(** What the text of an IDF file means: lines made of fields, keywords, numbers,
    and how close a record which was written and read again is to the first. *)

From Verif Require Import Base Num IoModel IdfText Spec.
Open Scope Z_scope.

(** ** Fields of a line *)

(** A field in quotes or without. *)
Inductive field := Bare (s : str) | Quoted (s : str).

Definition field_text (f : field) : str :=
  match f with Bare s => s | Quoted s => quote :: s ++ [quote] end.

Definition value (f : field) : str := match f with Bare s | Quoted s => s end.
Definition in_quotes (f : field) : bool := match f with Bare _ => false | Quoted _ => true end.

(** What can be written: without quotes something which is not empty, has no white
    space and does not start with a quote; in quotes anything without a quote. *)
Definition field_ok (f : field) : Prop :=
  match f with
  | Bare s => s <> [] /\ Forall (fun c => ~ isspc c) s /\ (forall r, s <> quote :: r)
  | Quoted s => ~ In quote s
  end.

(** The field ends where the rest begins. *)
Definition ends (f : field) (rest : str) : Prop :=
  match f with
  | Bare _ => match rest with [] => True | c :: _ => isspc c end
  | Quoted _ => True
  end.

(** [laid_out torn fs line]: the line holds these fields, with white space between
    them; [torn] says that after them there is a quote which is not closed. *)
Inductive laid_out : bool -> list field -> str -> Prop :=
| lo_end w : Forall isspc w -> laid_out false [] w
| lo_torn w t : Forall isspc w -> ~ In quote t -> laid_out true [] (w ++ quote :: t)
| lo_field b w f fs rest : Forall isspc w -> field_ok f -> ends f rest ->
    laid_out b fs rest -> laid_out b (f :: fs) (w ++ field_text f ++ rest).

(** [calls line st fs st']: calls of [GetIDFString] one after another give these
    fields, and the call after them gives none and leaves [st']. *)
Inductive calls (line : str) : scan -> list field -> scan -> Prop :=
| call_none st st' : get_string line st = (false, st') -> calls line st [] st'
| call_some st st' f fs st'' : get_string line st = (true, st') ->
    sc_tok st' = value f -> sc_quoted st' = in_quotes f ->
    calls line st' fs st'' -> calls line st (f :: fs) st''.

(** ** Lines *)

(** [l] is [s] without the white space at both its ends. *)
Definition trimmed_of (s l : str) : Prop :=
  exists a b, s = a ++ l ++ b /\ Forall isspc a /\ Forall isspc b /\
    (forall c r, l = c :: r -> ~ isspc c) /\ (forall c r, l = r ++ [c] -> ~ isspc c).

(** A line [raw] which is followed by [rest], or ends the file. *)
Definition ends_line (raw : str) (f f' : stream) : Prop :=
  s_eof f = false /\ ~ In nl raw /\
  ((exists rest, s_rest f = raw ++ nl :: rest /\ f' = mkStream rest false) \/
   (s_rest f = raw /\ f' = mkStream [] true)).

(** Lines of white space, each with its newline. *)
Definition blank_lines (bl : list str) : Prop := Forall (fun b => Forall isspc b /\ ~ In nl b) bl.
Definition with_newlines (bl : list str) : str := concat (map (fun b => b ++ [nl]) bl).

(** ** Keywords *)

(** The same letter, in upper or lower case. *)
Definition same_letter (a b : ascii) : Prop :=
  a = b \/ (65 <= code a <= 90 /\ code b = code a + 32).

(** [s] is the keyword [key] in any mixture of cases. *)
Definition same_word (key : string) (s : str) : Prop := Forall2 same_letter (S2 key) s.

Definition capital (c : ascii) : Prop := ~ (97 <= code c <= 122).

(** ** Numbers *)

(** [s] is [m] in units of the last of its [k] decimals. *)
Definition decimal (k : nat) (s : str) (m : Z) : Prop :=
  exists sg ip fr, s = sg ++ ip ++ "."%char :: fr /\
    ip <> [] /\ Forall isdig ip /\ Forall isdig fr /\ length fr = k /\
    ((sg = [] /\ m = dval (ip ++ fr)) \/ (sg = ["-"%char] /\ m = - dval (ip ++ fr))).

Definition dec_value (k : nat) (m : Z) : Q := (inject_Z m / inject_Z (10 ^ Z.of_nat k))%Q.

(** What can not belong to the number before it. *)
Definition no_more (r : str) : Prop :=
  match r with [] => True | c :: _ => ~ isdig c /\ c <> "e"%char /\ c <> "E"%char end.

(** ** Records *)

(** A name which can stand in quotes. *)
Definition name_ok (s : str) : Prop := ~ In quote s /\ ~ In nl s /\ ~ In nul s.

Definition ref_ok (r : ref) : Prop := match r with Named s => name_ok s | _ => True end.
Definition hole_ok (h : hole) : Prop := match h with Other s => name_ok s | _ => True end.

(** What a reference or a hole type is after it was written and read again: a
    name which is a keyword is taken for the keyword. *)
Inductive ref_back : ref -> ref -> Prop :=
| rb_board : ref_back ToBoard ToBoard
| rb_none : ref_back NoRef NoRef
| rb_panel : ref_back ToPanel ToPanel
| rb_named s : ~ same_word "BOARD" s -> ~ same_word "NOREFDES" s -> ~ same_word "PANEL" s ->
    ref_back (Named s) (Named s)
| rb_as_board s : same_word "BOARD" s -> ref_back (Named s) ToBoard
| rb_as_none s : same_word "NOREFDES" s -> ref_back (Named s) NoRef
| rb_as_panel s : same_word "PANEL" s -> ref_back (Named s) ToPanel.

Inductive hole_back : hole -> hole -> Prop :=
| hb_pin : hole_back Pin Pin
| hb_via : hole_back Via Via
| hb_mtg : hole_back Mtg Mtg
| hb_tool : hole_back Tool Tool
| hb_other s : ~ same_word "PIN" s -> ~ same_word "VIA" s -> ~ same_word "MTG" s ->
    ~ same_word "TOOL" s -> hole_back (Other s) (Other s)
| hb_as_pin s : same_word "PIN" s -> hole_back (Other s) Pin
| hb_as_via s : same_word "VIA" s -> hole_back (Other s) Via
| hb_as_mtg s : same_word "MTG" s -> hole_back (Other s) Mtg
| hb_as_tool s : same_word "TOOL" s -> hole_back (Other s) Tool.

Definition near (tol a b : Q) : Prop := (Qabs (b - a) <= tol)%Q.

(** Half of the last digit written, in millimetres: three decimals for a diameter
    and five for a position, or a tenth of a thousandth of an inch. *)
Definition tol_dia (u : unit_of) : Q := match u with MM => 1 # 2000 | _ => 127 # 100000 end.
Definition tol_pos (u : unit_of) : Q := match u with MM => 1 # 200000 | _ => 127 # 100000 end.

Definition drill_back (u : unit_of) (d d' : drill) : Prop :=
  near (tol_dia u) (dr_dia d) (dr_dia d') /\
  near (tol_pos u) (dr_x d) (dr_x d') /\ near (tol_pos u) (dr_y d) (dr_y d') /\
  dr_plated d' = dr_plated d /\ ref_back (dr_ref d) (dr_ref d') /\
  hole_back (dr_hole d) (dr_hole d') /\ dr_owner d' = dr_owner d.

(** No number is larger than any board. *)
Definition sized (q : Q) : Prop := (Qabs q <= inject_Z (10 ^ 300))%Q.

(** The least diameter which is not written as zero. *)
Definition least_dia (u : unit_of) : Q := match u with MM => 1 # 1000 | _ => 254 # 100000 end.

Definition drill_ok (u : unit_of) (d : drill) : Prop :=
  (least_dia u <= dr_dia d)%Q /\ sized (dr_dia d) /\ sized (dr_x d) /\ sized (dr_y d) /\
  ref_ok (dr_ref d) /\ hole_ok (dr_hole d).

(** The numbers have no more decimals than are written. *)
Definition whole (q : Q) : Prop := exists n, (q == inject_Z n)%Q.

Definition drill_short (u : unit_of) (d : drill) : Prop :=
  match u with
  | MM => whole (dr_dia d * 1000) /\ whole (dr_x d * 100000) /\ whole (dr_y d * 100000)
  | _ => whole (dr_dia d / (254 # 100000)) /\ whole (dr_x d / (254 # 100000)) /\
         whole (dr_y d / (254 # 100000))
  end.

Definition drill_same (d d' : drill) : Prop :=
  (dr_dia d == dr_dia d')%Q /\ (dr_x d == dr_x d')%Q /\ (dr_y d == dr_y d')%Q.

Definition note_ok (n : note) : Prop :=
  sized (nt_x n) /\ sized (nt_y n) /\ sized (nt_height n) /\ sized (nt_length n) /\
  ~ In quote (nt_text n) /\ ~ In nl (nt_text n).

Definition note_back (u : unit_of) (n n' : note) : Prop :=
  near (tol_pos u) (nt_x n) (nt_x n') /\ near (tol_pos u) (nt_y n) (nt_y n') /\
  near (tol_pos u) (nt_height n) (nt_height n') /\ near (tol_pos u) (nt_length n) (nt_length n') /\
  nt_text n' = nt_text n.

(** ** Lines which are records *)

(** The first field is a number without quotes and not too small, the next two are
    positions; then come, in version 3, plating, reference, hole type and owner, and
    in version 2 hole type and reference.  More fields may follow. *)
Definition plating_of (s : str) (b : bool) : Prop :=
  if b then same_word "PTH" s else same_word "NPTH" s.

Definition owner_of (s : str) (o : owner) : Prop :=
  match o with Unowned => same_word "UNOWNED" s | Ecad => same_word "ECAD" s | Mcad => same_word "MCAD" s end.

(** One millimetre, a thousandth of an inch, or 10 nanometres. *)
Definition unit_mm (u : unit_of) : Q := match u with MM => 1 | Thou => 254 # 10000 | Tnm => 1 # 100000 end.

Inductive drill_means (u : unit_of) : version -> list field -> drill -> Prop :=
| means_v3 a b c p r h o more qa qb qc d : u <> Tnm ->
    stream_num a = Some qa -> stream_num b = Some qb -> stream_num c = Some qc ->
    (min_dia u <= qa)%Q ->
    plating_of (value p) (dr_plated d) -> ref_back (Named (value r)) (dr_ref d) ->
    hole_back (Other (value h)) (dr_hole d) -> owner_of (value o) (dr_owner d) ->
    (dr_dia d == qa * unit_mm u)%Q -> (dr_x d == qb * unit_mm u)%Q -> (dr_y d == qc * unit_mm u)%Q ->
    drill_means u V3 (Bare a :: Bare b :: Bare c :: p :: r :: h :: o :: more) d
| means_v2 a b c h r more qa qb qc d :
    stream_num a = Some qa -> stream_num b = Some qb -> stream_num c = Some qc ->
    (min_dia u <= qa)%Q ->
    dr_plated d = true -> ref_back (Named (value r)) (dr_ref d) ->
    hole_back (Other (value h)) (dr_hole d) -> dr_owner d = Unowned ->
    (dr_dia d == qa * unit_mm u)%Q -> (dr_x d == qb * unit_mm u)%Q -> (dr_y d == qc * unit_mm u)%Q ->
    drill_means u V2 (Bare a :: Bare b :: Bare c :: h :: r :: more) d.

(** The records of a section agree one by one. *)
Definition drills_back (u : unit_of) : list drill -> list drill -> Prop := Forall2 (drill_back u).
Definition notes_back (u : unit_of) : list note -> list note -> Prop := Forall2 (note_back u).

(** The same record but for the form of its numbers. *)
Definition drill_eq (d d' : drill) : Prop :=
  drill_same d d' /\ dr_plated d = dr_plated d' /\ dr_ref d = dr_ref d' /\
  dr_hole d = dr_hole d' /\ dr_owner d = dr_owner d'.
