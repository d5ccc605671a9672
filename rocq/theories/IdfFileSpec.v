(** What the headers and sections of IDF files mean. *)

From Verif Require Import Base Num IoModel IdfText IdfOutl IdfFile Spec IdfSpec IdfOutlSpec.
From Verif Require IdfPlace IdfPlaceSpec.
Open Scope Z_scope.

(** ** Lines *)

(** The next line which is not blank is [l] without the white space at its ends, and is
    no comment; the rest of the file is [f']. *)
Definition opens (f : stream) (l : str) (f' : stream) : Prop :=
  exists bl raw g, f = mkStream (with_newlines bl ++ s_rest g) false /\ blank_lines bl /\ s_eof g = false /\
    ends_line raw g f' /\ (forall r, raw <> hash :: r) /\ trimmed_of raw l /\ l <> [].

(** It is a comment. *)
Definition opens_comment (f : stream) : Prop :=
  exists bl raw g f', f = mkStream (with_newlines bl ++ s_rest g) false /\ blank_lines bl /\ s_eof g = false /\
    ends_line (hash :: raw) g f'.

(** ** Headers *)

Definition version_word (s : str) (v : version) : Prop :=
  match v with
  | V3 => s = S2 "3.0" \/ s = S2 "3." \/ s = S2 "3"
  | V2 => s = S2 "2.0" \/ s = S2 "2." \/ s = S2 "2"
  end.

(** The number of the file is what the field begins with, or 1 if that is no number. *)
Definition file_number (s : str) (n : Z) : Prop :=
  (exists r, stream_int s = Some (n, r)) \/ (stream_int s = None /\ n = 1).

(** Type of the file, version, source, date and number; only source and date may be in
    quotes. *)
Inductive head_means (key : string) : list field -> head -> Prop :=
| head_is k ver src date num more h :
    same_word key k -> version_word ver (h_ver h) -> h_source h = value src -> h_date h = value date ->
    file_number num (h_num h) ->
    head_means key (Bare k :: Bare ver :: src :: date :: Bare num :: more) h.

Definition unit_says (v : version) (s : str) (u : unit_of) : Prop :=
  match u with
  | MM => same_word "MM" s
  | Thou => same_word "THOU" s
  | Tnm => v = V2 /\ same_word "TNM" s
  end.

Inductive name_means (v : version) : list field -> str -> unit_of -> Prop :=
| name_is name w more u : unit_says v w u -> name_means v (name :: Bare w :: more) (value name) u.

(** ** Sections *)

Definition headings : list string :=
  [".BOARD_OUTLINE"; ".PANEL_OUTLINE"; ".OTHER_OUTLINE"; ".ROUTE_OUTLINE"; ".PLACE_OUTLINE"; ".ROUTE_KEEPOUT";
   ".VIA_KEEPOUT"; ".PLACE_KEEPOUT"; ".PLACE_REGION"; ".DRILLED_HOLES"; ".NOTES"; ".PLACEMENT"]%string.

Definition heading_word (s : str) : Prop := exists k, In k headings /\ same_word k s.

(** A heading may begin the line, but there is none further on, and no quote. *)
Definition quiet (l : str) : Prop :=
  ~ In quote l /\ forall a w b, l = a ++ w ++ b -> a <> [] -> ~ heading_word w.

Definition quiet_line (raw : str) : Prop :=
  ~ In nl raw /\ ((exists r, raw = hash :: r) \/ exists l, trimmed_of raw l /\ quiet l).

Definition is_board (s : section) : Prop := exists o, se_what s = COutline o /\ ol_kind o = KBoard.
Definition is_places (s : section) : Prop := exists l, se_what s = CPlaces l.
Definition is_notes (s : section) : Prop := exists l, se_what s = CNotes l.

(** The identifiers of the sections .OTHER_OUTLINE. *)
Fixpoint other_ids (l : list section) : list str :=
  match l with
  | [] => []
  | s :: l' => match se_what s with
               | COutline (mkOutl KOther _ id _ _ _) => id :: other_ids l'
               | _ => other_ids l'
               end
  end.

(** ** Outlines which are written and read again *)

(** A side, or layers, of each kind. *)
Definition layer_fits (k : kind) (l : option layer) : Prop :=
  match k with
  | KBoard | KViaKo => l = None
  | KOther => l = Some LTop \/ l = Some LBottom
  | KRoute | KRouteKo => l <> None
  | KPlace | KPlaceKo | KRegion => l = Some LTop \/ l = Some LBottom \/ l = Some LBoth
  end.

(** Twice the rounding: what is not less is not written as zero. *)
Definition least_high (u : unit_of) : Q := match u with MM => 1 # 100000 | _ => 254 # 100000 end.

Definition high_fits (u : unit_of) (k : kind) (q : Q) : Prop :=
  match k with
  | KBoard => (least_high u <= q)%Q /\ sized q
  | KPlace | KPlaceKo => (0 <= q)%Q /\ sized q
  | _ => q = 0%Q
  end.

Definition id_fits (k : kind) (s : str) : Prop := match k with KRegion => ~ In quote s /\ ~ In nl s | _ => s = [] end.

Definition outl_fits (ccw : qloop -> bool) (u : unit_of) (o : outl) : Prop :=
  ol_kind o <> KOther /\ layer_fits (ol_kind o) (ol_layer o) /\ high_fits u (ol_kind o) (ol_high o) /\
  id_fits (ol_kind o) (ol_id o) /\ (ol_kind o <> KBoard -> ol_loops o <> []) /\
  Forall (loop_fit u) (ol_loops o) /\ Z.of_nat (length (ol_loops o)) <= 2147483648 /\
  match ol_kind o with
  | KBoard => turns_kept ccw u (ways ccw false 0 (ol_loops o))
  | _ => (length (ol_loops o) <= 1)%nat
  end.

Definition outl_back (ccw : qloop -> bool) (u : unit_of) (o o' : outl) : Prop :=
  ol_kind o' = ol_kind o /\ ol_owner o' = ol_owner o /\ ol_id o' = ol_id o /\ ol_layer o' = ol_layer o /\
  near (tol_pos u) (ol_high o) (ol_high o') /\
  Forall2 (near_loop u) (ways ccw (match ol_kind o with KBoard => false | _ => true end) 0 (ol_loops o)) (ol_loops o').

(** Outlines after which the file cannot be read: any OTHER outline, and a place
    outline without a height. *)
Definition spoils (u : unit_of) (o : outl) : Prop :=
  ol_loops o <> [] /\
  (ol_kind o = KOther /\ ~ In quote (ol_id o) /\ ~ In nl (ol_id o) \/
   ol_kind o = KPlace /\ sized (ol_high o) /\ (ol_high o <= - least_high u)%Q).
