(** What the components of a board are, said of the records and holes of the file. *)

From Verif Require Import Base Num IoModel IdfText IdfPlace Spec IdfSpec.
Open Scope Z_scope.

(** ** Names *)

(** The order of names: at the first difference the smaller character, and a name before
    any longer one which starts with it. *)
Definition comes_before (a b : str) : Prop :=
  exists p a' b', a = p ++ a' /\ b = p ++ b' /\
    match a', b' with
    | [], _ :: _ => True
    | x :: _, y :: _ => code x < code y
    | _, _ => False
    end.

(** Names in order, each once. *)
Inductive in_order : list str -> Prop :=
| ord_nil : in_order []
| ord_cons k l : Forall (comes_before k) l -> in_order l -> in_order (k :: l).

(** The records of a file with the names they are filed under.  The ones without a name
    are numbered. *)
Fixpoint filed (n : Z) (es : list event) : list (str * prec) :=
  match es with
  | [] => []
  | Hole _ :: es' => filed n es'
  | Put r :: es' =>
      match r_ref r with
      | Some s => (s, r) :: filed n es'
      | None => (S2 "NOREFDESn" ++ showN n, r) :: filed (n + 1) es'
      end
  end.

(** The records filed under a name, in their order. *)
Inductive pick {A} (k : str) : list (str * A) -> list A -> Prop :=
| pick_nil : pick k [] []
| pick_this a l p : pick k l p -> pick k ((k, a) :: l) (a :: p)
| pick_other k' a l p : k' <> k -> pick k l p -> pick k ((k', a) :: l) p.

(** Records with one name say the same of side and placement. *)
Definition agree (l : list (str * prec)) : Prop :=
  forall k r r', In (k, r) l -> In (k, r') l -> r_side r = r_side r' /\ r_how r = r_how r'.

(** ** Holes *)

(** The holes of the board itself, and the name any other belongs to. *)
Definition on_board (d : drill) : Prop :=
  match dr_ref d with
  | ToBoard | ToPanel => True
  | NoRef => False
  | Named s => same_word "BOARD" s \/ same_word "PANEL" s
  end.
Definition owner_name (d : drill) : str := match dr_ref d with Named s => s | _ => S2 "NOREFDES" end.

Inductive board_holes : list event -> list drill -> Prop :=
| bh_nil : board_holes [] []
| bh_put r es l : board_holes es l -> board_holes (Put r :: es) l
| bh_this d es l : on_board d -> board_holes es l -> board_holes (Hole d :: es) (d :: l)
| bh_other d es l : ~ on_board d -> board_holes es l -> board_holes (Hole d :: es) l.

Inductive holes_of (k : str) : list event -> list drill -> Prop :=
| ho_nil : holes_of k [] []
| ho_put r es l : holes_of k es l -> holes_of k (Put r :: es) l
| ho_this d es l : ~ on_board d -> owner_name d = k -> holes_of k es l -> holes_of k (Hole d :: es) (d :: l)
| ho_other d es l : on_board d \/ owner_name d <> k -> holes_of k es l -> holes_of k (Hole d :: es) l.

(** The holes of a file in their order. *)
Definition all_holes (es : list event) : list drill := flat_map (fun e => match e with Hole d => [d] | Put _ => [] end) es.

(** Something in the file has this name. *)
Definition mentioned (k : str) (es : list event) : Prop :=
  (exists r, In (k, r) (filed 0 es)) \/ (exists d, In (Hole d) es /\ ~ on_board d /\ owner_name d = k).

(** ** The library *)

(** Each outline is listed once, by its names, which are not both empty. *)
Definition library (outs : list (str * names)) : Prop :=
  NoDup (map fst outs) /\
  forall k o, In (k, o) outs -> k = geom o ++ "_"%char :: prt o /\ (geom o <> [] \/ prt o <> []).

Definition key_of (n : names) : str := geom n ++ "_"%char :: prt n.

(** The outline a part gets: the one which is listed for its names, or none. *)
Definition listed (outs : list (str * names)) (n : names) (o : option names) : Prop :=
  match o with
  | Some o => In (key_of n, o) outs
  | None => ~ In (key_of n) (map fst outs)
  end.

(** With substitutes: one of the same key, from the library if it is there, and if both
    names are empty the one for no names. *)
Definition listed_or_new (outs : list (str * names)) (n : names) (o : option names) : Prop :=
  exists o', o = Some o' /\
    (In (key_of n) (map fst outs) -> In (key_of n, o') outs) /\
    ((geom n <> [] \/ prt n <> []) -> key_of o' = key_of n) /\
    (geom n = [] -> prt n = [] -> key_of o' = S2 "NOGEOM_NOPART").

Definition gets (nosub : bool) := if nosub then listed else listed_or_new.

(** ** Components *)

(** A part of a component is where a record says, and has the outline which belongs to
    its names. *)
Definition shows (nosub : bool) (outs : list (str * names)) (c : comp) (r : prec) (k : piece) : Prop :=
  exists p, c_pos c = Some p /\ c_how c = Some (r_how r) /\ o_side p = r_side r /\
    (o_x p + k_x k == r_x r)%Q /\ (o_y p + k_y k == r_y r)%Q /\ (o_a p + k_a k == r_a r)%Q /\
    k_z k = r_z r /\ gets nosub outs (r_names r) (k_out k).

(** The first part has no offsets. *)
Definition starts (c : comp) : Prop :=
  match c_pieces c with
  | [] => c_pos c = None
  | k :: _ => (k_x k == 0)%Q /\ (k_y k == 0)%Q /\ (k_a k == 0)%Q
  end.

Definition board_of (nosub : bool) (outs : list (str * names)) (es : list event) (b : brd) : Prop :=
  in_order (map fst (b_comps b)) /\
  (forall k, In k (map fst (b_comps b)) <-> mentioned k es) /\
  (forall k c, In (k, c) (b_comps b) ->
     holes_of k es (c_holes c) /\ starts c /\
     exists rs, pick k (filed 0 es) rs /\ Forall2 (shows nosub outs c) rs (c_pieces c)) /\
  board_holes es (b_holes b).

(** ** A record as fields *)

Definition side_word (s : side) (w : str) : Prop :=
  match s with Top => same_word "TOP" w | Bottom => same_word "BOTTOM" w end.
Definition placing_word (v : version) (k : cad) (h : placing) (w : str) : Prop :=
  match h with
  | Placed => same_word "PLACED" w
  | Unplaced => same_word "UNPLACED" w
  | ByMcad => match v with V3 => same_word "MCAD" w | V2 => k = Elec /\ same_word "FIXED" w end
  | ByEcad => match v with V3 => same_word "ECAD" w | V2 => k = Mech /\ same_word "FIXED" w end
  end.

(** No name, or a name which is none of the keywords. *)
Definition ref_word (r : option str) (w : str) : Prop :=
  match r with
  | None => same_word "NOREFDES" w
  | Some s => s = w /\ w <> [] /\ ~ same_word "NOREFDES" w /\ ~ same_word "BOARD" w /\ ~ same_word "PANEL" w
  end.

(** The unit as it is used here: 10 nanometres are taken for millimetres. *)
Definition place_unit (u : unit_of) : Q := match u with Thou => 254 # 10000 | _ => 1 end.

(** Names, and more fields, in a first line. *)
Definition names_mean (fs : list field) (r : prec) : Prop :=
  exists g p n more, fs = g :: p :: n :: more /\ ~ (in_quotes g = false /\ same_word ".END_PLACEMENT" (value g)) /\
    r_names r = mkNames (value g) (value p) /\ ref_word (r_ref r) (value n).

(** Numbers, side and placement, and more fields, in a second line. *)
Inductive spot_means (u : unit_of) (k : cad) : version -> list field -> prec -> Prop :=
| spot_v3 a b c d s h more qa qb qc qd r :
    stream_num a = Some qa -> stream_num (value b) = Some qb -> stream_num (value c) = Some qc -> stream_num (value d) = Some qd ->
    (r_x r == qa * place_unit u)%Q -> (r_y r == qb * place_unit u)%Q -> (r_z r == qc * place_unit u)%Q -> (r_a r == qd)%Q ->
    side_word (r_side r) (value s) -> placing_word V3 k (r_how r) (value h) ->
    spot_means u k V3 (Bare a :: b :: c :: d :: s :: h :: more) r
| spot_v2 a b d s h more qa qb qd r :
    stream_num a = Some qa -> stream_num (value b) = Some qb -> stream_num (value d) = Some qd ->
    (r_x r == qa * place_unit u)%Q -> (r_y r == qb * place_unit u)%Q -> (r_z r == 0)%Q -> (r_a r == qd)%Q ->
    side_word (r_side r) (value s) -> placing_word V2 k (r_how r) (value h) ->
    spot_means u k V2 (Bare a :: b :: d :: s :: h :: more) r.

(** The same record but for the form of its numbers. *)
Definition prec_eq (r r' : prec) : Prop :=
  r_names r = r_names r' /\ r_ref r = r_ref r' /\ r_side r = r_side r' /\ r_how r = r_how r' /\
  (r_x r == r_x r')%Q /\ (r_y r == r_y r')%Q /\ (r_z r == r_z r')%Q /\ (r_a r == r_a r')%Q.

(** ** Written and read again *)

(** Names which are written as none. *)
Definition like_none (s : str) : Prop := s = [] \/ s = S2 "~" \/ exists a b, s = a ++ b /\ same_word "NOREFDES" a.

(** Names which can be written without quotes. *)
Definition plain_name (s : str) : Prop :=
  like_none s \/ (field_ok (Bare s) /\ ~ In nl s /\ ~ same_word "BOARD" s /\ ~ same_word "PANEL" s).

Definition tol_z (u : unit_of) : Q := match u with MM => 1 # 2000 | _ => 127 # 100000 end.
Definition tol_a : Q := 1 # 2000.

(** Where a part is, seen from its component: on the bottom, the writer turns the sign of
    the offsets in x and of the angle. *)
Definition written_x (p : pos) (k : piece) : Q := match o_side p with Top => o_x p + k_x k | Bottom => o_x p - k_x k end.
Definition written_a (p : pos) (k : piece) : Q := match o_side p with Top => o_a p + k_a k | Bottom => o_a p - k_a k end.

(** The record which is read for a part. *)
Definition part_back (u : unit_of) (name : str) (c : comp) (k : piece) (r : prec) : Prop :=
  exists p, c_pos c = Some p /\ k_out k = Some (r_names r) /\
    (like_none name -> r_ref r = None) /\ (~ like_none name -> r_ref r = Some name) /\
    near (tol_pos u) (written_x p k) (r_x r) /\ near (tol_pos u) (o_y p + k_y k) (r_y r) /\
    near (tol_z u) (k_z k) (r_z r) /\ near tol_a (written_a p k) (r_a r) /\
    r_side r = o_side p /\ r_how r = match c_how c with Some h => h | None => Placed end.

(** The parts of a board in the order in which they are written. *)
Definition parts_of (b : brd) : list (str * comp * piece) :=
  flat_map (fun nc => map (fun k => (fst nc, snd nc, k)) (c_pieces (snd nc))) (b_comps b).

Definition part_ok (u : unit_of) (x : str * comp * piece) : Prop :=
  let '(n, c, k) := x in
  plain_name n /\
  exists p o, c_pos c = Some p /\ k_out k = Some o /\
    ~ In quote (geom o) /\ ~ In nl (geom o) /\ ~ In quote (prt o) /\ ~ In nl (prt o) /\ (geom o <> [] \/ prt o <> []) /\
    sized (written_x p k) /\ sized (o_y p + k_y k) /\ sized (k_z k) /\ sized (written_a p k).

(** A file is read in the unit its header names. *)
Definition named_unit (u : unit_of) : unit_of := match u with MM => MM | _ => Thou end.

(** A part of the board which is read is where the part of the first board was. *)
Definition piece_back (u : unit_of) (c c' : comp) (k k' : piece) : Prop :=
  exists p p', c_pos c = Some p /\ c_pos c' = Some p' /\ o_side p' = o_side p /\
    c_how c' = Some (match c_how c with Some h => h | None => Placed end) /\
    near (tol_pos u) (o_x p + k_x k) (o_x p' + k_x k') /\ near (tol_pos u) (o_y p + k_y k) (o_y p' + k_y k') /\
    near (tol_z u) (k_z k) (k_z k') /\ near tol_a (o_a p + k_a k) (o_a p' + k_a k') /\ k_out k' = k_out k.

(** ** Instances *)

(** What is made of a record: [built] are the keys which have a body. *)
Definition made_of (name : str) (r : prec) (i : inst) : Prop :=
  i_uid i = key_of (r_names r) /\ i_label i = name /\
  (i_x i == r_x r)%Q /\ (i_y i == r_y r)%Q /\ i_z i = r_z r /\ (i_a i == r_a r)%Q /\
  (i_bottom i = true <-> r_side r = Bottom).

(** The records with a body. *)
Inductive with_body (built : str -> bool) : list prec -> list prec -> Prop :=
| wb_nil : with_body built [] []
| wb_this r l p : built (key_of (r_names r)) = true -> with_body built l p -> with_body built (r :: l) (r :: p)
| wb_none r l p : built (key_of (r_names r)) = false -> with_body built l p -> with_body built (r :: l) p.
