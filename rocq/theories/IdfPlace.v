(** The components of an IDF board (/repo/src/idf/idf_parser.cpp): where the section
    .PLACEMENT puts them, the holes which belong to them, and writing both; and how
    idf2igs makes instances of them (/repo/src/idf/idf2igs.cpp).

    The numbers are exact.  Pointers to outlines are followed as far as the names of the
    outline; the counter of references is left out.  Setting a reference designator, a
    position or a placement fails on ownership only after the placement was set, which no
    call made here meets. *)

From Verif Require Export IdfText.
Open Scope Z_scope.

(** ** Maps *)

(** The order of [std::string], by characters without sign. *)
Fixpoint str_ltb (a b : str) : bool :=
  match a, b with
  | [], _ :: _ => true
  | x :: a', y :: b' => (code x <? code y) || ((code x =? code y) && str_ltb a' b')
  | _, _ => false
  end.

(** [std::map], in the order of its keys. *)
Section Map.
Context {A : Type}.
Fixpoint find (k : str) (m : list (str * A)) : option A :=
  match m with
  | [] => None
  | (k', v) :: m' => if str_eqb k k' then Some v else find k m'
  end.
Fixpoint put (k : str) (v : A) (m : list (str * A)) : list (str * A) :=
  match m with
  | [] => [(k, v)]
  | (k', v') :: m' =>
      if str_eqb k k' then (k, v) :: m'
      else if str_ltb k k' then (k, v) :: m
      else (k', v') :: put k v m'
  end.
End Map.

(** ** Boards *)

(** [LYR_TOP] and [LYR_BOTTOM]; [IDF_PLACEMENT] and [CAD_TYPE] without their invalid
    values (idf_common.h). *)
Inductive side := Top | Bottom.
Inductive placing := Placed | Unplaced | ByMcad | ByEcad.
Inductive cad := Elec | Mech.

Definition side_eqb (a b : side) : bool := match a, b with Top, Top | Bottom, Bottom => true | _, _ => false end.
Definition placing_eqb (a b : placing) : bool :=
  match a, b with Placed, Placed | Unplaced, Unplaced | ByMcad, ByMcad | ByEcad, ByEcad => true | _, _ => false end.

(** The names of an outline in the library, [geometry] and [part] of [IDF3_COMP_OUTLINE],
    and the key it is listed by, [GetUID] (idf_outlines.cpp L3501-3512). *)
Record names := mkNames { geom : str; prt : str }.
Definition uid_of (n : names) : str := geom n ++ "_"%char :: prt n.

(** [IDF3_COMP_OUTLINE_DATA]: the outline ([None]: NULL) and the offsets. *)
Record piece := mkPiece { k_out : option names; k_x : Q; k_y : Q; k_z : Q; k_a : Q }.

(** [IDF3_COMPONENT]: its position if [hasPosition], its placement if that is valid, its
    outlines and holes. *)
Record pos := mkPos { o_x : Q; o_y : Q; o_a : Q; o_side : side }.
Record comp := mkComp { c_pos : option pos; c_how : option placing; c_pieces : list piece; c_holes : list drill }.

(** [IDF3_BOARD]: [components], [iRefDes], [compOutlines], [board_drills]. *)
Record brd := mkBrd { b_comps : list (str * comp); b_next : Z; b_outs : list (str * names); b_holes : list drill }.
Definition new_board (outs : list (str * names)) : brd := mkBrd [] 0 outs [].

(** What a record of the section .PLACEMENT says, in mm; no reference designator is
    NOREFDES. *)
Record prec := mkPrec { r_names : names; r_ref : option str; r_x : Q; r_y : Q; r_z : Q; r_a : Q; r_side : side; r_how : placing }.

(** L620-632 and [GetInvalidOutline], L3970-4010: the outline by its key, and if there
    is none and substitutes are wanted, a new one. *)
Definition outline_for (nosub : bool) (n : names) (outs : list (str * names)) : option names * list (str * names) :=
  match find (uid_of n) outs with
  | Some o => (Some o, outs)
  | None =>
      if nosub then (None, outs)
      else
        let n' := match geom n, prt n with [], [] => mkNames (S2 "NOGEOM") (S2 "NOPART") | _, _ => n end in
        match find (uid_of n') outs with
        | Some o => (Some o, outs)
        | None => (Some n', put (uid_of n') n' outs)
        end
  end.

(** [GetNewRefDes], L1384-1392. *)
Definition new_name (n : Z) : str := S2 "NOREFDESn" ++ showN n.

(** The end of [readPlaceData], L620-735.  [None]: an exception. *)
Definition place (nosub : bool) (r : prec) (b : brd) : option brd :=
  let '(name, next) := match r_ref r with
                       | Some s => (s, b_next b)
                       | None => (new_name (b_next b), b_next b + 1)
                       end in
  let '(o, outs) := outline_for nosub (r_names r) (b_outs b) in
  let here := mkPos (r_x r) (r_y r) (r_a r) (r_side r) in
  let first := mkPiece o 0 0 (r_z r) 0 in
  let done c := Some (mkBrd (put name c (b_comps b)) next outs (b_holes b)) in
  match find name (b_comps b) with
  | None => done (mkComp (Some here) (Some (r_how r)) [first] [])
  | Some c =>
      match c_pos c with
      | None => done (mkComp (Some here) (Some (r_how r)) (c_pieces c ++ [first]) (c_holes c))
      | Some p =>
          if negb (side_eqb (r_side r) (o_side p)) then None
          else if negb (match c_how c with Some h => placing_eqb (r_how r) h | None => false end) then None
          else
            let next_one := mkPiece o (r_x r - o_x p) (r_y r - o_y p) (r_z r) (r_a r - o_a p) in
            done (mkComp (c_pos c) (c_how c) (c_pieces c ++ [next_one]) (c_holes c))
      end
  end.

(** [GetDrillRefDes], idf_common.cpp L763-784. *)
Definition ref_name (r : ref) : str :=
  match r with ToBoard => S2 "BOARD" | ToPanel => S2 "PANEL" | Named s => s | NoRef => S2 "NOREFDES" end.

(** [AddDrill] and [addCompDrill] with a hole, L3343-3357, L3594-3645. *)
Definition add_hole (d : drill) (b : brd) : brd :=
  let k := ref_name (dr_ref d) in
  if compare_token "BOARD" k || compare_token "PANEL" k
  then mkBrd (b_comps b) (b_next b) (b_outs b) (b_holes b ++ [d])
  else
    let c := match find k (b_comps b) with Some c => c | None => mkComp None None [] [] end in
    mkBrd (put k (mkComp (c_pos c) (c_how c) (c_pieces c) (c_holes c ++ [d])) (b_comps b)) (b_next b) (b_outs b) (b_holes b).

(** What the sections of a file do to the board, one after another. *)
Inductive event := Hole (d : drill) | Put (r : prec).
Definition step (nosub : bool) (e : event) (b : brd) : option brd :=
  match e with Hole d => Some (add_hole d b) | Put r => place nosub r b end.
Fixpoint run (nosub : bool) (es : list event) (b : brd) : option brd :=
  match es with
  | [] => Some b
  | e :: es' => match step nosub e b with Some b' => run nosub es' b' | None => None end
  end.

(** ** Reading a record *)

(** L297-420: the first line. *)
Definition read_names (f : stream) : got (names * str) :=
  match read_line f with
  | None => Wrong
  | Some (_, true, _) => Wrong
  | Some (line, false, f') =>
    let '(_, st) := get_string line (mkScan [] false 0) in
    if negb (sc_quoted st) && compare_token ".END_PLACEMENT" (sc_tok st) then Over f' else
    match word line st with None => Wrong | Some (p, st') =>
    match word line st' with None => Wrong | Some (r, _) =>
    Got (mkNames (sc_tok st) p, r) f'
    end end
  end.

(** L368-420: the reference designator; [None] is an exception. *)
Definition read_ref (s : str) : option (option str) :=
  if compare_token "NOREFDES" s then Some None
  else if compare_token "BOARD" s then None
  else if compare_token "PANEL" s then None
  else match s with [] => None | _ => Some (Some s) end.

(** A number which may be in quotes: all but the first of the second line. *)
Definition loose (line : str) (st : scan) : option (Q * scan) :=
  match word line st with
  | None => None
  | Some (t, st') => match stream_num t with Some q => Some (q, st') | None => None end
  end.

(** L548-571. *)
Definition read_side (s : str) : option side :=
  if compare_token "TOP" s then Some Top else if compare_token "BOTTOM" s then Some Bottom else None.

(** L584-618. *)
Definition read_placing (v : version) (k : cad) (s : str) : option placing :=
  if compare_token "PLACED" s then Some Placed
  else if compare_token "UNPLACED" s then Some Unplaced
  else match v with
  | V3 => if compare_token "MCAD" s then Some ByMcad else if compare_token "ECAD" s then Some ByEcad else None
  | V2 => if compare_token "FIXED" s then Some (match k with Elec => ByMcad | Mech => ByEcad end) else None
  end.

(** L422-640: the second line, after which the stream must be good.  In version 2 there
    is no height, and it is 0.  Only thousandths of an inch are converted (L634-639). *)
Definition read_spot (f : stream) (u : unit_of) (v : version) (k : cad) : got (Q * Q * Q * Q * side * placing) :=
  match read_line f with
  | None => Wrong
  | Some (_, true, _) => Wrong
  | Some (line, false, f') =>
    if s_eof f' then Wrong else
    let '(_, st) := get_string line (mkScan [] false 0) in
    if sc_quoted st then Wrong else
    match stream_num (sc_tok st) with None => Wrong | Some x =>
    match loose line st with None => Wrong | Some (y, st) =>
    match (match v with V3 => loose line st | V2 => Some (0%Q, st) end) with None => Wrong | Some (z, st) =>
    match loose line st with None => Wrong | Some (a, st) =>
    match word line st with None => Wrong | Some (sd, st) =>
    match read_side sd with None => Wrong | Some s =>
    match word line st with None => Wrong | Some (pl, _) =>
    match read_placing v k pl with None => Wrong | Some h =>
    let conv (q : Q) := match u with Thou => (q * thou_to_mm)%Q | _ => q end in
    Got (conv x, conv y, conv z, a, s, h) f'
    end end end end end end end end
  end.

(** [readPlaceData], L255-735, up to what it does to the board: no part of that is looked
    at while a record is read. *)
Definition read_place (f : stream) (u : unit_of) (v : version) (k : cad) : got prec :=
  match read_names f with
  | Wrong => Wrong
  | Over f' => Over f'
  | Got (n, r) f1 =>
    match read_ref r with
    | None => Wrong
    | Some ref =>
      match read_spot f1 u v k with
      | Got (x, y, z, a, s, h) f2 => Got (mkPrec n ref x y z a s h) f2
      | _ => Wrong
      end
    end
  end.

(** [readBrdPlacement], L1673-1680, in two parts. *)
Definition read_places (f : stream) (u : unit_of) (v : version) (k : cad) : option (list prec * stream) :=
  read_all (fun f => read_place f u v k) (S (length (s_rest f))) f.
Definition read_placement (nosub : bool) (f : stream) (u : unit_of) (v : version) (k : cad) (b : brd) : option (brd * stream) :=
  match read_places f u v k with
  | None => None
  | Some (l, f') => match run nosub (map Put l) b with Some b' => Some (b', f') | None => None end
  end.

(** ** Writing *)

Definition side_text (s : side) : str := match s with Top => S2 "TOP" | Bottom => S2 "BOTTOM" end.
Definition placing_text (h : placing) : str :=
  match h with Placed => S2 "PLACED" | Unplaced => S2 "UNPLACED" | ByMcad => S2 "MCAD" | ByEcad => S2 "ECAD" end.

(** L784-788. *)
Definition ref_shown (s : str) : str :=
  if match s with [] => true | _ => str_eqb s (S2 "~") || ((8 <=? length s)%nat && compare_token "NOREFDES" (firstn 8 s)) end
  then S2 "NOREFDES" else s.

(** [IDF3_COMP_OUTLINE_DATA::writePlaceData], L739-836.  [None]: an exception. *)
Definition write_piece (u : unit_of) (name : str) (c : comp) (k : piece) : option str :=
  match k_out k with
  | None => Some []
  | Some o =>
    match geom o, prt o, c_pos c with
    | [], [], _ => None
    | _, _, None => None
    | _, _, Some p =>
      let h := match c_how c with Some h => h | None => Placed end in
      let '(x, a) := match o_side p with
                     | Top => ((o_x p + k_x k)%Q, (o_a p + k_a k)%Q)
                     | Bottom => ((o_x p - k_x k)%Q, (o_a p - k_a k)%Q)
                     end in
      let y := (o_y p + k_y k)%Q in
      let num (n : nat) (q : Q) := match u with MM => fixed n q | _ => fixed 1 (q / thou_to_mm)%Q end in
      Some (quoted_text (geom o) ++ sp :: quoted_text (prt o) ++ sp :: ref_shown name ++ nl ::
            num 5%nat x ++ sp :: num 5%nat y ++ sp :: num 3%nat (k_z k) ++ sp :: fixed 3 a ++ sp ::
            side_text (o_side p) ++ sp :: placing_text h ++ [nl])
    end
  end.

Fixpoint write_pieces (u : unit_of) (name : str) (c : comp) (l : list piece) : option str :=
  match l with
  | [] => Some []
  | k :: l' =>
      match write_piece u name c k, write_pieces u name c l' with
      | Some t, Some t' => Some (t ++ t')
      | _, _ => None
      end
  end.
Fixpoint write_comps (u : unit_of) (l : list (str * comp)) : option str :=
  match l with
  | [] => Some []
  | (n, c) :: l' =>
      match write_pieces u n c (c_pieces c), write_comps u l' with
      | Some t, Some t' => Some (t ++ t')
      | _, _ => None
      end
  end.

(** The section after its first line, L3052-3079; it is left out if no component has an
    outline. *)
Definition write_placement (u : unit_of) (b : brd) : option str :=
  match write_comps u (b_comps b) with
  | Some t => Some (t ++ S2 ".END_PLACEMENT" ++ [nl])
  | None => None
  end.

(** The holes in the order in which they are written, L2983-3001. *)
Definition holes_written (b : brd) : list drill := b_holes b ++ flat_map (fun c => c_holes (snd c)) (b_comps b).

(** The unit in which [WriteFile] writes, L3099-3104: [UNIT_THOU] is 1, as [true] is. *)
Definition file_unit (aUnitMM : bool) : unit_of := if aUnitMM then Thou else MM.

(** ** Instances *)

(** What [MakeComponents] does with the components, idf2igs.cpp L889-957: the key of the
    subfigure, the label, and what is handed to [calcTransform], the height above the
    board.  [built] says which outlines have a subfigure.  [None] is undefined behaviour:
    a NULL outline is followed (L919). *)
Record inst := mkInst { i_uid : str; i_label : str; i_x : Q; i_y : Q; i_z : Q; i_a : Q; i_bottom : bool }.

Fixpoint piece_insts (built : str -> bool) (name : str) (p : option pos) (l : list piece) : option (list inst) :=
  match l with
  | [] => Some []
  | k :: l' =>
    match k_out k with
    | None => None
    | Some o =>
      match piece_insts built name p l' with
      | None => None
      | Some r =>
        let '(x, y, a, bot) := match p with
                               | Some p => (o_x p, o_y p, o_a p, side_eqb (o_side p) Bottom)
                               | None => (0%Q, 0%Q, 0%Q, false)
                               end in
        if built (uid_of o) then Some (mkInst (uid_of o) name (k_x k + x) (k_y k + y) (k_z k) (k_a k + a) bot :: r)
        else Some r
      end
    end
  end.
Fixpoint instances (built : str -> bool) (l : list (str * comp)) : option (list inst) :=
  match l with
  | [] => Some []
  | (n, c) :: l' =>
    match piece_insts built n (c_pos c) (c_pieces c), instances built l' with
    | Some a, Some r => Some (a ++ r)
    | _, _ => None
    end
  end.
