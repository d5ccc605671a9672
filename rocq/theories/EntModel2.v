(** Model of the [format] and [readPD] methods of the solids, subfigures, colors
    and properties in /repo/src/entities; conventions as in [EntModel]. *)

From Coq Require Import QArith Qabs.
From Verif Require Import Base Num IoModel PdModel EntModel.
Open Scope Z_scope.

(** ** Right circular cylinder, type 154 *)

Record cylinder := mkCyl { cy_h : Q; cy_r : Q; cy_x : Q; cy_y : Q; cy_z : Q }.

(** entity154.cpp L84-157; the axis [(i, j, k)] is written after the members of
    the record. *)
Definition format154 (c : cylinder) (i j k : Q) (extras : list (Z * Z)) (cs : list str) (index seq : Z)
  (pd rd : ascii) (uir : Q) : pres pdrec :=
  format_frame (showZ 154 ++ [pd])
    (reals_acts uir [cy_h c; cy_r c; cy_x c; cy_y c; cy_z c; i; j; k] pd (fdel extras pd rd))
    extras cs index seq pd rd.

(** entity154.cpp L249-293, height and radius: a radius below the resolution sets
    the height. *)
Definition parse154a (uir : Q) (pd rd : ascii) (data : str) (idx : nat) : pres (Q * Q * nat * bool) :=
  do (h, i, e) <- ParseReal data idx false pd rd None;
  guard (negb (Qlt_bool h uir) || Qlt_bool 0 h) (
  let h1 := if Qlt_bool h uir then uir else h in
  do (r, i1, e1) <- ParseReal data i e pd rd None;
  guard (negb (Qlt_bool r uir) || Qlt_bool 0 r) (
  let h2 := if Qlt_bool r uir then uir else h1 in
  POk (h2, r, i1, e1))).

(** entity154.cpp L295-353: five reals which default to 0. *)
Fixpoint parse_opt0 (n : nat) (data : str) (idx : nat) (eor : bool) (pd rd : ascii) : pres (list Q * nat * bool) :=
  match n with
  | O => POk ([], idx, eor)
  | S n' =>
    do (v, i, e) <- parse_real_opt 0 0 data idx eor pd rd;
    do (l, i1, e1) <- parse_opt0 n' data i e pd rd;
    POk (v :: l, i1, e1)
  end.

(** entity154.cpp L249-387; the last component of the axis has no default in a
    record which goes on (L369) and is 1 behind its end (L378). *)
Definition parse154 (uir : Q) (pd rd : ascii) (data : str) (idx : nat) : pres (cylinder * direction * nat * bool) :=
  do (h, r, i, e) <- parse154a uir pd rd data idx;
  do (l, i1, e1) <- parse_opt0 5 data i e pd rd;
  do (k, i2, e2) <- (if e1 : bool then POk (1%Q, i1, e1) else ParseReal data i1 e1 pd rd None);
  match l with
  | [x; y; z; a; b] => POk (mkCyl h r x y z, CheckNormal a b k, i2, e2)
  | _ => PFail
  end.

(** entity154.cpp L222-405. *)
Definition readPD154 (seq pdata count : Z) (pd rd : ascii) (uir : Q) (f : stream) :=
  readPD_frame (parse154 uir pd rd) 154 seq pdata count pd rd f.

(** ** Solid of linear extrusion, type 164 *)

Record extrusion := mkExt { ex_curve : option Z; ex_len : Q }.

(** entity164.cpp L133-217. *)
Definition format164 (x : extrusion) (i j k : Q) (extras : list (Z * Z)) (cs : list str) (index seq : Z)
  (pd rd : ascii) (uir : Q) : pres pdrec :=
  match ex_curve x with
  | Some c =>
    format_frame (showZ 164 ++ [pd])
      (WInt c pd :: reals_acts uir [ex_len x; i; j; k] pd (fdel extras pd rd)) extras cs index seq pd rd
  | None => PFail
  end.

(** entity164.cpp L327-400: the third component of the direction is 1 when it is
    empty and 0 when the record has ended. *)
Definition parse164 (pd rd : ascii) (data : str) (idx : nat) : pres (extrusion * direction * nat * bool) :=
  do (c, i, e) <- parse_int_if (fun v => 1 <=? v) data idx false pd rd;
  do (l, i1, e1) <- ParseReal data i e pd rd None;
  do (v, i2, e2) <- parse_opt0 2 data i1 e1 pd rd;
  do (k, i3, e3) <- parse_real_opt 1 0 data i2 e2 pd rd;
  match v with
  | [a; b] => POk (mkExt (Some c) l, CheckNormal a b k, i3, e3)
  | _ => PFail
  end.

(** entity164.cpp L298-418. *)
Definition readPD164 (seq pdata count : Z) (pd rd : ascii) (f : stream) :=
  readPD_frame (parse164 pd rd) 164 seq pdata count pd rd f.

(** ** Boolean tree, type 180 *)

(** A node of the tree: operation or operand (entity180.h). *)
Inductive node := Op (v : Z) | Arg (p : option Z).
Definition is_op (n : node) : bool := match n with Op _ => true | Arg _ => false end.
Definition node_int (n : node) : Z := match n with Op v => v | Arg p => - ptr0 p end.
Definition node_null (n : node) : bool := match n with Arg None => true | _ => false end.

(** [(nArg - 1) != nOp] negated. *)
Definition balanced (l : list node) : bool :=
  (Z.of_nat (length (filter (fun n => negb (is_op n)) l)) - 1 =? Z.of_nat (length (filter is_op l))).

(** entity180.cpp L188-287.  The checks inside and behind the loop come before it
    here; either way [format] returns false. *)
Definition format180 (nodes : list node) (extras : list (Z * Z)) (cs : list str) (index seq : Z) (pd rd : ascii)
  : pres pdrec :=
  if (Z.of_nat (length nodes) <? 3) || existsb node_null nodes || negb (balanced nodes) then PFail else
  format_frame (showZ 180 ++ pd :: showZ (Z.of_nat (length nodes)) ++ [pd])
    (ints_acts (map node_int nodes) pd (fdel extras pd rd)) extras cs index seq pd rd.

(** The check at entity180.cpp L446-447. *)
Definition node_ok (v : Z) : bool :=
  negb ((v =? 0) || (3 <? v) || (v <? -9999997) || ((v <? 0) && Z.odd v)).
Definition to_node (v : Z) : node := if 0 <? v then Op v else Arg (Some (- v)).

(** entity180.cpp L407-484. *)
Definition parse180 (pd rd : ascii) (data : str) (idx : nat) : pres (list node * nat * bool) :=
  do (n, i, e) <- parse_int_if (fun n => negb (n <? 3) && Z.odd n) data idx false pd rd;
  do (l, i1, e1) <- parse_ints (Z.to_nat n) node_ok data i e pd rd;
  guard (balanced (map to_node l)) (POk (map to_node l, i1, e1)).

(** entity180.cpp L374-502. *)
Definition readPD180 (seq pdata count : Z) (pd rd : ascii) (f : stream) :=
  readPD_frame (parse180 pd rd) 180 seq pdata count pd rd f.

(** ** Manifold solid B-Rep object, type 186 *)

Record brep := mkBrep { br_shell : option Z; br_sof : bool; br_voids : list (Z * bool) }.

(** Pairs of pointer and flag, the last flag followed by [fd]. *)
Definition pairs_ints (l : list (Z * bool)) : list Z := flat_map (fun p => [fst p; zb (snd p)]) l.

(** entity186.cpp L179-278: with voids their number is not written.  [--end()] of
    an empty list (L226) is only compared in a loop which then does not run. *)
Definition format186 (b : brep) (extras : list (Z * Z)) (cs : list str) (index seq : Z) (pd rd : ascii)
  : pres pdrec :=
  if (9999997 <? index) then PFail else
  match br_shell b with
  | None => PFail
  | Some s =>
    format_frame (showZ 186 ++ pd :: showZ s ++ pd :: showZ (zb (br_sof b)) ++ [pd])
      (match br_voids b with
       | [] => [WInt 0 (fdel extras pd rd)]
       | v => ints_acts (pairs_ints v) pd (fdel extras pd rd)
       end) extras cs index seq pd rd
  end.

(** Pairs of pointer and flag, for example entity186.cpp L448-485. *)
Fixpoint parse_pairs (n : nat) (data : str) (idx : nat) (eor : bool) (pd rd : ascii)
  : pres (list (Z * bool) * nat * bool) :=
  match n with
  | O => POk ([], idx, eor)
  | S n' =>
    do (p, i, e) <- parse_int_if any_ptr data idx eor pd rd;
    do (f, i1, e1) <- parse_int_if flag01 data i e pd rd;
    do (l, i2, e2) <- parse_pairs n' data i1 e1 pd rd;
    POk ((p, f =? 1) :: l, i2, e2)
  end.

(** entity186.cpp L396-488. *)
Definition parse186 (pd rd : ascii) (data : str) (idx : nat) : pres (brep * nat * bool) :=
  do (s, i, e) <- parse_int_if any_ptr data idx false pd rd;
  do (o, i1, e1) <- parse_int_if flag01 data i e pd rd;
  do (n, i2, e2) <- parse_int_if (fun n => 0 <=? n) data i1 e1 pd rd;
  do (l, i3, e3) <- parse_pairs (Z.to_nat n) data i2 e2 pd rd;
  POk (mkBrep (Some s) (o =? 1) l, i3, e3).

(** entity186.cpp L369-509. *)
Definition readPD186 (seq pdata count : Z) (pd rd : ascii) (f : stream) :=
  readPD_frame (parse186 pd rd) 186 seq pdata count pd rd f.

(** ** Subfigure definition, type 308 *)

Record subfigure := mkSub { sf_depth : Z; sf_name : str; sf_ents : list Z }.

(** entity308.cpp L138-227; [sf_depth] is what [getDepthLevel] returned (L155). *)
Definition format308 (s : subfigure) (extras : list (Z * Z)) (cs : list str) (index seq : Z) (pd rd : ascii)
  : pres pdrec :=
  match sf_ents s with
  | [] => PFail
  | l =>
    format_frame (showZ 308 ++ pd :: showZ (sf_depth s) ++ [pd])
      (WText (sf_name s) pd :: WInt (Z.of_nat (length l)) pd :: ints_acts l pd (fdel extras pd rd))
      extras cs index seq pd rd
  end.

(** entity308.cpp L357-418; [tIdx < 0 || even || > 9999997] is [negb extra_ok]. *)
Definition parse308 (pd rd : ascii) (data : str) (idx : nat) : pres (subfigure * nat * bool) :=
  do (d, i, e) <- parse_int_if (fun d => 0 <=? d) data idx false pd rd;
  do (nm, i1, e1) <- ParseHString data i e pd rd;
  do (n, i2, e2) <- parse_int_if (fun n => 0 <=? n) data i1 e1 pd rd;
  do (l, i3, e3) <- parse_ints (Z.to_nat n) extra_ok data i2 e2 pd rd;
  POk (mkSub d nm l, i3, e3).

(** entity308.cpp L331-436. *)
Definition readPD308 (seq pdata count : Z) (pd rd : ascii) (f : stream) :=
  readPD_frame (parse308 pd rd) 308 seq pdata count pd rd f.

(** ** Color definition, type 314 *)

Record color := mkColor { co_r : Q; co_g : Q; co_b : Q; co_name : str }.

(** [v < 0 || v > 100] replaced, entity314.cpp L132-148 and L364-380. *)
Definition clamp (dflt v : Q) : Q := if Qlt_bool v 0 || Qlt_bool 100 v then dflt else v.

(** The resolution 0.1 of entity314.cpp L172, L180 and L204. *)
Definition color_res : Q := 1 # 10.

(** entity314.cpp L123-243: the name is one item however long it is. *)
Definition format314 (c : color) (extras : list (Z * Z)) (cs : list str) (index seq : Z) (pd rd : ascii)
  : pres pdrec :=
  let fd := fdel extras pd rd in
  format_frame (showZ 314 ++ [pd])
    ([WReal (clamp 85 (co_r c)) pd color_res; WReal (clamp 20 (co_g c)) pd color_res;
      WReal (clamp 20 (co_b c)) (match co_name c with [] => fd | _ => pd end) color_res] ++
     match co_name c with
     | [] => []
     | s => [WItem (showZ (Z.of_nat (length s)) ++ "H"%char :: s ++ [fd])]
     end) extras cs index seq pd rd.

(** entity314.cpp L337-380.  [cname] keeps its value when the record ended: the
    empty string of the constructor. *)
Definition parse314 (pd rd : ascii) (data : str) (idx : nat) : pres (color * nat * bool) :=
  do (l, i, e) <- parse_reals 3 data idx false pd rd;
  do (s, i1, e1) <- (if e : bool then POk ([], i, e) else ParseHString data i e pd rd);
  match l with
  | [r; g; b] => POk (mkColor (clamp 85 r) (clamp 20 g) (clamp 20 b) s, i1, e1)
  | _ => PFail
  end.

(** entity314.cpp L311-399. *)
Definition readPD314 (seq pdata count : Z) (pd rd : ascii) (f : stream) :=
  readPD_frame (parse314 pd rd) 314 seq pdata count pd rd f.

(** ** Property, type 406 form 15 *)

(** entity406.cpp L185-266; [data] is never NULL while the entity lives (L45). *)
Definition format406 (form : Z) (name : str) (extras : list (Z * Z)) (cs : list str) (index seq : Z) (pd rd : ascii)
  : pres pdrec :=
  guard (form =? 15) (
  format_frame (showZ 406 ++ pd :: showZ 1 ++ [pd]) [WText name (fdel extras pd rd)] extras cs index seq pd rd).

(** entity406.cpp L357-384. *)
Definition parse406 (pd rd : ascii) (data : str) (idx : nat) : pres (str * nat * bool) :=
  do (n, i, e) <- parse_int_if (fun n => n =? 1) data idx false pd rd;
  ParseHString data i e pd rd.

(** entity406.cpp L330-402. *)
Definition readPD406 (seq pdata count : Z) (pd rd : ascii) (f : stream) :=
  readPD_frame (parse406 pd rd) 406 seq pdata count pd rd f.

(** ** Subfigure instance, type 408 *)

Record instance := mkInst { in_def : option Z; in_x : Q; in_y : Q; in_z : Q; in_s : Q }.

(** entity408.cpp L127-206. *)
Definition format408 (o : instance) (extras : list (Z * Z)) (cs : list str) (index seq : Z) (pd rd : ascii) (uir : Q)
  : pres pdrec :=
  match in_def o with
  | None => PFail
  | Some d =>
    format_frame (showZ 408 ++ pd :: showZ d ++ [pd])
      (reals_acts uir [in_x o; in_y o; in_z o; in_s o] pd (fdel extras pd rd)) extras cs index seq pd rd
  end.

(** entity408.cpp L320-369. *)
Definition parse408 (pd rd : ascii) (data : str) (idx : nat) : pres (instance * nat * bool) :=
  do (d, i, e) <- parse_int_if extra_ok data idx false pd rd;
  do (l, i1, e1) <- parse_reals 3 data i e pd rd;
  do (s, i2, e2) <- parse_real_opt 1 1 data i1 e1 pd rd;
  match l with
  | [x; y; z] => POk (mkInst (Some d) x y z s, i2, e2)
  | _ => PFail
  end.

(** entity408.cpp L294-387. *)
Definition readPD408 (seq pdata count : Z) (pd rd : ascii) (f : stream) :=
  readPD_frame (parse408 pd rd) 408 seq pdata count pd rd f.
