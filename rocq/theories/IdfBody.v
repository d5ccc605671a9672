(** Model of how the parts on an IDF board become surfaces (/repo/src/idf/idf2igs.cpp):
    the bodies of components and where they are put, and the bodies of OTHER outlines.
    A [double] is a real number; the surfaces are those of PcbModel.v.  Colours, names,
    labels and the subfigures (308, 408) which hold the surfaces are left out: the body of
    a part is the list of its surfaces, put in place by its transform. *)

From Coq Require Import Reals List Bool ZArith.
From Verif Require Import SegModel OutModel PcbModel IdfGeo.
Import ListNotations.
Open Scope R_scope.

(** [MCAD_MATRIX] (mcad_elements.h L88-103), row by row. *)
Record mat := mkMat { m00 : R; m01 : R; m02 : R; m10 : R; m11 : R; m12 : R; m20 : R; m21 : R; m22 : R }.

(** The constructor (mcad_elements.cpp L122-131). *)
Definition mat_one : mat := mkMat 1 0 0 0 1 0 0 0 1.

(** [MCAD_MATRIX * MCAD_POINT] (mcad_elements.cpp L209-217). *)
Definition mat_apply (m : mat) (v : pt) : pt :=
  mkPt (m00 m * px v + m01 m * py v + m02 m * pz v)
       (m10 m * px v + m11 m * py v + m12 m * pz v)
       (m20 m * px v + m21 m * py v + m22 m * pz v).

(** [MCAD_MATRIX * MCAD_MATRIX] (mcad_elements.cpp L220-255). *)
Definition mat_mul (m n : mat) : mat :=
  mkMat (m00 m * m00 n + m01 m * m10 n + m02 m * m20 n)
        (m00 m * m01 n + m01 m * m11 n + m02 m * m21 n)
        (m00 m * m02 n + m01 m * m12 n + m02 m * m22 n)
        (m10 m * m00 n + m11 m * m10 n + m12 m * m20 n)
        (m10 m * m01 n + m11 m * m11 n + m12 m * m21 n)
        (m10 m * m02 n + m11 m * m12 n + m12 m * m22 n)
        (m20 m * m00 n + m21 m * m10 n + m22 m * m20 n)
        (m20 m * m01 n + m21 m * m11 n + m22 m * m21 n)
        (m20 m * m02 n + m21 m * m12 n + m22 m * m22 n).

(** [rotateY] and [rotateZ] (idf2igs.cpp L1199-1220). *)
Definition rotate_y (m : mat) (a : R) : mat :=
  mkMat (cos a) (m01 m) (sin a) (m10 m) (m11 m) (m12 m) (- sin a) (m21 m) (cos a).
Definition rotate_z (m : mat) (a : R) : mat :=
  mkMat (cos a) (- sin a) (m02 m) (sin a) (cos a) (m12 m) (m20 m) (m21 m) (m22 m).

(** [calcTransform] (L1223-1255): the transform of entity 124, turning and then moving. *)
Record place := mkPlace { p_turn : mat; p_move : pt }.
Definition calc_transform (dX dY dZ dA : R) (bottom : bool) : place :=
  let m0 := if eqb dA 0 then mat_one else rotate_z mat_one (if bottom then - dA else dA) in
  let m1 := if bottom then rotate_y mat_one PI else mat_one in
  mkPlace (mat_mul m0 m1) (mkPt dX dY (if bottom then - dZ else dZ)).

(** [MCAD_TRANSFORM * MCAD_POINT] (mcad_elements.cpp L334-339); what entity 124 does to
    a point. *)
Definition place_apply (t : place) (p : pt) : pt :=
  let q := mat_apply (p_turn t) p in
  mkPt (px q + px (p_move t)) (py q + py (p_move t)) (pz q + pz (p_move t)).

(** Where a component is on the board, [GetPosition] and [GetOffsets], the angles in
    degrees. *)
(* [bottom] is true if the layer is [LYR_BOTTOM], L911-914. *)
Record spot := mkSpot { vX : R; vY : R; vA : R; on_bottom : bool; oX : R; oY : R; oZ : R; oA : R }.

(** What [MakeComponents] makes of it (L909-936) on a board of that thickness. *)
Definition place_component (thick : R) (s : spot) : place :=
  let th := (1 / 2) * thick in
  calc_transform (oX s + vX s) (oY s + vY s) (oZ s + th) ((oA s + vA s) * PI / 180) (on_bottom s).

(** Walls and two planes one after the other (L1040-1042, L1046-1048, L1147-1149); the answers are not looked at.  [None] is
    undefined behaviour. *)
Definition with_planes (res : R) (b : board) (top bot : R) (rev_top rev_bot : bool) : option (list trimmed) :=
  let ws := snd (vertical res b top bot) in
  match trimmed_plane res b top rev_top with
  | None => None
  | Some (_, o, l1) =>
      match trimmed_plane res (mkBoard o (b_cuts b) (b_holes b)) bot rev_bot with
      | None => None
      | Some (_, _, l2) => Some (ws ++ l1 ++ l2)
      end
  end.

(** [buildComponent] (L1116-1183): no body, or the surfaces. *)
Inductive part := NoPart | Part (l : list trimmed).
Definition component_body (res : R) (b : board) (th : R) : option (list trimmed) := with_planes res b th 0 false true.
Definition build_component (res : R) (l : list iseg) (th : R) : option part :=
  match l with
  | [] => Some NoPart
  | _ =>
      if ltb th (1 / 1000) then Some NoPart
      else match convert_oln out_init l with
      | None => None
      | Some (false, _) => Some NoPart
      | Some (true, o) => option_map Part (component_body res (mkBoard o [] []) th)
      end
  end.

(** The surfaces of an OTHER outline (L1036-1049): its thickness and half that of the
    board. *)
Definition other_body (res : R) (b : board) (bottom : bool) (th bt : R) : option (list trimmed) :=
  if bottom then with_planes res b (- (th + bt)) (- bt) true true
  else with_planes res b (th + bt) bt false false.

(** [MakeOtherOutlines] (L960-1094).  An OTHER outline is its side, its thickness and its
    loops; what [AddCutout] makes of the board is given by [cut] (it is modelled in
    OvlModel.v; its answer is not looked at).  The board [otln] is made once and goes on to
    the next OTHER outline.  The result is the answer and the bodies made. *)
Record other := mkOther { x_bottom : bool; x_thick : R; x_loops : list (list iseg) }.
Fixpoint convert_all (l : list (list iseg)) : option (option (list outline)) :=
  match l with
  | [] => Some (Some [])
  | x :: l' =>
      match convert_oln out_init x with
      | None => None
      | Some (false, _) => Some None
      | Some (true, o) =>
          match convert_all l' with
          | None => None
          | Some None => Some None
          | Some (Some r) => Some (Some (o :: r))
          end
      end
  end.
Fixpoint make_others (res bt : R) (cut : board -> outline -> board) (otln : board) (l : list other) : option (bool * list (list trimmed)) :=
  match l with
  | [] => Some (true, [])
  | x :: l' =>
      match x_loops x with
      | [] => make_others res bt cut otln l'
      | f :: cs =>
          match convert_oln (b_out otln) f with
          | None => None
          | Some (false, _) => Some (false, [])
          | Some (true, o) =>
              match convert_all cs with
              | None => None
              | Some None => Some (false, [])
              | Some (Some outs) =>
                  let b := fold_left cut outs (mkBoard o (b_cuts otln) (b_holes otln)) in
                  match other_body res b (x_bottom x) (x_thick x) bt with
                  | None => None
                  | Some s =>
                      match make_others res bt cut b l' with
                      | None => None
                      | Some (a, r) => Some (a, s :: r)
                      end
                  end
              end
          end
      end
  end.
