(** Model of units, scales, transforms and end points over the whole store of
    entities: [ConvertUnits], [ChangeModelScale], [GetUnitName], the names for
    parts and assemblies (/repo/src/iges/iges.cpp) and [GetStartPoint],
    [GetEndPoint] of the curves.  Reals are exact rationals, rounding is not
    modelled. *)

From Coq Require Import QArith.
From Verif Require Import Base Num IoModel EntModel EntModel2 EntModel3 GeomModel PayloadModel.
Open Scope Z_scope.

(** An entity of the model: its data, [None] for an unsupported (NULL) entity;
    [pTransform] and the first entry of [refs], given by the position in
    [entities].  The pointers within the data are sequence numbers: [2 j + 1]
    points to the entity at position [j]. *)
Record item (D : Type) := mkItem { it_data : option (payload D); it_trans : option nat; it_parent : option nat }.
Arguments mkItem {D}. Arguments it_data {D}. Arguments it_trans {D}. Arguments it_parent {D}.

Definition seq_of (j : nat) : Z := 2 * Z.of_nat j + 1.

(** [entities] and the members of [globalData] which are used here. *)
Record mdl (D : Type) := mkMdl { m_unit : Z; m_res : Q; m_scale : Q; m_ents : list (item D) }.
Arguments mkMdl {D}. Arguments m_unit {D}. Arguments m_res {D}. Arguments m_scale {D}. Arguments m_ents {D}.

(** ** Rescaling *)

(** The loop of entity126.cpp L323-333: the entities above one whose first parent
    is [o], up to the first curve on a surface.  The loop does not end on a cycle
    of first parents: missing fuel, [None]. *)
Fixpoint ancestors {D} (fuel : nat) (es : list (item D)) (o : option nat) : option (list nat * option onsurf) :=
  match o with
  | None => Some ([], None)
  | Some j =>
    match fuel with
    | O => None
    | S fuel' =>
      match nth_error es j with
      | None => None
      | Some it =>
        match it_data it with
        | Some (P142 c) => Some ([], Some c)
        | _ =>
          match ancestors fuel' es (it_parent it) with
          | Some (l, c) => Some (j :: l, c)
          | None => None
          end
        end
      end
    end
  end.

(** [!scaleXY], entity126.cpp L336-352: this curve or one of its ancestors is the
    curve in the parameter space of the surface. *)
Definition is_flat {D} (es : list (item D)) (i : nat) (it : item D) : option bool :=
  match ancestors (length es) es (it_parent it) with
  | None => None
  | Some (_, None) => Some false
  | Some (l, Some c) =>
    match os_b c with
    | Some n => Some (existsb (fun j => seq_of j =? n) (i :: l))
    | None => Some false
    end
  end.

(** [rescale] of the entity at position [i]; [PFail] = returned false, which only
    NULL entities do (entityNULL.cpp L416).  Only NURBS curves look at their
    ancestors. *)
Definition rescale_item {D} (es : list (item D)) (i : nat) (s : Q) (it : item D) : pres (item D) :=
  match it_data it with
  | None => PFail
  | Some (P126 c d) =>
    match is_flat es i it with
    | None => PCrash
    | Some b => POk (mkItem (Some (rescale b s (P126 c d))) (it_trans it) (it_parent it))
    end
  | Some p => POk (mkItem (Some (rescale false s p)) (it_trans it) (it_parent it))
  end.

(** The loop over all entities, iges.cpp L1813-1822 and L1849-1858: it stops at the
    first failure.  [es] is the whole store; rescaling does not change what
    [is_flat] looks at. *)
Fixpoint rescale_all {D} (es : list (item D)) (i : nat) (s : Q) (l : list (item D)) : pres (bool * list (item D)) :=
  match l with
  | [] => POk (true, [])
  | it :: r =>
    match rescale_item es i s it with
    | PCrash => PCrash
    | PFail => POk (false, it :: r)
    | POk it' => do (b, r') <- rescale_all es (S i) s r; POk (b, it' :: r')
    end
  end.

(** [UNIT_TO_MM], iges.cpp L92-105; the table has twelve entries of which the last
    one has no initialiser. *)
Definition unit_table : list Q :=
  [127 # 5; 1; 1; 1524 # 5; 1609344; 1000; 1000000; 127 # 5000; 1 # 1000; 10; 127 # 5000000; 0]%Q.
Definition unit_mm (u : Z) : option Q := if (u <? 1) then None else nth_error unit_table (Z.to_nat (u - 1)).

(** [ConvertUnits], iges.cpp L1784-1827.  Reading outside of the table is
    undefined; dividing by the entry 0 gives an infinity, which is not
    modelled: both [PCrash]. *)
Definition ConvertUnits {D} (m : mdl D) (u : Z) : pres (bool * mdl D) :=
  if m_unit m =? u then POk (true, m) else
  if m_unit m =? 3 then POk (false, m) else
  if u =? 3 then POk (false, m) else
  match unit_mm (m_unit m), unit_mm u with
  | Some a, Some b =>
    if Qeq_bool b 0 then PCrash else
    let cf := (a / b)%Q in
    if Qlt_bool (9999998 # 10000000) cf && Qlt_bool cf (1000001 # 1000000) then POk (true, m) else
    do (ok, es) <- rescale_all (m_ents m) 0 cf (m_ents m);
    POk (ok, mkMdl (if ok : bool then u else m_unit m) (m_res m * cf) (m_scale m) es)
  | _, _ => PCrash
  end.

(** [ChangeModelScale], iges.cpp L1830-1861.  The scale of the model is positive
    (set by [init], [readGlobals] and here). *)
Definition ChangeModelScale {D} (m : mdl D) (t : Q) : pres (bool * mdl D) :=
  if Qlt_bool t (6 # 100000000) then POk (false, m) else
  if Qlt_bool (17000000 # 1) t then POk (false, m) else
  do (ok, es) <- rescale_all (m_ents m) 0 (t / m_scale m)%Q (m_ents m);
  POk (ok, mkMdl (m_unit m) (m_res m * t) t es).

(** ** Names *)

(** [UNIT_NAMES], iges.cpp L76-89: twelve entries, the last one empty. *)
Definition unit_names : list str :=
  [S2 "IN"; S2 "MM"; S2 "CUST"; S2 "FT"; S2 "MI"; S2 "M"; S2 "KM"; S2 "MIL"; S2 "UM"; S2 "CM"; S2 "UIN"; []].

(** [GetUnitName], iges.cpp L2663-2666; [None] = outside of the table. *)
Definition GetUnitName (flag : Z) : option str := if flag <? 0 then None else nth_error unit_names (Z.to_nat flag).

(** A number written with [setw(w)] and [setfill('0')]. *)
Definition zpad (w : nat) (n : Z) : str := repeat "0"%char (w - length (showZ n)) ++ showZ n.

(** The broken down time of [gmtime_r]: [tm_year], [tm_yday], [tm_hour], [tm_min],
    [tm_sec]. *)
Record tm := mkTm { tm_year : Z; tm_yday : Z; tm_hour : Z; tm_min : Z; tm_sec : Z }.

(** [GetNewPartName], iges.cpp L2623-2640, and [GetNewAssemblyName], L2643-2660:
    both append [idxPartNum], which stays 1 (L70; nothing changes it). *)
Definition name_at (prefix : str) (d : tm) : str :=
  prefix ++ zpad 4 (tm_year d + 1900) ++ zpad 3 (tm_yday d + 1) ++ zpad 2 (tm_hour d) ++ zpad 2 (tm_min d) ++
  zpad 2 (tm_sec d) ++ zpad 4 1.
Definition GetNewPartName (d : tm) : str := name_at (S2 "part") d.
Definition GetNewAssemblyName (d : tm) : str := name_at (S2 "assy") d.

(** ** Transforms and end points *)

Definition xf_trans (m : xform) : trans :=
  mkT (mkMat (r11 m) (r12 m) (r13 m) (r21 m) (r22 m) (r23 m) (r31 m) (r32 m) (r33 m)) (mkPt (t1 m) (t2 m) (t3 m)).

(** [GetTransformMatrix], entity124.cpp L475-486, of the entity at position [j].
    The recursion does not end on a cycle: missing fuel, [None]; so is a pointer
    to an entity of another type, which the setters and [associate] exclude. *)
Fixpoint transform_matrix {D} (fuel : nat) (es : list (item D)) (j : nat) : option trans :=
  match fuel with
  | O => None
  | S fuel' =>
    match nth_error es j with
    | Some (mkItem (Some (P124 m)) o _) =>
      match o with
      | None => Some (xf_trans m)
      | Some k => option_map (fun v => tmul v (xf_trans m)) (transform_matrix fuel' es k)
      end
    | _ => None
    end
  end.

(** [if( xform && pTransform ) pt = pTransform->GetTransformMatrix() * pt]. *)
Definition place {D} (es : list (item D)) (o : option nat) (p : pt) : option pt :=
  match o with
  | None => Some p
  | Some j => option_map (fun t => tapply t p) (transform_matrix (S (length es)) es j)
  end.

Definition of_point (p : point) : pt := let '(x, y, z) := p in mkPt x y z.

(** The end points of the curves before the transform: entity100.cpp L417-437,
    104 L375-398, 110 L315-338, 126 L827-950 (without SISL, fewer than two
    coefficients return false). *)
Definition raw_start {D} (p : payload D) : option pt :=
  match p with
  | P100 a => Some (mkPt (a_xs a) (a_ys a) (a_z a))
  | P104 c => Some (mkPt (c_X1 c) (c_Y1 c) (c_ZT c))
  | P110 l => Some (mkPt (l_x1 l) (l_y1 l) (l_z1 l))
  | P126 c _ => match n_pts c with p :: _ :: _ => Some (of_point p) | _ => None end
  | _ => None
  end.
Definition raw_end {D} (p : payload D) : option pt :=
  match p with
  | P100 a => Some (mkPt (a_xe a) (a_ye a) (a_z a))
  | P104 c => Some (mkPt (c_X2 c) (c_Y2 c) (c_ZT c))
  | P110 l => Some (mkPt (l_x2 l) (l_y2 l) (l_z2 l))
  | P126 c _ => match n_pts c with _ :: _ :: _ => Some (of_point (last (n_pts c) (0, 0, 0)%Q)) | _ => None end
  | _ => None
  end.

Definition obind {A B} (o : option A) (f : A -> option B) : option B := match o with Some a => f a | None => None end.

(** [GetStartPoint] and [GetEndPoint] with [xform] = true of the entity at position
    [j]; those of a composite curve are entity102.cpp L635-666.  [None] = returned
    false or no such curve (or no end of the recursion). *)
Fixpoint end_point {D} (which : bool) (fuel : nat) (es : list (item D)) (j : nat) : option pt :=
  match fuel with
  | O => None
  | S fuel' =>
    match nth_error es j with
    | Some (mkItem (Some p) o _) =>
      obind (match p with
             | P102 l => match (if which then rev l else l) with
                         | [] => None
                         | n :: _ => end_point which fuel' es (Z.to_nat (n / 2))
                         end
             | _ => if which then raw_end p else raw_start p
             end) (place es o)
    | _ => None
    end
  end.
