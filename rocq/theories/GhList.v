(** Model of the functions of the handles of geometry which hand out arrays
    (/repo/src/dllapi/dll_iges_geom_pcb.cpp L93-349, dll_mcad_outline.cpp L134-221,
    dll_mcad_segment.cpp L287-361, L387-441). *)

From Coq Require Import List Bool ZArith.
From Verif Require Import GhModel.
Import ListNotations.
Local Open Scope Z_scope.

(** An element of an array got from [new []]: not yet written, or something.  An array,
    or NULL.  Integers do not overflow. *)
Definition cell := option nat.
Definition arr := option (list cell).

(** [pl[i] = v]; [None], here and below, is what C++ leaves undefined: an index outside
    the array, a NULL pointer followed, an object used which was destroyed. *)
Definition write (i : nat) (v : cell) (pl : list cell) : option (list cell) :=
  if Nat.ltb i (length pl) then Some (firstn i pl ++ v :: skipn (S i) pl) else None.

(** Writing one after the other, from index [i]. *)
Fixpoint write_all (i : nat) (l : list cell) (pl : list cell) : option (list cell) :=
  match l with
  | [] => Some pl
  | v :: r => let! pl1 := write i v pl in write_all (S i) r pl1
  end.

(** What is taken over of the array of the caller: [n] elements when [n > 0] and it is
    not NULL (dll_iges_geom_pcb.cpp L112-120, dll_mcad_segment.cpp L413-420). *)
Definition taken (a : arr) (n : Z) : option (list cell) :=
  match a with
  | Some l => if 0 <? n then if n <=? Z.of_nat (length l) then Some (firstn (Z.to_nat n) l) else None else Some []
  | None => Some []
  end.

(** The new array: room for both, the old elements copied, then the new ones from the
    first up to the end iterator, which stands at position [stop]. *)
Definition joined (old : list cell) (new : list nat) (stop : nat) : option (list cell) :=
  let! pl := write_all 0 old (repeat None (length old + length new)) in
  write_all (length old) (map Some (firstn stop new)) pl.

(** The tests at the start: L97 (also L155 and L200), L251, and L304. *)
Definition refuse_std (x : hnd) : bool := match hp x with None => true | Some _ => negb (hv x) end.
Definition refuse_plane (x : hnd) : bool := match hp x with None => negb (hv x) | Some _ => false end.
Definition refuse_wall (x : hnd) : bool := match hp x with None => true | Some _ => hv x end.

(** One of the five functions, with what the function of the object answers. *)
Definition fetch (refuse : hnd -> bool) (stop : list nat -> nat) (core : bool * list nat) (h : nat) (a : arr) (n : Z) (s : st)
  : option (bool * arr * Z) :=
  let! x := hs s h in
  if refuse x then Some (false, a, n)
  else
    let! p := hp x in
    let! _ := obj s p in
    let (ok, new) := core in
    if ok && negb (match new with [] => true | _ => false end)
    then
      let! old := taken a n in
      let! pl := joined old new (stop new) in
      Some (true, Some pl, Z.of_nat (length new + length old))
    else Some (false, a, n).

(** L93-142, L145-194; L197-244 ([eC = curves.begin()], L232); L247-297 (the same, L285);
    L300-349. *)
Definition get_vertical := fetch refuse_std (@length nat).
Definition get_plane := fetch refuse_std (@length nat).
Definition get_curves := fetch refuse_std (fun _ => 0%nat).
Definition get_curve_on_plane := fetch refuse_plane (fun _ => 0%nat).
Definition get_wall := fetch refuse_wall (@length nat).

(** [GetSegments], [GetCutouts], [GetDrillHoles], dll_mcad_outline.cpp L134-221: the
    arguments are overwritten at once. *)
Inductive which := Segments | Cutouts | DrillHoles.
Definition list_of (w : which) (g : geo) : list nat :=
  match g, w with
  | Out _ _ ss _ _, Segments => ss
  | Out _ _ _ cs _, Cutouts => cs
  | Out _ _ _ _ hh, DrillHoles => hh
  | Seg _, _ => []
  end.
Definition get_list (w : which) (h : nat) (s : st) : option (bool * arr * Z) :=
  let! x := hs s h in
  if refuse_std x then Some (false, None, 0)
  else
    let! p := hp x in
    let! g := obj s p in
    match list_of w g with
    | [] => Some (false, None, 0)
    | l => let! pl := write_all 0 (map Some l) (repeat None (length l)) in Some (true, Some pl, Z.of_nat (length l))
    end.

(** [Split], dll_mcad_segment.cpp L387-441: [given] is whether [aIntersectList] is not
    NULL, [k] the number of points, [core] what [MCAD_SEGMENT::Split] answers. *)
Definition split (given : bool) (k : Z) (core : bool * list nat) (h : nat) (a : arr) (n : Z) (s : st)
  : option (bool * arr * Z) :=
  let! x := hs s h in
  if refuse_std x then Some (false, a, n)
  else if k =? 0 then Some (true, a, n)
  else if negb given || (k <? 0) then Some (false, a, n)
  else
    let! p := hp x in
    let! _ := obj s p in
    let (ok, new) := core in
    if ok then
      let! old := taken a n in
      let! pl := joined old new (length new) in
      Some (true, Some pl, n + Z.of_nat (length new))
    else Some (false, a, n).

(** [GetIntersections], dll_mcad_segment.cpp L287-323 (L326-361 with a handle): points are
    numbers here. *)
Definition intersections (core : bool * list nat) (h : nat) (a : arr) (n : Z) (s : st) : option (bool * arr * Z) :=
  let! x := hs s h in
  if refuse_std x then Some (false, a, n)
  else if negb (match a with None => true | Some _ => false end) || negb (n =? 0) then Some (false, a, n)
  else
    let! p := hp x in
    let! _ := obj s p in
    let (ok, new) := core in
    if ok then
      let! pl := write_all 0 (map Some new) (repeat None (length new)) in
      Some (true, Some pl, Z.of_nat (length new))
    else Some (false, a, n).
