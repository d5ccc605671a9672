(** The drill holes of an IDF board on their way to the IGES board: idf2igs.cpp,
    [mergeDrills], [bundleDrills] and the part of [MakeBoard] between reading the holes
    and making surfaces.

    A drill is a pointer to a circle; [D] stands for these pointers, so that no drill is
    twice in the list unless the caller put it there.  [O] stands for the outlines and [B] for
    the board, an outline with cutouts and holes.  The
    geometry is a parameter here: what [GetIntersections] says about two circles, and what
    [SubOutline], [AddOutline] and [AddCutout] make of an outline and a circle.  CutModel and
    OvlModel are models of these functions; the answers of circles are taken from CutModel
    in DrCase. *)
From Coq Require Import List Bool Arith.
Import ListNotations.

(** What [GetIntersections] answers for two circles: true, false with no flag raised, or
    false with a flag (mergeDrills, L556, L588, L610, L629). *)
Inductive answer := Hit | Clear | Flagged.

(** What [SubOutline], [AddOutline] and [AddCutout] answer: true, false, or false with the
    error flag set; and the outline afterwards. *)
Inductive reply (X : Type) := Took (x : X) | Left (x : X) | Bad (x : X).
Arguments Took {X}. Arguments Left {X}. Arguments Bad {X}.

Section Geometry.
Context {D O B : Type}.

(** ** mergeDrills, L520-666 *)

Section Merge.
Variable meet : D -> D -> answer.

(** The inner loop over the drills after [*sD] (L554-637), up to the first which is not
    simply clear of [s]. *)
Inductive scanned := AllClear | FlagSeen | HitAt (before : list D) (d : D) (after : list D).

Fixpoint scan (s : D) (l : list D) : scanned :=
  match l with
  | [] => AllClear
  | d :: r =>
    match meet s d with
    | Hit => HitAt [] d r
    | Flagged => FlagSeen
    | Clear => match scan s r with HitAt b x a => HitAt (d :: b) x a | other => other end
    end
  end.

(** One pass of [sD1] over the drills (L584-619): the drills moved to the bundle, those
    which stay, and whether a flag was seen. *)
Fixpoint sweep (m : D) (l : list D) : list D * list D * bool :=
  match l with
  | [] => ([], [], false)
  | d :: r =>
    match meet m d with
    | Hit => let '(h, k, f) := sweep m r in (d :: h, k, f)
    | Flagged => ([], l, true)
    | Clear => let '(h, k, f) := sweep m r in (h, d :: k, f)
    end
  end.

(** The loop over the bundle while it grows (L572-623).  The drills are in two parts: those
    before [sD] and those from [sD] on; [sD] is moved when its drill goes (L594-602).
    [todo] is the bundle from [sS] on.  The flag tells that a geometry flag was seen; [None]
    is fuel used up, which does not happen. *)
Fixpoint grow (fuel : nat) (done todo pre rest : list D) : option (list D * list D * list D * bool) :=
  match todo with
  | [] => Some (done, pre, rest, false)
  | m :: t =>
    match fuel with
    | 0 => None
    | S n =>
      let '(h1, pre', f1) := sweep m pre in
      if f1 then Some (done ++ m :: t ++ h1, pre', rest, true)
      else
        let '(h2, rest', f2) := sweep m rest in
        if f2 then Some (done ++ m :: t ++ h1 ++ h2, pre', rest', true)
        else grow n (done ++ [m]) (t ++ h1 ++ h2) pre' rest'
    end
  end.

(** What [mergeDrills] leaves behind before it makes outlines: the drills still in the list,
    the bundles, and whether it gave up because of a flag (L610-616, L629-634).  [Crash] is
    an iterator used after its element was erased. *)
Inductive merged := Crash | NoFuel | Merged (drills : list D) (bundles : list (list D)) (gave_up : bool).

(** The loop over [sD] (L546-645).  [old] is the drill which [seg2] is attached to after a
    bundle was made: the inner loop goes on with it (L625-626) although [sD] is another
    drill by then, and takes [*sD] into the bundle if it finds something (L562). *)
Fixpoint walk (fuel : nat) (old : option D) (pre rest : list D) (bs : list (list D)) : merged :=
  match fuel with
  | 0 => NoFuel
  | S n =>
    let bundle s d pre rest keep :=
      match grow (S (S (length pre + length rest))) [] [s; d] pre rest with
      | None => NoFuel
      | Some (b, pre', rest', true) => Merged (pre' ++ rest') (bs ++ [b]) true
      | Some (b, pre', rest', false) => walk n (Some keep) pre' rest' (bs ++ [b])
      end in
    match old with
    | Some s0 =>
      match scan s0 rest with
      | AllClear => walk n None pre rest bs
      | FlagSeen => Merged (pre ++ rest) bs true
      | HitAt [] _ _ => Crash
      | HitAt (x :: b) d a => bundle x d pre (b ++ a) s0
      end
    | None =>
      match rest with
      | [] => Merged pre bs false
      | s :: r =>
        match scan s r with
        | AllClear => walk n None (pre ++ [s]) r bs
        | FlagSeen => Merged (pre ++ rest) bs true
        | HitAt b d a => bundle s d pre (b ++ a) s
        end
      end
    end
  end.

Definition merge (drills : list D) : merged := walk (S (length drills + length drills)) None [] drills [].

End Merge.

(** ** bundleDrills, L670-743 *)

(** [closer f a b]: the gap between [a] and [f] is less than that between [b] and [f]
    (L691-707, L717). *)
Variable closer : D -> D -> D -> bool.

(** The exchange sort of L709-724: for one [i], the element at [i] is compared with those
    after it and exchanged with each which is closer. *)
Fixpoint exchange (f x : D) (l : list D) : D * list D :=
  match l with
  | [] => (x, [])
  | y :: r =>
    if closer f y x then let '(m, r') := exchange f y r in (m, x :: r')
    else let '(m, r') := exchange f x r in (m, y :: r')
  end.

Fixpoint sorted (n : nat) (f : D) (l : list D) : list D :=
  match n, l with
  | S k, x :: r => let '(m, r') := exchange f x r in m :: sorted k f r'
  | _, _ => l
  end.

Definition in_order (f : D) (l : list D) : list D := sorted (length l) f l.

(** [AddSegment] of the first circle to a new outline, and [AddOutline] of a circle. *)
Variable begin : D -> O.
Variable add : O -> D -> reply O.

(** L731-738: the others are added one after the other; [false] when one was not taken. *)
Fixpoint add_all (o : O) (l : list D) : bool * O :=
  match l with
  | [] => (true, o)
  | d :: r => match add o d with Took o' => add_all o' r | _ => (false, o) end
  end.

(** An entry of the list of cutouts.  When [bundleDrills] returns false (L736) its handle
    [op] still owns the outline which is in the list already (L729): the outline is
    destroyed with the handle and the entry points to nothing. *)
Inductive entry := Alive (o : O) (made_of : list D) | Freed.

Definition bundle_outline (b : list D) : bool * entry :=
  match b with
  | [] => (false, Freed)
  | f :: others =>
    let l := in_order f others in
    let '(ok, o) := add_all (begin f) l in
    if ok then (true, Alive o (f :: l)) else (false, Freed)
  end.

(** L650-665: outlines are made of the bundles until one fails. *)
Fixpoint bundle_all (bs : list (list D)) (cutouts : list entry) : list entry * list (list D) :=
  match bs with
  | [] => (cutouts, [])
  | b :: r =>
    let '(ok, e) := bundle_outline b in
    if ok then bundle_all r (cutouts ++ [e]) else (cutouts ++ [e], bs)
  end.

(** [mergeDrills] as a whole, L520-666: the drills left, the cutouts, and the drills which
    are in neither.  The error flag is cleared at L522 and not written again, so it is no
    part of the result. *)
Inductive merge_result := MCrash | MNoFuel | MDone (drills : list D) (cutouts : list entry) (lost : list D).

Definition merge_drills (meet : D -> D -> answer) (drills : list D) (cutouts : list entry) : merge_result :=
  match merge meet drills with
  | Crash => MCrash
  | NoFuel => MNoFuel
  | Merged l bs true => MDone l cutouts (concat bs)
  | Merged l bs false => let '(c, rem) := bundle_all bs cutouts in MDone l c (concat rem)
  end.

(** ** MakeBoard, L254-344 *)

(** [SubOutline] of the board's outline and a circle; [AddCutout] of an outline or a circle:
    whether it is taken. *)
Variable sub : B -> D -> reply B.
Variable put_cutout : B -> O -> reply B.
Variable put_hole : B -> D -> reply B.

(** L267-291: the drills which cut the edge are taken off the list. [None]: error. *)
Fixpoint cut_edge (o : B) (l : list D) : option (B * list D * list D) :=
  match l with
  | [] => Some (o, [], [])
  | d :: r =>
    match sub o d with
    | Took o' => match cut_edge o' r with Some (o'', t, k) => Some (o'', d :: t, k) | None => None end
    | Left o' => match cut_edge o' r with Some (o'', t, k) => Some (o'', t, d :: k) | None => None end
    | Bad _ => None
    end
  end.

(** L293-325: each cutout is given the drills which are left; those it takes are off the
    list.  An entry which was freed is a crash here; so it is in [killCutouts] (L768-786),
    which runs when an error is met. *)
Fixpoint give (o : O) (l : list D) : option (O * list D * list D) :=
  match l with
  | [] => Some (o, [], [])
  | d :: r =>
    match add o d with
    | Took o' => match give o' r with Some (o'', t, k) => Some (o'', d :: t, k) | None => None end
    | Left o' => match give o' r with Some (o'', t, k) => Some (o'', t, d :: k) | None => None end
    | Bad _ => None
    end
  end.

Fixpoint give_all (cs : list (O * list D)) (l : list D) : option (list (O * list D) * list D) :=
  match cs with
  | [] => Some ([], l)
  | (o, m) :: r =>
    match give o l with
    | None => None
    | Some (o', t, k) =>
      match give_all r k with
      | None => None
      | Some (cs', k') => Some ((o', m ++ t) :: cs', k')
      end
    end
  end.

(** L327-344: the cutouts, then the drills, are added to the board; the answers are not
    looked at, nor is [dud].  The result: the outline, what was added, what was not. *)
Fixpoint put_cutouts (o : B) (cs : list (O * list D)) : B * list D * list D :=
  match cs with
  | [] => (o, [], [])
  | (c, m) :: r =>
    match put_cutout o c with
    | Took o' => let '(o'', i, x) := put_cutouts o' r in (o'', m ++ i, x)
    | Left o' | Bad o' => let '(o'', i, x) := put_cutouts o' r in (o'', i, m ++ x)
    end
  end.

Fixpoint put_holes (o : B) (l : list D) : B * list D * list D :=
  match l with
  | [] => (o, [], [])
  | d :: r =>
    match put_hole o d with
    | Took o' => let '(o'', i, x) := put_holes o' r in (o'', d :: i, x)
    | Left o' | Bad o' => let '(o'', i, x) := put_holes o' r in (o'', i, d :: x)
    end
  end.

Fixpoint all_alive (l : list entry) : option (list (O * list D)) :=
  match l with
  | [] => Some []
  | Alive o m :: r => match all_alive r with Some x => Some ((o, m) :: x) | None => None end
  | Freed :: _ => None
  end.

(** Where the drills are when the surfaces are made. *)
Record board := Board {
  plate : B;
  on_edge : list D;      (* taken by the edge of the board *)
  in_cutouts : list D;   (* in cutouts which were added *)
  as_holes : list D;     (* added as round holes *)
  dropped : list D;      (* in cutouts or holes which were declined: the answer is ignored *)
  vanished : list D }.   (* taken off the list and never seen again *)

Inductive made := Dies | Fails | Makes (b : board).

(** [MakeBoard] from L254 to L344, [edge] being the outline of the board and [cutouts] the
    other loops of it, [drills] all drills.  The surfaces (L346-353) are the subject of
    PcbModel; the entities added to the model are not modelled. *)
Definition make_board (meet : D -> D -> answer) (edge : B) (cutouts : list O) (drills : list D) : made :=
  match merge_drills meet drills (map (fun o => Alive o []) cutouts) with
  | MCrash | MNoFuel => Dies
  | MDone l cs lost =>
    match all_alive cs with
    | None => Dies
    | Some cs' =>
      match cut_edge edge l with
      | None => Fails
      | Some (o, on, l') =>
        match give_all cs' l' with
        | None => Fails
        | Some (cs'', l'') =>
          let '(o2, inc, x1) := put_cutouts o cs'' in
          let '(o3, holes, x2) := put_holes o2 l'' in
          Makes (Board o3 on inc holes (x1 ++ x2) lost)
        end
      end
    end
  end.

End Geometry.
