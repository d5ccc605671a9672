(** Model of the handles of geometry: [DLL_MCAD_SEGMENT], [DLL_MCAD_OUTLINE] and
    [DLL_IGES_GEOM_PCB] (/repo/src/dllapi/dll_mcad_segment.cpp, dll_mcad_outline.cpp,
    dll_iges_geom_pcb.cpp) over segments and outlines, which own what they list
    (/repo/src/geom/mcad_segment.cpp L60-148, mcad_outline.cpp L113-209).

    What is computed of the geometry (OutModel, OvlModel) is here an answer given from
    outside, so that what is proved holds whatever the geometry.  Memory is always
    available. *)

From Coq Require Import List Bool Arith.
Import ListNotations.

(** The class of a handle. *)
Inductive kind := KSeg | KOut | KPcb.

(** A segment, with [m_validFlags]; an outline, with its type ([IGES_GEOM_PCB] or not),
    [m_validFlags], [msegments], [mcutouts] and [mholes].  A flag is named by the handle
    it is a member of.  The order of [msegments] is not followed. *)
Inductive geo := Seg (fl : list nat) | Out (pcb : bool) (fl segs cuts holes : list nat).

(** A handle: its class, [m_valid], and [m_segment] or [m_outline]. *)
Record hnd := mkHnd { hk : kind; hv : bool; hp : option nat }.

(** All there is: objects and handles by number ([None]: destroyed, or not yet made);
    the numbers not yet used. *)
Record st := mkSt { obj : nat -> option geo; nxt : nat; hs : nat -> option hnd; nxh : nat }.

Definition empty : st := mkSt (fun _ => None) 0 (fun _ => None) 0.

Definition put {A} (f : nat -> option A) (p : nat) (v : option A) : nat -> option A :=
  fun q => if q =? p then v else f q.
Definition set_obj (p : nat) (g : option geo) (s : st) : st := mkSt (put (obj s) p g) (nxt s) (hs s) (nxh s).
Definition set_hnd (h : nat) (x : option hnd) (s : st) : st := mkSt (obj s) (nxt s) (put (hs s) h x) (nxh s).

Definition bind {A B} (x : option A) (f : A -> option B) : option B := match x with Some a => f a | None => None end.
Notation "'let!' x := a 'in' b" := (bind a (fun x => b)) (at level 200, x pattern, b at level 200).

Fixpoint has (x : nat) (l : list nat) : bool := match l with [] => false | y :: r => (x =? y) || has x r end.
Fixpoint rem1 (x : nat) (l : list nat) : list nat :=
  match l with [] => [] | y :: r => if x =? y then r else y :: rem1 x r end.

(** [m_validFlags] of an object. *)
Definition flags (g : geo) : list nat := match g with Seg fl => fl | Out _ fl _ _ _ => fl end.
Definition with_flags (fl : list nat) (g : geo) : geo :=
  match g with Seg _ => Seg fl | Out b _ ss cs hh => Out b fl ss cs hh end.

(** [*aFlag = b]; [None], here and below, is the use of something destroyed. *)
Definition write_flag (h : nat) (b : bool) (s : st) : option st :=
  let! x := hs s h in Some (set_hnd h (Some (mkHnd (hk x) b (hp x))) s).

(** [AttachValidFlag], mcad_segment.cpp L101-124, mcad_outline.cpp L162-185. *)
Definition attach_flag (p h : nat) (s : st) : option st :=
  let! g := obj s p in
  let! s1 := write_flag h true s in
  Some (if has h (flags g) then s1 else set_obj p (Some (with_flags (flags g ++ [h]) g)) s1).

(** [DetachValidFlag], mcad_segment.cpp L127-148, mcad_outline.cpp L188-209. *)
Definition detach_flag (p h : nat) (s : st) : option st :=
  let! g := obj s p in
  if has h (flags g)
  then let! s1 := write_flag h false s in Some (set_obj p (Some (with_flags (rem1 h (flags g)) g)) s1)
  else Some s.

(** The loop which ends both destructors, mcad_segment.cpp L62-69, mcad_outline.cpp
    L143-150. *)
Fixpoint clear_flags (l : list nat) (s : st) : option st :=
  match l with
  | [] => Some s
  | h :: r => let! s1 := write_flag h false s in clear_flags r s1
  end.

(** [delete] of a segment, mcad_segment.cpp L60-72. *)
Definition del_seg (p : nat) (s : st) : option st :=
  match obj s p with
  | Some (Seg fl) => let! s1 := clear_flags fl s in Some (set_obj p None s1)
  | _ => None
  end.

Fixpoint each (f : nat -> st -> option st) (l : list nat) (s : st) : option st :=
  match l with
  | [] => Some s
  | p :: r => let! s1 := f p s in each f r s1
  end.

(** [delete] of an outline, mcad_outline.cpp L123-153: from the back of each list.  A
    destructor which enters itself without end is [None] too: the depth is bounded by
    the number of objects ever made.  The cutouts stay listed while they are deleted
    (the code drops each one from the list after its [delete]); only an outline which
    contains itself could see the difference, and that one is entered without end. *)
Fixpoint del_out (fuel : nat) (p : nat) (s : st) : option st :=
  match fuel with
  | O => None
  | S k =>
      match obj s p with
      | Some (Out b fl ss cs hh) =>
          let! s1 := each del_seg (rev ss) s in
          let! s2 := each (del_out k) (rev cs) (set_obj p (Some (Out b fl [] cs hh)) s1) in
          let! s3 := each del_seg (rev hh) (set_obj p (Some (Out b fl [] [] hh)) s2) in
          let! s4 := clear_flags fl s3 in
          Some (set_obj p None s4)
      | _ => None
      end
  end.

Definition del (p : nat) (s : st) : option st :=
  match obj s p with
  | Some (Seg _) => del_seg p s
  | Some (Out _ _ _ _ _) => del_out (S (nxt s)) p s
  | None => None
  end.

(** [m_valid] set and the pointer not NULL: the object a handle has. *)
Definition has_obj (x : hnd) : option nat := if hv x then hp x else None.

(** [new MCAD_SEGMENT], [new MCAD_OUTLINE], [new IGES_GEOM_PCB]. *)
Definition fresh (k : kind) : geo :=
  match k with KSeg => Seg [] | KOut => Out false [] [] [] [] | KPcb => Out true [] [] [] [] end.
Definition alloc (g : geo) (s : st) : st := mkSt (put (obj s) (nxt s) (Some g)) (S (nxt s)) (hs s) (nxh s).

(** [NewSegment], dll_mcad_segment.cpp L68-85; [NewOutline], dll_mcad_outline.cpp
    L69-86, dll_iges_geom_pcb.cpp L55-72. *)
Definition new_obj (h : nat) (s : st) : option (st * bool) :=
  let! x := hs s h in
  let! s1 := match has_obj x with Some p => del p s | None => Some s end in
  let s2 := alloc (fresh (hk x)) (set_hnd h (Some (mkHnd (hk x) false (Some (nxt s1)))) s1) in
  let! s3 := attach_flag (nxt s1) h s2 in
  Some (s3, true).

(** The constructors, dll_mcad_segment.cpp L38-47, dll_mcad_outline.cpp L39-48,
    dll_iges_geom_pcb.cpp L40-46. *)
Definition make (k : kind) (create : bool) (s : st) : option (st * bool) :=
  let h := nxh s in
  let s1 := mkSt (obj s) (nxt s) (put (hs s) h (Some (mkHnd k false None))) (S h) in
  if create then new_obj h s1 else Some (s1, true).

(** The destructors, dll_mcad_segment.cpp L50-59, dll_mcad_outline.cpp L51-60. *)
Definition destroy (h : nat) (s : st) : option (st * bool) :=
  let! x := hs s h in
  let! s1 := match has_obj x with
             | Some p => let! s1 := detach_flag p h s in del p s1
             | None => Some s
             end in
  Some (set_hnd h None s1, true).

(** [DelSegment], dll_mcad_segment.cpp L88-98; [DelOutline], dll_mcad_outline.cpp
    L89-99. *)
Definition del_obj (h : nat) (s : st) : option (st * bool) :=
  let! x := hs s h in
  match has_obj x with
  | None => Some (s, false)
  | Some p =>
      let! s1 := detach_flag p h s in
      let! s2 := del p s1 in
      let! y := hs s2 h in
      Some (set_hnd h (Some (mkHnd (hk y) (hv y) None)) s2, true)
  end.

(** [Detach], dll_mcad_segment.cpp L101-109, dll_mcad_outline.cpp L102-110. *)
Definition detach (h : nat) (s : st) : option (st * bool) :=
  let! x := hs s h in
  let! s1 := match has_obj x with Some p => detach_flag p h s | None => Some s end in
  Some (set_hnd h (Some (mkHnd (hk x) false None)) s1, true).

(** Whether a pointer to this object is one the class of handle takes: the types of C++,
    and for [KPcb] also [GetOutlineType], dll_iges_geom_pcb.cpp L80. *)
Definition fits (k : kind) (g : geo) : bool :=
  match k, g with
  | KSeg, Seg _ => true
  | KOut, Out _ _ _ _ _ => true
  | KPcb, Out b _ _ _ _ => b
  | _, _ => false
  end.

(** [Attach], dll_mcad_segment.cpp L112-124, dll_mcad_outline.cpp L113-122,
    dll_iges_geom_pcb.cpp L75-90; the pointer is not NULL. *)
Definition attach (h p : nat) (s : st) : option (st * bool) :=
  let! x := hs s h in
  match has_obj x with
  | Some _ => Some (s, false)
  | None =>
      let! g := obj s p in
      if fits (hk x) g
      then let! s1 := attach_flag p h (set_hnd h (Some (mkHnd (hk x) (hv x) (Some p))) s) in Some (s1, true)
      else Some (s, false)
  end.

(** The copy constructor the compiler supplies: every member is copied, and no flag is
    registered for the copy. *)
Definition copy (h : nat) (s : st) : option (st * bool) :=
  let! x := hs s h in
  Some (mkSt (obj s) (nxt s) (put (hs s) (nxh s) (Some x)) (S (nxh s)), true).

(** [GetRawPtr], dll_mcad_segment.cpp L127-133, dll_mcad_outline.cpp L125-131: the
    pointer of a handle which is not valid becomes NULL. *)
Definition get_raw (h : nat) (s : st) : option (st * option nat) :=
  let! x := hs s h in
  let y := mkHnd (hk x) (hv x) (has_obj x) in
  Some (set_hnd h (Some y) s, hp y).

(** [n] new segments, and their numbers. *)
Fixpoint new_segs (n : nat) (s : st) : st * list nat :=
  match n with
  | O => (s, [])
  | S k => let (s1, l) := new_segs k (alloc (Seg []) s) in (s1, nxt s :: l)
  end.

(** [msegments.push_back], [mcutouts.push_back], [mholes.push_back]; and replacing
    [msegments]. *)
Definition add_seg (q : nat) (g : geo) : geo :=
  match g with Out b fl ss cs hh => Out b fl (ss ++ [q]) cs hh | _ => g end.
Definition add_cut (q : nat) (g : geo) : geo :=
  match g with Out b fl ss cs hh => Out b fl ss (cs ++ [q]) hh | _ => g end.
Definition add_hole (q : nat) (g : geo) : geo :=
  match g with Out b fl ss cs hh => Out b fl ss cs (hh ++ [q]) | _ => g end.
Definition put_segs (l : list nat) (g : geo) : geo :=
  match g with Out b fl _ cs hh => Out b fl l cs hh | _ => g end.
Definition segs_of (g : geo) : list nat := match g with Out _ _ ss _ _ => ss | _ => [] end.
Definition cuts_of (g : geo) : list nat := match g with Out _ _ _ cs _ => cs | _ => [] end.
Definition is_out (g : geo) : bool := match g with Out _ _ _ _ _ => true | _ => false end.
Definition is_seg (g : geo) : bool := negb (is_out g).

Definition modify (p : nat) (f : geo -> geo) (s : st) : option st :=
  let! g := obj s p in Some (set_obj p (Some (f g)) s).

(** [MCAD_OUTLINE::AddSegment], mcad_outline.cpp L420-607: the segment is refused, or
    listed. *)
Definition core_seg (o q : nat) (yes : bool) (s : st) : option (st * bool) :=
  let! g := obj s q in
  let! _ := obj s o in
  if is_seg g then
    if yes then let! s1 := modify o (add_seg q) s in Some (s1, true) else Some (s, false)
  else None.

(** The outcome of [opOutline]: nothing done, or given up after [m] new segments were
    put into this outline and [n] into the other one; or the shape is changed: of the
    segments of both those which [keep] says stay, and [n] new ones join them. *)
Inductive eff := NotMerged (m n : nat) | Merged (keep : nat -> bool) (n : nat).

(** [opOutline] with an outline, mcad_outline.cpp L1192-1927, as far as objects are
    concerned: segments of this outline which are not kept are deleted (L1694, L1731),
    those of the other outline which are kept move over and it is deleted with
    everything it still lists (L1767, L1811, L1853-1913).  The cases which the code
    itself marks as impossible ([BUG] after trimming began) are left out. *)
Definition core_merge (o a : nat) (e : eff) (s : st) : option (st * bool) :=
  let! go := obj s o in
  let! ga := obj s a in
  if is_out go && is_out ga then
    match e with
    | NotMerged m n =>
        let (s1, l1) := new_segs m s in
        let! s2 := modify o (put_segs (segs_of go ++ l1)) s1 in
        let (s3, l2) := new_segs n s2 in
        let! s4 := modify a (put_segs (segs_of ga ++ l2)) s3 in
        Some (s4, false)
    | Merged keep n =>
        let! s1 := each del_seg (filter (fun p => negb (keep p)) (segs_of go)) s in
        let (s2, l) := new_segs n s1 in
        let! s3 := modify o (put_segs (filter keep (segs_of go) ++ filter keep (segs_of ga) ++ l)) s2 in
        let! s4 := modify a (put_segs (filter (fun p => negb (keep p)) (segs_of ga))) s3 in
        let! s5 := del a s4 in
        Some (s5, true)
    end
  else None.

(** [opOutline] with a circle, mcad_outline.cpp L611-1188: the same, and the circle is
    deleted by [AddOutline] or [SubOutline] (L1948-1958, L1972-1982). *)
Definition core_mergec (o c : nat) (e : eff) (s : st) : option (st * bool) :=
  let! go := obj s o in
  let! gc := obj s c in
  if is_out go && is_seg gc then
    match e with
    | NotMerged m _ =>
        let (s1, l1) := new_segs m s in
        let! s2 := modify o (put_segs (segs_of go ++ l1)) s1 in
        Some (s2, false)
    | Merged keep n =>
        let! s1 := each del_seg (filter (fun p => negb (keep p)) (segs_of go)) s in
        let (s2, l) := new_segs n s1 in
        let! s3 := modify o (put_segs (filter keep (segs_of go) ++ l)) s2 in
        let! s4 := del c s3 in
        Some (s4, true)
    end
  else None.

(** The loop over [mcutouts] in [AddCutout], mcad_outline.cpp L2058-2078, L2134-2154:
    [Some (s, Some b)] when it returns [b], [Some (s, None)] when it ends.  Each answer
    comes with the error flag. *)
Fixpoint core_cuts (merge : nat -> eff -> st -> option (st * bool)) (cs : list nat) (es : list (eff * bool)) (s : st)
  : option (st * option bool) :=
  match cs with
  | [] => Some (s, None)
  | c :: r =>
      let (e, err) := match es with [] => (NotMerged 0 0, false) | x :: _ => x end in
      let! (s1, b) := merge c e s in
      if b then Some (s1, Some true)
      else if err then Some (s1, Some false)
      else core_cuts merge r (tl es) s1
  end.

(** What [AddCutout] finds: whether the argument is refused at once (L2028, L2104),
    whether overlaps are looked for, and the answers of [opOutline], first for this
    outline and then for its cutouts. *)
Record cutans := mkCut { c_refused : bool; c_overlaps : bool; c_self : eff * bool; c_cuts : list (eff * bool) }.

(** [AddCutout], mcad_outline.cpp L2013-2082 and L2089-2158. *)
Definition core_cutout (merge : nat -> eff -> st -> option (st * bool)) (o q : nat) (add : geo -> geo) (r : cutans)
  (s : st) : option (st * bool) :=
  let! _ := obj s q in
  let! g := obj s o in
  if c_refused r then Some (s, false)
  else if negb (c_overlaps r) then let! s1 := modify o add s in Some (s1, true)
  else
    let! (s1, b) := merge o (fst (c_self r)) s in
    if b then Some (s1, true)
    else if snd (c_self r) then Some (s1, false)
    else
      let! (s2, b2) := core_cuts merge (cuts_of g) (c_cuts r) s1 in
      match b2 with
      | Some b => Some (s2, b)
      | None => let! s3 := modify o add s2 in Some (s3, true)
      end.

Definition core_cut (o a : nat) (r : cutans) (s : st) : option (st * bool) :=
  let! g := obj s a in
  if is_out g then core_cutout (fun o' => core_merge o' a) o a (add_cut a) r s else None.
Definition core_drill (o c : nat) (r : cutans) (s : st) : option (st * bool) :=
  let! g := obj s c in
  if is_seg g then core_cutout (fun o' => core_mergec o' c) o c (add_hole c) r s else None.

(** An argument: a handle, or a raw pointer (not NULL). *)
Inductive arg := ByHandle (h : nat) | ByPtr (p : nat).

(** Every method of [DLL_MCAD_OUTLINE] which adds something, dll_mcad_outline.cpp
    L293-472: with a handle it takes its pointer, and on success detaches the handle. *)
Definition add_any (f : nat -> nat -> st -> option (st * bool)) (h : nat) (a : arg) (s : st) : option (st * bool) :=
  let! x := hs s h in
  match has_obj x with
  | None => Some (s, false)
  | Some o =>
      match a with
      | ByPtr p => f o p s
      | ByHandle g =>
          let! (s1, q) := get_raw g s in
          match q with
          | None => Some (s1, false)
          | Some p =>
              let! (s2, b) := f o p s1 in
              if b then detach g s2 else Some (s2, false)
          end
      end
  end.

(** What a user does. *)
Inductive op :=
| Make (k : kind) (create : bool)
| Destroy (h : nat)
| New (h : nat)
| Del (h : nat)
| Detach (h : nat)
| Attach (h p : nat)
| Copy (h : nat)
| AddSegment (h : nat) (a : arg) (yes : bool)
| Merge (h : nat) (a : arg) (e : eff)       (* AddOutline, SubOutline with an outline *)
| MergeCircle (h : nat) (a : arg) (e : eff) (* AddOutline, SubOutline with a circle *)
| AddCutout (h : nat) (a : arg) (r : cutans)
| AddHole (h : nat) (a : arg) (r : cutans). (* AddCutout with a circle *)

Definition exec (o : op) (s : st) : option (st * bool) :=
  match o with
  | Make k c => make k c s
  | Destroy h => destroy h s
  | New h => new_obj h s
  | Del h => del_obj h s
  | Detach h => detach h s
  | Attach h p => attach h p s
  | Copy h => copy h s
  | AddSegment h a yes => add_any (fun o p => core_seg o p yes) h a s
  | Merge h a e => add_any (fun o p => core_merge o p e) h a s
  | MergeCircle h a e => add_any (fun o p => core_mergec o p e) h a s
  | AddCutout h a r => add_any (fun o p => core_cut o p r) h a s
  | AddHole h a r => add_any (fun o p => core_drill o p r) h a s
  end.

Fixpoint run (l : list op) (s : st) : option st :=
  match l with
  | [] => Some s
  | o :: r => let! (s1, _) := exec o s in run r s1
  end.
