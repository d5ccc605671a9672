(** Model of the two lists of texts handed out as arrays of C strings: the comments
    of an entity (/repo/src/entities/iges_entity.cpp L2944-3035) and the header
    lines (/repo/src/iges/iges.cpp L1864-1931).  Both keep a vector of pointers
    into the list which is rebuilt only when its size differs from that of the
    list. *)

From Verif Require Import Base IoModel HeaderModel.
Open Scope Z_scope.

(** A list of strings, each with the number of its allocation, and the vector of
    pointers; [c_next] is the number of the next allocation. *)
Record cached := mkCached { c_items : list (nat * str); c_cache : list nat; c_next : nat }.

Definition c_new : cached := mkCached [] [] 0.

(** [push_back]; the vector of pointers stays as it is. *)
Definition push (s : str) (c : cached) : cached :=
  mkCached (c_items c ++ [(c_next c, s)]) (c_cache c) (S (c_next c)).
Definition drop_cache (c : cached) : cached := mkCached (c_items c) [] (c_next c).

(** What a pointer of the vector points to, [None] when the string was released. *)
Fixpoint deref (items : list (nat * str)) (p : nat) : option str :=
  match items with
  | [] => None
  | (q, s) :: r => if (p =? q)%nat then Some s else deref r p
  end.

(** [GetComments], L2966-2992, and [GetHeaders], L1864-1889: [None] for an empty
    list (returned false), otherwise what the entries of the array point to.
    [GetHeaders] does not report the number of entries, its parameter is passed by
    value. *)
Definition get_array (c : cached) : option (list (option str)) * cached :=
  match c_items c with
  | [] => (None, c)
  | items =>
    let cache := if (length (c_cache c) =? length items)%nat then c_cache c else map fst items in
    (Some (map (deref items) cache), mkCached items cache (c_next c))
  end.

(** ** Comments *)

Inductive comment_call :=
| AddComment (s : str) | DelComment (i : Z) | ClearComments | GetNComments | GetComment (i : Z) | GetComments.

Inductive answer := ABool (b : bool) | ANum (n : Z) | AText (s : option str) | AArray (l : option (list (option str))).

(** [AddComment] L2995-3005, [DelComment] L3008-3028, [ClearComments] L3031-3035,
    [GetNComments] L2944, [GetComment] L2950-2963. *)
Definition comment_step (c : cached) (op : comment_call) : answer * cached :=
  match op with
  | AddComment s => (ABool true, drop_cache (push s c))
  | DelComment i =>
    if (i <? 0) || (Z.of_nat (length (c_items c)) <=? i) then (ABool false, c)
    else let k := Z.to_nat i in
         (ABool true, mkCached (firstn k (c_items c) ++ skipn (S k) (c_items c)) (c_cache c) (c_next c))
  | ClearComments => (ABool true, mkCached [] (c_cache c) (c_next c))
  | GetNComments => (ANum (Z.of_nat (length (c_items c))), c)
  | GetComment i =>
    if (i <? 0) || (Z.of_nat (length (c_items c)) <=? i) then (AText None, c)
    else (AText (option_map snd (nth_error (c_items c) (Z.to_nat i))), c)
  | GetComments => let '(a, c') := get_array c in (AArray a, c')
  end.

Fixpoint comment_run (c : cached) (ops : list comment_call) : list answer :=
  match ops with
  | [] => []
  | op :: r => let '(a, c') := comment_step c op in a :: comment_run c' r
  end.

(** ** Header lines *)

(** [AddToHeader] also drops the vector of pointers, except for empty text (L1900);
    [Read] L493 and [writeStart] L1937 only append; [Clear] L416 empties the list
    through [init] L394 and leaves the vector. *)
Inductive header_call :=
| HAdd (text : str) | HGet | HClear | HLoad (lines : list str).

Fixpoint push_all (l : list str) (c : cached) : cached :=
  match l with [] => c | s :: r => push_all r (push s c) end.

Definition header_step (c : cached) (op : header_call) : option (list (option str)) * cached :=
  match op with
  | HAdd [] => (None, c)
  | HAdd t => (None, push_all (AddToHeader [] t) (drop_cache c))
  | HGet => get_array c
  | HClear => (None, mkCached [] (c_cache c) (c_next c))
  | HLoad l => (None, push_all l c)
  end.

Fixpoint header_run (c : cached) (ops : list header_call) : cached :=
  match ops with
  | [] => c
  | op :: r => header_run (snd (header_step c op)) r
  end.
