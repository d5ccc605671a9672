(** What the outlines of an IDF library mean, and when a library is accepted. *)

From Verif Require Import Base Num IoModel IdfText IdfOutl IdfFile IdfLib Spec IdfSpec IdfOutlSpec IdfFileSpec.
From Verif Require Import IdfPlace IdfPlaceSpec.
Open Scope Z_scope.

(** ** One outline *)

(** The unit.  In version 2 every word but TNM stands for TNM. *)
Definition unit_taken (v : version) (s : str) (u : unit_of) : Prop :=
  match u with
  | MM => same_word "MM" s
  | Thou => same_word "THOU" s
  | Tnm => v = V2 /\ ~ same_word "MM" s /\ ~ same_word "THOU" s /\ ~ same_word "TNM" s
  end.

(** Geometry, part, unit and height; one of the names is not empty. *)
Inductive comp_means (v : version) : list field -> names -> unit_of -> Q -> Prop :=
| comp_is g p w h more u x q : (value g <> [] \/ value p <> []) -> unit_taken v (value w) u ->
    stream_num (value h) = Some x -> to_mm u v x = Some q ->
    comp_means v (g :: p :: w :: h :: more) (mkNames (value g) (value p)) u q.

(** A line, after blank ones, which says that [fst p] is [snd p]. *)
Inductive prop_line (f : stream) (p : str * str) (f' : stream) : Prop :=
| prop_is l b k n w more : opens f l f' -> laid_out b (Bare k :: n :: w :: more) l -> same_word "PROP" k ->
    p = (value n, value w) -> prop_line f p f'.

(** Such lines one after the other. *)
Inductive prop_lines : stream -> list (str * str) -> stream -> Prop :=
| pl_nil f : prop_lines f [] f
| pl_cons f p f' ps g : prop_line f p f' -> s_eof f' = false -> prop_lines f' ps g -> prop_lines f (p :: ps) g.

(** A line whose first field begins with .END_. *)
Definition ends_props (f : stream) : Prop :=
  exists l f' b a k fs, opens f l f' /\ laid_out b (Bare (a ++ k) :: fs) l /\ same_word ".END_" a.

(** ** The library *)

Definition close_pt (p q : qpt) : Prop :=
  ((qx p - qx q) * (qx p - qx q) + (qy p - qy q) * (qy p - qy q) <= (1 # 1000) * (1 # 1000))%Q.
Definition close_seg (s t : qseg) : Prop := close_pt (q_start s) (q_start t) /\ close_pt (q_end s) (q_end t).

(** What is asked of an outline whose key was there before: nothing about heights,
    units, arcs or properties. *)
Definition agrees (a b : cout) : Prop :=
  co_cls a = co_cls b /\ length (co_loops a) = length (co_loops b) /\
  forall l m, hd_error (co_loops a) = Some l -> hd_error (co_loops b) = Some m -> Forall2 close_seg l m.

(** The file from [f] on has these outlines, and only blank lines besides. *)
Inductive outlines_in (ccw : qloop -> bool) (v : version) : stream -> list cout -> Prop :=
| oi_over f : s_eof f = true -> outlines_in ccw v f []
| oi_blank bl w : blank_lines bl -> Forall isspc w -> ~ In nl w -> outlines_in ccw v (mkStream (with_newlines bl ++ w) false) []
| oi_one f l f' b k fs c o g os : opens f l f' -> laid_out b (Bare k :: fs) l -> same_word (cls_key c) k ->
    read_comp ccw c v [] f' = Some (o, g) -> outlines_in ccw v g os -> outlines_in ccw v f (o :: os).

(** [o] is the first of the outlines with this key. *)
Definition first_with (k : str) (os : list cout) (o : cout) : Prop :=
  exists a b, os = a ++ o :: b /\ uid o = k /\ forall x, In x a -> uid x <> k.

Definition consistent (os : list cout) : Prop :=
  forall a o b x, os = a ++ o :: b -> first_with (uid o) a x -> agrees o x.

Definition lib_of (os : list cout) (m : lib) : Prop :=
  in_order (map fst m) /\ forall k o, In (k, o) m <-> first_with k os o.

(** ** Written and read again *)

Definition text_ok (s : str) : Prop := ~ In quote s /\ ~ In nl s.

(** A comment which is read as it was written. *)
Definition comment_ok (s : str) : Prop :=
  s <> [] /\ ~ In nl s /\ (forall c r, s = c :: r -> ~ isspc c) /\ (forall c r, s = r ++ [c] -> ~ isspc c).

Definition comp_fits (o : cout) : Prop :=
  Forall comment_ok (co_comments o) /\ text_ok (geom (co_names o)) /\ text_ok (prt (co_names o)) /\
  (geom (co_names o) <> [] \/ prt (co_names o) <> []) /\ co_unit o <> Tnm /\ sized (co_high o) /\
  Forall (loop_fit (co_unit o)) (co_loops o) /\ (length (co_loops o) <= 1)%nat /\
  in_order (map fst (co_props o)) /\ Forall (fun p => text_ok (fst p) /\ text_ok (snd p)) (co_props o).

(** The properties of a mechanical part are lost. *)
Definition comp_back (ccw : qloop -> bool) (o o' : cout) : Prop :=
  co_comments o' = co_comments o /\ co_cls o' = co_cls o /\ co_names o' = co_names o /\ co_unit o' = co_unit o /\
  near (tol_pos (co_unit o)) (co_high o) (co_high o') /\
  Forall2 (near_loop (co_unit o)) (ways ccw true 0 (co_loops o)) (co_loops o') /\
  co_props o' = match co_cls o with Elect => co_props o | Mechan => [] end.

(** The outlines which a component refers to. *)
Definition referred (l : list (str * (Z * cout))) : list (str * cout) :=
  map (fun x => (fst x, snd (snd x))) (filter (fun x => negb (fst (snd x) =? 0)) l).

Definition entry_back (ccw : qloop -> bool) (x y : str * cout) : Prop := fst y = fst x /\ comp_back ccw (snd x) (snd y).
