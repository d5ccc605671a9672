(** What the lines of the sections of an IDF board mean, and what may follow the last one. *)

From Verif Require Import Base Num IoModel IdfText IdfOutl IdfFile Spec IdfSpec IdfOutlSpec IdfFileSpec.
Open Scope Z_scope.

(** ** The second line *)

Definition layer_said (s : str) (l : layer) : Prop :=
  match l with
  | LTop => same_word "TOP" s | LBottom => same_word "BOTTOM" s | LBoth => same_word "BOTH" s
  | LInner => same_word "INNER" s | LAll => same_word "ALL" s
  end.

(** A length [q] in mm. *)
Definition measured (u : unit_of) (v : version) (s : str) (q : Q) : Prop :=
  exists x, stream_num s = Some x /\ to_mm u v x = Some q.

(** The thickness of a board for a length: never negative, and 1.6 mm for zero. *)
Definition thick (y q : Q) : Prop :=
  ((0 < y)%Q /\ q = y) \/ ((y < 0)%Q /\ q = (- y)%Q) \/ ((y == 0)%Q /\ q = 16 # 10).

Definition outer (l : layer) : Prop := l = LTop \/ l = LBottom \/ l = LBoth.

(** What the fields [fs] of the second line say of the identifier, height and layers. *)
Definition second_means (k : kind) (u : unit_of) (v : version) (fs : list field) (id : str) (q : Q) (l : option layer) : Prop :=
  match k with
  | KBoard => id = [] /\ l = None /\ exists h more y, fs = h :: more /\ measured u v (value h) y /\ thick y q
  | KOther => exists i h more, fs = i :: h :: more /\ id = value i /\ measured u v (value h) q /\
      match v with
      | V2 => l = Some LTop
      | V3 => exists s more' x, more = s :: more' /\ layer_said (value s) x /\ (x = LTop \/ x = LBottom) /\ l = Some x
      end
  | KRoute | KRouteKo => id = [] /\ q = 0%Q /\
      exists s more x, fs = Bare s :: more /\ layer_said s x /\ (v = V2 -> outer x) /\ l = Some x
  | KPlace | KPlaceKo => id = [] /\ exists s more x, fs = s :: more /\ layer_said (value s) x /\ outer x /\ l = Some x /\
      match more with
      | [] => k = KPlace /\ q = (-1)%Q
      | h :: _ => exists y, stream_num (value h) = Some y /\ (0 <= y)%Q /\ to_mm u v y = Some q
      end
  | KRegion => q = 0%Q /\ exists s g more x, fs = s :: g :: more /\ layer_said (value s) x /\ outer x /\ l = Some x /\ id = value g
  | KViaKo => False
  end.

(** Whether there is such a line, and what is meant if there is none. *)
Inductive second_of (k : kind) (u : unit_of) (v : version) (f : stream) : str -> Q -> option layer -> stream -> Prop :=
| so_line id q l f1 line b fs : k <> KViaKo -> ~ (v = V2 /\ (k = KRoute \/ k = KPlace)) ->
    opens f line f1 -> (k <> KBoard -> s_eof f1 = false) -> laid_out b fs line -> second_means k u v fs id q l -> second_of k u v f id q l f1
| so_via : k = KViaKo -> second_of k u v f [] 0%Q None f
| so_route : k = KRoute -> v = V2 -> second_of k u v f [] 0%Q (Some LAll) f
| so_place : k = KPlace -> v = V2 -> second_of k u v f [] 0%Q (Some LTop) f.

(** ** The first and last lines *)

(** What is said of the owner after the heading; anything unknown means that there is none. *)
Definition owner_said (fs : list field) (o : owner) : Prop :=
  (exists f more, fs = f :: more /\ owner_of (value f) o) \/
  (o = Unowned /\ forall f more x, fs = f :: more -> ~ owner_of (value f) x).

Definition ended (k : kind) (e : str) (fs : list field) : Prop :=
  match k with
  | KPlace | KPlaceKo | KRegion => exists t more, fs = t :: more /\ same_word (end_key k) (value t)
  | _ => same_word (end_key k) e
  end.

(** ** After the placement *)

Definition blank (raw : str) : Prop := Forall isspc raw.
Definition comment_with_text (raw : str) : Prop := exists r, raw = hash :: r /\ ~ blank r.

(** Some line is neither blank nor a comment, and no comment before it is empty. *)
Definition bad_tail (raws : list str) : Prop :=
  exists a raw b, raws = a ++ raw :: b /\ ~ blank raw /\ (forall r, raw <> hash :: r) /\
    Forall (fun x => blank x \/ comment_with_text x) a.
