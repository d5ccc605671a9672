(* What a file must say for its references to be accepted, and of what kind the pointers
   made from them are. *)
From Coq Require Import List Bool ZArith Lia.
From Verif Require Import GraphModel PlanSpec AssocModel.
Import ListNotations.
Open Scope Z_scope.

(* the type of an entity, 0 if it is not supported *)
Definition kind (q : wants) : Z := if in_dec Z.eq_dec (q_type q) known then q_type q else 0.

(* The entity at place x is of one of these types. *)
Definition sort (qs : list wants) (x : nat) (ts : list Z) : Prop :=
  exists q, nth_error qs x = Some q /\ In (kind q) ts.

(* A number leads to place x: the number of its Directory Entry, or the even one before. *)
Definition leads (v : Z) (x : nat) : Prop := v = 2 * Z.of_nat x + 1 \/ v = 2 * Z.of_nat x.
(* A number leads to an entity of the file, of one of these types. *)
Definition within (qs : list wants) (v : Z) : Prop := exists x q, leads v x /\ nth_error qs x = Some q.
Definition refers (qs : list wants) (v : Z) (ts : list Z) : Prop := exists x, leads v x /\ sort qs x ts.

Definition simple : list Z := [100; 104; 110; 126].
Definition sheets : list Z := [120; 122; 128].
Definition solids : list Z := [154; 164; 180; 186].

(* The Directory Entry number k of entity i: font, level and colour are references when
   negative, the others when positive. 0 structure, 1 font, 2 level, 3 view, 4
   transform, 5 label, 6 colour. *)
Definition is_ref (k : nat) (v : Z) : Prop := if in_dec Nat.eq_dec k [1; 2; 6]%nat then v < 0 else 0 < v.
Definition de_proper (qs : list wants) (i k : nat) (v : Z) : Prop :=
  exists x p, leads (Z.abs v) x /\ nth_error qs x = Some p /\ x <> i /\
  match k with
  | 0%nat => True
  | 2%nat => kind p = 0 \/ (kind p = 406 /\ q_form p = 1)
  | 4%nat => kind p = 124
  | 6%nat => kind p = 0 \/ kind p = 314
  | _ => kind p = 0
  end.

Record proper (qs : list wants) (i : nat) (q : wants) : Prop := {
  p_des : forall k v, nth_error (q_des q) k = Some v -> is_ref k v -> de_proper qs i k v;
  p_extras : forall v, In v (q_extras q) -> refers qs v [406];
  p_102 : kind q = 102 -> forall v, In v (q_items q) -> refers qs v simple;
  p_120 : kind q = 120 -> forall k v, nth_error (q_slots q) k = Some v -> v <> 0 ->
          refers qs v (match k with O => [110] | _ => curves end);
  p_122 : kind q = 122 -> forall v, In v (q_slots q) -> v <> 0 -> refers qs v curves;
  p_142 : kind q = 142 -> forall k v, nth_error (q_slots q) k = Some v ->
          (k = O -> v <> 0) /\ (v <> 0 -> refers qs v known);
  p_144 : kind q = 144 -> (forall k v, nth_error (q_slots q) k = Some v ->
                             v <> 0 /\ refers qs v (match k with O => sheets | _ => [142] end)) /\
                          (forall v, In v (q_items q) -> refers qs v [142]);
  p_164 : kind q = 164 -> forall v, In v (q_slots q) -> refers qs v curves;
  p_180 : kind q = 180 -> forall v, In v (q_items q) -> refers qs v solids;
  p_186 : kind q = 186 -> forall v, In v (q_slots q) \/ In v (q_items q) -> refers qs v [514];
  p_308 : kind q = 308 -> forall v, In v (q_items q) -> refers qs v known;
  p_408 : kind q = 408 -> forall v, In v (q_slots q) -> v <> 0 -> refers qs v [308];
  p_504 : kind q = 504 -> forall c a s b t, In (c, (a, s), (b, t)) (q_edges q) ->
          refers qs c curves /\ refers qs a [502] /\ refers qs b [502] /\
          (forall x p, leads a x -> nth_error qs x = Some p -> 1 <= s <= Z.of_nat (q_points p)) /\
          (forall x p, leads b x -> nth_error qs x = Some p -> 1 <= t <= Z.of_nat (q_points p));
  p_508 : kind q = 508 -> forall d l, In (d, l) (q_loops q) -> refers qs d known /\ Forall (fun v => refers qs v known) l;
  p_510 : kind q = 510 -> (forall v, In v (q_slots q) -> refers qs v sheets) /\ (forall v, In v (q_items q) -> refers qs v [508]);
  p_514 : kind q = 514 -> q_items q <> [] /\ forall v, In v (q_items q) -> refers qs v [510] }.

(* The pointers of an entity of type t are of the kinds its methods take them for. *)
Record well_kinded (qs : list wants) (n : node) : Prop := {
  k_des : forall k x, nth k (n_des n) None = Some x ->
    match k with
    | 0%nat => exists p, nth_error qs x = Some p
    | 2%nat => sort qs x [406]
    | 4%nat => sort qs x [124]
    | 6%nat => sort qs x [314]
    | _ => False
    end;
  k_extras : forall x, In x (n_extras n) -> sort qs x [406];
  k_slots : forall k x, nth k (n_slots n) None = Some x ->
    if n_type n =? 120 then sort qs x (match k with O => [110] | _ => curves end)
    else if n_type n =? 144 then sort qs x (match k with O => sheets | _ => [142] end)
    else if (n_type n =? 122) || (n_type n =? 164) then sort qs x curves
    else if n_type n =? 186 then sort qs x [514]
    else if n_type n =? 408 then sort qs x [308]
    else if n_type n =? 510 then sort qs x sheets
    else True;
  k_items : forall x, In x (n_items n) ->
    if n_type n =? 102 then sort qs x simple
    else if n_type n =? 144 then sort qs x [142]
    else if n_type n =? 180 then sort qs x solids
    else if n_type n =? 186 then sort qs x [514]
    else if n_type n =? 510 then sort qs x [508]
    else if n_type n =? 514 then sort qs x [510]
    else True;
  k_edges : forall d, In d (n_edges n) -> sort qs (ed_curve d) curves /\ sort qs (ed_start d) [502] /\ sort qs (ed_stop d) [502];
  k_verts : forall p, In p (n_verts n) -> sort qs (fst p) known;
  k_loops : forall d l, In (d, l) (n_loops n) -> sort qs d known /\ Forall (fun x => sort qs x known) l }.

(* A composite curve without segments is not closed (IsClosed, entity102.cpp L677). *)
Definition hollow_open (closed : graph -> nat -> bool) : Prop :=
  forall g c m, look g c = Some m -> n_type m = 102 -> n_items m = @Datatypes.nil nat -> closed g c = false.
