(* A plan of a model: a list of entities whose pointers are places in the list. What a
   plan has to satisfy, and when a model is as planned. *)
From Coq Require Import List Bool ZArith Lia.
From Verif Require Import GraphModel.
Import ListNotations.
Open Scope Z_scope.

(* the same pointers and the same class; owner, dependency and referrers aside *)
Definition alike (n m : node) : Prop :=
  n_type m = n_type n /\ n_null m = n_null n /\ n_form m = n_form n /\ n_points m = n_points n
  /\ n_des m = n_des n /\ n_extras m = n_extras n /\ n_slots m = n_slots n
  /\ n_items m = n_items n /\ n_edges m = n_edges n /\ n_loops m = n_loops n.

(* everything an entity refers to; edges and loops may use a vertex or edge list many
   times, which counts once *)
Definition parts (n : node) : list nat :=
  ptrs (n_des n) ++ n_extras n ++ ptrs (n_slots n) ++ n_items n ++ map ed_curve (n_edges n)
  ++ nodup Nat.eq_dec (flat_map (fun d => [ed_start d; ed_stop d]) (n_edges n))
  ++ nodup Nat.eq_dec (map fst (n_loops n)) ++ flat_map snd (n_loops n).

(* the entity at place x is of one of these types *)
Definition typed (l : list node) (x : nat) (ts : list Z) : Prop :=
  exists m, nth_error l x = Some m /\ In (n_type m) ts.
Definition curves : list Z := [100; 102; 104; 110; 126].

(* Every reference is of the kind its place asks for. *)
Record fits (l : list node) (n : node) : Prop := {
  f_class : if n_null n then n_type n = 0 else In (n_type n) known;
  f_seven : length (n_des n) = 7%nat;
  f_406 : n_type n = 406 -> n_form n = 15;
  f_des : forall k x, nth k (n_des n) None = Some x ->
    (k = 4%nat /\ typed l x [124]) \/ (k = 6%nat /\ typed l x [314] /\ n_type n <> 124) \/ (k = 0%nat /\ n_null n = true);
  f_bare : In (n_type n) [314; 406] -> ptrs (n_des n) = [];
  f_extras : forall x, In x (n_extras n) -> typed l x [406];
  f_len : length (n_slots n) = length (if n_null n then [] else blank_slots (n_type n));
  f_items : ~ In (n_type n) [102; 144; 180; 186; 308; 510; 514] -> n_items n = [];
  f_edges : n_type n <> 504 -> n_edges n = [];
  f_loops : n_type n <> 508 -> n_loops n = [];
  f_102 : n_type n = 102 -> forall x, In x (n_items n) -> typed l x [100; 104; 110; 126];
  f_120 : n_type n = 120 -> (forall x, nth 0 (n_slots n) None = Some x -> typed l x [110]) /\
                            (forall x, nth 1 (n_slots n) None = Some x -> typed l x curves);
  f_122 : n_type n = 122 -> forall x, nth 0 (n_slots n) None = Some x -> typed l x curves;
  f_142 : n_type n = 142 -> nth 0 (n_slots n) None <> None;
  f_144 : n_type n = 144 -> (exists x, nth 0 (n_slots n) None = Some x /\ typed l x [120; 122; 128]) /\
                            (exists x, nth 1 (n_slots n) None = Some x /\ typed l x [142]) /\
                            (forall x, In x (n_items n) -> typed l x [142]);
  f_164 : n_type n = 164 -> exists x, nth 0 (n_slots n) None = Some x /\ typed l x curves;
  f_180 : n_type n = 180 -> forall x, In x (n_items n) -> typed l x [154; 164; 180; 186];
  f_186 : n_type n = 186 -> (exists x, nth 0 (n_slots n) None = Some x /\ typed l x [514]) /\
                            (forall x, In x (n_items n) -> typed l x [514]) /\
                            (forall x m, nth 0 (n_slots n) None = Some x \/ In x (n_items n) ->
                               nth_error l x = Some m -> n_form m = 1);
  f_408 : n_type n = 408 -> forall x, nth 0 (n_slots n) None = Some x -> typed l x [308];
  f_504 : n_type n = 504 -> forall d, In d (n_edges n) -> typed l (ed_curve d) curves /\
                            typed l (ed_start d) [502] /\ typed l (ed_stop d) [502];
  f_510 : n_type n = 510 -> (exists x, nth 0 (n_slots n) None = Some x /\ typed l x [120; 122; 128]) /\
                            (forall x, In x (n_items n) -> typed l x [508]);
  f_514 : n_type n = 514 -> n_items n <> [] /\ forall x, In x (n_items n) -> typed l x [510] }.

(* No more entities than a file can number; every reference leads to an entity of a
   supported type; nobody refers twice to the same entity, to itself, or to an entity
   that refers to it; and every reference is of its kind. *)
Record sound_plan (l : list node) : Prop := {
  d_size : Z.of_nat (length l) <= 4999999;
  d_range : forall i n t, nth_error l i = Some n -> In t (parts n) ->
            exists m, nth_error l t = Some m /\ n_null m = false;
  d_once : forall i n, nth_error l i = Some n -> NoDup (parts n);
  d_apart : forall i n t m, nth_error l i = Some n -> In t (parts n) -> nth_error l t = Some m ->
            ~ In i (parts m);
  d_fits : forall i n, nth_error l i = Some n -> fits l n }.

(* the vertex lists the edges use, or the edge lists the loops use, once per use *)
Definition used (n : node) : list nat := flat_map (fun d => [ed_start d; ed_stop d]) (n_edges n) ++ map fst (n_loops n).

(* The graph is the plan: the same pointers, exactly the referrers this means, all
   entities in the model in order, and the uses of each vertex list counted. *)
Definition rebuilt (l : list node) (g : graph) : Prop :=
  g_ents g = seq 0 (length l) /\ g_next g = length l /\
  forall i, match nth_error l i, look g i with
            | Some n, Some m => alike n m /\ n_own m = true /\ n_dep m = n_dep n /\ NoDup (n_refs m) /\
                (forall r, In r (n_refs m) <-> exists k, nth_error l r = Some k /\ In i (parts k)) /\
                NoDup (map fst (n_verts m)) /\
                (forall v c, In (v, c) (n_verts m) <-> In v (used n) /\ c = count_occ Nat.eq_dec (used n) v)
            | None, None => True
            | _, _ => False
            end.

(* What the library keeps books of: entities of unsupported types hold no pointers,
   transforms no optional entities, and there are no loops. *)
Definition bookable (l : list node) : Prop :=
  forall i n, nth_error l i = Some n ->
    (n_null n = true -> parts n = []) /\ (n_type n = 124 -> n_extras n = []) /\ n_loops n = [].

(* a model as read from a file that describes such a plan *)
Definition read_in (g : graph) : Prop := exists l, sound_plan l /\ bookable l /\ rebuilt l g.
