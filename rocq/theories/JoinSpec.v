(** Vocabulary for the claims about the whole of writing and reading: a document whose
    entities refer to each other as a plan says (see PlanSpec.v), and what of the
    conversion of units is to be expected. *)

From Coq Require Import QArith.
From Verif Require Import Base DeModel DeSpec PdFacts EntModel EntModel2 EntModel3 PayloadModel FileModel UnitModel.
From Verif Require Import GraphModel PlanSpec AssocSpec.
Open Scope Z_scope.

(** The number of the entity at a place, if there is one. *)
Definition num (o : option nat) : option Z := option_map number o.

(** An edge of the plan with its numbers in the file; the indices of its vertices are
    within their lists. *)
Definition edge_carries (l : list node) (d : GraphModel.edge) (e : EntModel3.edge) : Prop :=
  ed_curv e = Some (number (ed_curve d)) /\ ed_svp e = Some (number (ed_start d)) /\ ed_tvp e = Some (number (ed_stop d)) /\
  (forall m, nth_error l (ed_start d) = Some m -> 1 <= ed_sv e <= Z.of_nat (n_points m)) /\
  (forall m, nth_error l (ed_stop d) = Some m -> 1 <= ed_tv e <= Z.of_nat (n_points m)).

(** The data of an entity refer to what the plan says. *)
Definition data_carries {D} (l : list node) (n : node) (p : payload D) : Prop :=
  let slot k := num (nth k (n_slots n) None) in
  let its := map number (n_items n) in
  match p with
  | P102 c => c = its
  | P120 r => rv_axis r = slot 0%nat /\ rv_curve r = slot 1%nat
  | P122 t => tc_curve t = slot 0%nat
  | P142 o => os_surf o = slot 0%nat /\ os_b o = slot 1%nat /\ os_c o = slot 2%nat
  | P144 t => tr_surf t = slot 0%nat /\ tr_outer t = slot 1%nat /\ tr_inner t = its
  | P164 x _ => ex_curve x = slot 0%nat
  | P180 t => flat_map (fun c => match c with Arg (Some v) => [v] | _ => [] end) t = its
  | P186 b => br_shell b = slot 0%nat /\ map fst (br_voids b) = its
  | P308 s => sf_ents s = its
  | P408 i => in_def i = slot 0%nat
  | P502 v => n_points n = length v
  | P504 es => Forall2 (edge_carries l) (n_edges n) es
  | P508 es => Forall2 (fun q e => le_data e = Some (number (fst q)) /\ map snd (le_curves e) = map number (snd q)) (n_loops n) es
  | P510 f => fc_surf f = slot 0%nat /\ fc_loops f = its
  | P514 s => map fst s = its
  | _ => True
  end.

(** Lists of vertices are the only entities with points of their own. *)
Definition no_points (n : node) : Prop := n_type n <> 502 -> n_points n = 0%nat.

(** Classes with a fixed dependency status: see DeSpec.type_table. *)
Definition dep_kept (t dep : Z) : Prop :=
  (In t [502; 504; 508; 510] -> dep = 1) /\ (t = 314 -> dep = 0).

(** Classes which have no transform or colour. *)
Definition no_place (t : Z) : Prop := In t [314; 406; 502; 504; 508; 510; 514].
Definition no_colour (t : Z) : Prop := In t [502; 504; 510; 514].

(** The entity [e] of a document is the entity [n] of the plan [l]. *)
Record carries (l : list node) (n : node) (e : ent) : Prop := {
  c_class : n_null n = false /\ GraphModel.n_type n = type_no (e_data e);
  c_rest : n_form n = d_form (e_dir e) /\ n_dep n = d_dep (e_dir e) /\ dep_kept (GraphModel.n_type n) (n_dep n) /\ no_points n;
  c_struct : d_struct (e_dir e) = num (nth 0 (n_des n) None);
  c_font : d_pfont (e_dir e) = num (nth 1 (n_des n) None);
  c_level : d_plevel (e_dir e) = num (nth 2 (n_des n) None);
  c_view : d_view (e_dir e) = num (nth 3 (n_des n) None);
  c_trans : d_trans (e_dir e) = num (nth 4 (n_des n) None);
  c_label : d_lassoc (e_dir e) = num (nth 5 (n_des n) None);
  c_color : d_pcolor (e_dir e) = num (nth 6 (n_des n) None);
  c_placed : no_place (GraphModel.n_type n) -> nth 4 (n_des n) None = None;
  c_coloured : no_colour (GraphModel.n_type n) -> nth 6 (n_des n) None = None;
  c_extras : extras_ptrs (e_extras e) = map number (n_extras n);
  c_data : data_carries l n (e_data e) }.

(** The references have an end: they all lead downwards. *)
Definition acyclic (l : list node) : Prop :=
  exists rank : nat -> nat, forall i n t, nth_error l i = Some n -> In t (parts n) -> (rank t < rank i)%nat.

(** The records [rs] put in their places in the plan: each with its data, transform and,
    if anybody refers to it, somebody who does. *)
Definition set_up (l : list node) (rs : list rent) (es : list (item direction)) : Prop :=
  length rs = length l /\ length es = length l /\
  forall i n r it, nth_error l i = Some n -> nth_error rs i = Some r -> nth_error es i = Some it ->
    it_data it = n_data r /\ it_trans it = nth 4 (n_des n) None /\
    match it_parent it with
    | Some j => exists k, nth_error l j = Some k /\ In i (parts k)
    | None => ~ named l i
    end.

(** Entity [j] refers to entity [i], and nobody else does. *)
Definition sole_user (l : list node) (i j : nat) : Prop :=
  exists m, nth_error l j = Some m /\ In i (parts m) /\
    forall r k, nth_error l r = Some k -> In i (parts k) -> r = j.
Definition type_at (l : list node) (i : nat) (t : Z) : Prop := exists n, nth_error l i = Some n /\ GraphModel.n_type n = t.

(** Going from [i] to its only user, and on to the only user of that one, never ends
    and never comes to a curve on a surface. *)
Definition circles (l : list node) (i : nat) : Prop :=
  exists f : nat -> nat, f 0%nat = i /\ forall k, sole_user l (f k) (f (S k)) /\ ~ type_at l (f (S k)) 142.

(** Entity [i] is [b] or only part of it. *)
Inductive only_in (l : list node) (b : nat) : nat -> Prop :=
| only_same : only_in l b b
| only_part i j : sole_user l i j -> ~ type_at l j 142 -> only_in l b j -> only_in l b i.

(** Entity [i] is only used in the parameter space of a surface: it is the curve B of a
    curve on a surface, or part of that. *)
Definition drawn_in_parameters (l : list node) (i : nat) : Prop :=
  exists b c m, only_in l b i /\ sole_user l b c /\ nth_error l c = Some m /\ GraphModel.n_type m = 142 /\
    nth 1 (n_slots m) None = Some b.

(** Only the third coordinates are multiplied. *)
Definition lifted (s : Q) (p p' : point) : Prop :=
  let '(x, y, z) := p in let '(x', y', z') := p' in x' = x /\ y' = y /\ (z' == z * s)%Q.
(** All of them are. *)
Definition stretched (s : Q) (p p' : point) : Prop :=
  let '(x, y, z) := p in let '(x', y', z') := p' in (x' == x * s /\ y' == y * s /\ z' == z * s)%Q.
