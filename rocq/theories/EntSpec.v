(** Vocabulary for the claims about entities. *)

From Coq Require Import QArith Qabs.
From Verif Require Import Base Spec IoModel PdModel PdFacts EntModel EntModel2 EntModel3.
Open Scope Z_scope.

(** There are sequence numbers left for [n] numeric parameters, the optional
    pointers and [t] further lines. *)
Definition room (k n t : Z) (extras : list (Z * Z)) : Prop :=
  k + 2 * n + t + 2 * Z.of_nat (length extras) + 6 <= 9999999.

(** The record written by [fmt] consists of lines numbered from [k] which belong
    to the Directory Entry [seq], says so about itself, and the reader [read]
    given the number of lines takes exactly these lines, whatever follows, and
    delivers a result in [good] and the pointers [ptrs]. *)
Definition round_trip {A} (fmt : pres pdrec) (read : Z -> stream -> pres (A * list Z * list str * stream))
  (seq k : Z) (ptrs : list Z) (good : A -> Prop) : Prop :=
  exists r ds, fmt = POk r /\ numbered (pd_line seq) k ds (p_out r) /\ ds <> [] /\
    p_count r = Z.of_nat (length ds) /\ p_next r = k + p_count r /\
    exists a, good a /\ forall rest,
      read (p_count r) (mkStream (p_out r ++ rest) false) = POk (a, ptrs, [], mkStream rest false).

(** Settings under which a record can be written. *)
Definition settings_ok (pd rd : ascii) (seq k : Z) (extras : list (Z * Z)) : Prop :=
  delims pd rd /\ 1 <= seq <= 9999999 /\ 1 <= k /\ extras_ok extras.

(** The direction delivered for the vector [x y z]: the z axis for a vector of
    length below 10^-6, otherwise the vector itself when its squared length is
    within 10^-8 of 1, otherwise the vector divided by its length. *)
Definition direction_of (x y z : Q) (d : direction) : Prop :=
  let n := (x * x + y * y + z * z)%Q in
  ((n < 1 # 1000000000000)%Q -> d = Exact 0 0 1) /\
  ((1 # 1000000000000 <= n)%Q -> (Qabs (n - 1) <= 1 # 100000000)%Q -> d = Exact x y z) /\
  ((1 # 1000000000000 <= n)%Q -> (1 # 100000000 < Qabs (n - 1))%Q -> d = Unit x y z).

(** The direction [d] was made from a vector close to [x y z]. *)
Definition direction_close (u : Q) (x y z : Q) (d : direction) : Prop :=
  exists a b c, Forall2 (real_close u) [x; y; z] [a; b; c] /\ direction_of a b c d.

(** A shade of a color: values in 0..99.99 and 100 are kept, those outside of
    0..100 replaced by [dflt]. *)
Definition shade (dflt v q : Q) : Prop :=
  (((0 <= v)%Q /\ (v <= 9999 # 100)%Q) \/ (v == 100)%Q -> real_close (1 # 10) v q) /\
  ((v < 0)%Q \/ (100 < v)%Q -> (q == dflt)%Q).
Definition shade_ok (v : Q) : Prop := (v < 0)%Q \/ (v <= 9999 # 100)%Q \/ (100 <= v)%Q.

(** Points close to each other. *)
Definition point_close (u : Q) (p q : Q * Q * Q) : Prop :=
  let '(x, y, z) := p in let '(a, b, c) := q in real_close u x a /\ real_close u y b /\ real_close u z c.

(** The record is written without complaint but refused by the reader, whatever
    follows it. *)
Definition refused {A} (fmt : pres pdrec) (read : Z -> stream -> pres (A * list Z * list str * stream)) : Prop :=
  exists r, fmt = POk r /\ forall rest, read (p_count r) (mkStream (p_out r ++ rest) false) = PFail.

(** The record is written without complaint, and whatever the reader makes of it
    lies in [wrong]. *)
Definition only_read_as {A} (fmt : pres pdrec) (read : Z -> stream -> pres (A * list Z * list str * stream))
  (wrong : A -> Prop) : Prop :=
  exists r, fmt = POk r /\ forall rest a ptrs cs f,
    read (p_count r) (mkStream (p_out r ++ rest) false) = POk (a, ptrs, cs, f) -> wrong a.

(** *** Arcs *)

(** The points [(x1, y1)] and [(x2, y2)] are taken to coincide at the resolution
    [res]: their distance is at most about 1.73205 times [res], or below what the
    number format resolves.  For points more than 3.2*10^7 away from the origin
    the latter grows with that distance. *)
Definition coincide (res x1 y1 x2 y2 : Q) : Prop :=
  let d := ((x2 - x1) * (x2 - x1) + (y2 - y1) * (y2 - y1))%Q in
  let n1 := (x1 * x1 + y1 * y1)%Q in
  let n2 := (x2 * x2 + y2 * y2)%Q in
  (d <= (30001 # 10000) * (res * res))%Q \/
  ((n1 <= 1000000000000000)%Q /\ (n2 <= 1000000000000000)%Q /\ (d <= 3 # 1000000000000000000000000000000)%Q) \/
  ((1000000000000000 < n1)%Q /\ (n2 <= n1)%Q /\ (d <= (3 # 1000000000000000000000000000000) * n1)%Q) \/
  ((1000000000000000 < n2)%Q /\ (n1 <= n2)%Q /\ (d <= (3 # 1000000000000000000000000000000) * n2)%Q).

(** What the reader asks of the arc with centre [(xc, yc)], start [(xs, ys)] and
    end [(xe, ye)]: start and centre are apart, and the squares of the radii
    differ by at most twice the resolution [u]. *)
Definition radii_ok (u xc yc xs ys xe ye : Q) : Prop :=
  ~ coincide (2 * u) xc yc xs ys /\
  (Qabs (((xe - xc) * (xe - xc) + (ye - yc) * (ye - yc)) - ((xs - xc) * (xs - xc) + (ys - yc) * (ys - yc))) <= 2 * u)%Q.

(** *** Conditions on entities and what is left of them *)

(** An optional pointer. *)
Definition optp (o : option Z) : Prop := match o with Some n => extra_ok n = true | None => True end.

(** A color whose shades are kept, or replaced by the default shade of red 85,
    green 20, blue 20 when out of range. *)
Definition shades (c c' : color) : Prop :=
  shade 85 (co_r c) (co_r c') /\ shade 20 (co_g c) (co_g c') /\ shade 20 (co_b c) (co_b c') /\ co_name c' = co_name c.

(** An edge with all its pointers set. *)
Definition edge_ok (e : edge) : Prop := edge_null e = false /\ Forall is_int32 (edge_ints e).

(** A curve whose counts agree with the lengths of its lists. *)
Record ncurve_ok (c : ncurve) : Prop := {
  ok_K : 1 <= n_K c; ok_M : 1 <= n_M c; ok_props : length (n_props c) = 4%nat;
  ok_flags : Forall (fun v => v = 0 \/ v = 1) (n_props c);
  ok_knots : Z.of_nat (length (n_knots c)) = 2 + n_K c + n_M c;
  ok_pts : Z.of_nat (length (n_pts c)) = 1 + n_K c;
  ok_wts : if nth 2 (n_props c) 0 =? 0
           then length (n_wts c) = length (n_pts c) /\ Forall (fun w => 1 # 100000000 <= w)%Q (n_wts c)
           else n_wts c = [];
  ok_reals : Forall real300 (n_knots c ++ n_wts c ++ flat_map pt_reals (n_pts c) ++ [n_v0 c; n_v1 c]) }.

(** The number of reals written. *)
Definition ncurve_size (c : ncurve) : Z :=
  Z.of_nat (length (n_knots c)) + 4 * Z.of_nat (length (n_pts c)) + 5.

(** A curve close to another. *)
Definition ncurve_close (c c' : ncurve) : Prop :=
  n_K c' = n_K c /\ n_M c' = n_M c /\ n_props c' = n_props c /\
  Forall2 (real_close nurbs_res) (n_knots c) (n_knots c') /\
  Forall2 (real_close weight_res) (n_wts c) (n_wts c') /\
  Forall2 (point_close nurbs_res) (n_pts c) (n_pts c') /\
  Forall2 (real_close nurbs_res) [n_v0 c; n_v1 c] [n_v0 c'; n_v1 c'].

(** A surface whose counts agree with the lengths of its lists. *)
Record nsurf_ok (s : nsurf) : Prop := {
  os_K1 : 1 <= s_K1 s; os_K2 : 1 <= s_K2 s; os_M1 : 1 <= s_M1 s; os_M2 : 1 <= s_M2 s;
  os_props : length (s_props s) = 5%nat;
  os_flags : Forall (fun v => v = 0 \/ v = 1) (s_props s);
  os_knots1 : Z.of_nat (length (s_knots1 s)) = 2 + s_K1 s + s_M1 s;
  os_knots2 : Z.of_nat (length (s_knots2 s)) = 2 + s_K2 s + s_M2 s;
  os_pts : Z.of_nat (length (s_pts s)) = (s_K1 s + 1) * (s_K2 s + 1);
  os_wts : if nth 2 (s_props s) 0 =? 0
           then length (s_wts s) = length (s_pts s) /\ Forall (fun w => 1 # 100000000 <= w)%Q (s_wts s)
           else s_wts s = [];
  os_reals : Forall real300 (s_knots1 s ++ s_knots2 s ++ s_wts s ++ flat_map pt_reals (s_pts s) ++ [s_u0 s; s_u1 s; s_v0 s; s_v1 s]) }.

(** The number of reals written. *)
Definition nsurf_size (s : nsurf) : Z :=
  Z.of_nat (length (s_knots1 s)) + Z.of_nat (length (s_knots2 s)) + 4 * Z.of_nat (length (s_pts s)) + 4.

(** A surface close to another. *)
Definition nsurf_close (s s' : nsurf) : Prop :=
  s_K1 s' = s_K1 s /\ s_K2 s' = s_K2 s /\ s_M1 s' = s_M1 s /\ s_M2 s' = s_M2 s /\ s_props s' = s_props s /\
  Forall2 (real_close surf_res) (s_knots1 s) (s_knots1 s') /\
  Forall2 (real_close surf_res) (s_knots2 s) (s_knots2 s') /\
  Forall2 (real_close weight_res) (s_wts s) (s_wts s') /\
  Forall2 (point_close surf_res) (s_pts s) (s_pts s') /\
  Forall2 (real_close surf_res) [s_u0 s; s_u1 s; s_v0 s; s_v1 s] [s_u0 s'; s_u1 s'; s_v0 s'; s_v1 s'].

(** The numbers of a plane. *)
Definition plane_reals (p : plane) : list Q :=
  [pl_A p; pl_B p; pl_C p; pl_D p; pl_X p; pl_Y p; pl_Z p; pl_size p].

(** Operations are numbered 1 to 3. *)
Definition node_valid (n : node) : Prop :=
  match n with Op v => 1 <= v <= 3 | Arg (Some p) => extra_ok p = true | Arg None => False end.

(** An edge of a loop with at least one parameter space curve. *)
Definition ledge_ok (e : ledge) : Prop :=
  (exists p, le_data e = Some p /\ is_int32 p) /\ is_int32 (le_idx e) /\ le_curves e <> [] /\
  Z.of_nat (length (le_curves e)) <= 2147483647 /\ Forall (fun c => is_int32 (snd c)) (le_curves e).

(** The number of parameters which an edge of a loop needs. *)
Definition ledge_size (e : ledge) : nat := (5 + 2 * length (le_curves e))%nat.

Definition loop_size (l : list ledge) : nat := fold_right Nat.add 0%nat (map ledge_size l).

(** A plane with a normal; bounded exactly when a boundary is given. *)
Definition plane_ok (p : plane) : Prop :=
  Forall real300 [pl_A p; pl_B p; pl_C p; pl_D p; pl_X p; pl_Y p; pl_Z p; pl_size p] /\
  degenerate (pl_A p) (pl_B p) (pl_C p) = false /\
  match pl_ptr p with None => pl_form p = 0 | Some n => pl_form p <> 0 /\ extra_ok n = true end.

(** Coordinates of at most six digits are unchanged, so that the checks apply to
    the arc itself. *)
Definition six_digits (v : Q) : Prop := exists n k, (v == inject_Z n * (10 # 1) ^ k)%Q /\ Z.abs n < 1000000 /\ (v == 0 \/ 1 # 100000000 <= Qabs v)%Q.
