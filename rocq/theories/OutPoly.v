(** Which points are inside an outline of lines. *)

From Coq Require Import Reals List Bool ZArith Arith Lra Lia.
From Verif Require Import SegModel SegSpec SegTrig SegFacts SegBox SegSplit SegProps CutModel CutSpec CutCircle CutLine CutCases OutModel OutSpec OutFacts OutBox OutArea OutDraw OutInside OutCases.
Import ListNotations.
Open Scope R_scope.

(** ** Parity *)

Definition reachb (y : R) (s : seg) : bool := xorb (ltb (py (s_start s)) y) (ltb (py (s_end s)) y).
Lemma reachb_spec y s : reachb y s = true <-> reaches y s.
Proof.
  unfold reachb, reaches. destruct (ltb (py (s_start s)) y) eqn:A; [apply ltb_true in A|apply ltb_false in A];
  (destruct (ltb (py (s_end s)) y) eqn:B; [apply ltb_true in B|apply ltb_false in B]); cbn; split; intros H; try discriminate; try lra; auto.
Qed.

Definition count_if (f : seg -> bool) (l : list seg) : nat := length (filter f l).
Lemma count_cons f s l : count_if f (s :: l) = ((if f s then 1 else 0) + count_if f l)%nat.
Proof. unfold count_if. cbn [filter]. destruct (f s); reflexivity. Qed.

Lemma counted_spec P f l : (forall s, In s l -> (f s = true <-> P s)) -> forall n, counted P l n <-> n = count_if f l.
Proof.
  induction l as [|s l IH]; intros H n.
  - split; [intros C; now inversion C|intros ->; constructor].
  - rewrite count_cons. assert (Hl : forall s, In s l -> (f s = true <-> P s)) by (intros t I; apply H; now right). specialize (IH Hl). pose proof (H s (or_introl eq_refl)) as Hs.
    split.
    + intros C. inversion C as [|? ? m A B|? ? m A B]; subst.
      * rewrite (proj2 Hs A). apply IH in B. now subst.
      * apply IH in B. destruct (f s); [exfalso; apply A; now apply Hs|]. now subst.
    + intros ->. destruct (f s) eqn:E; cbn.
      * apply counted_yes; [now apply Hs|now apply IH].
      * apply counted_no; [intros Q; apply Hs in Q; congruence|now apply IH].
Qed.

(** The height [y] is passed an even number of times on a closed course. *)
Lemma reach_parity y l : forall a b, chained a l b -> Nat.odd (count_if (reachb y) l) = xorb (ltb (py a) y) (ltb (py b) y).
Proof.
  induction l as [|s l IH]; intros a b C.
  - cbn in C. subst. cbn. now rewrite xorb_nilpotent.
  - destruct C as (<- & C). rewrite count_cons, Nat.odd_add, (IH _ _ C). unfold reachb at 1.
    destruct (ltb (py (s_start s)) y), (ltb (py (s_end s)) y), (ltb (py b) y); reflexivity.
Qed.

Lemma ring_parity y l : exact_ring l -> Nat.odd (count_if (reachb y) l) = false.
Proof. destruct l as [|s l]; [intros []|]. intros C. rewrite (reach_parity y _ _ _ C). apply xorb_nilpotent. Qed.

Lemma count_split f g l : (count_if f l = count_if (fun s => f s && g s) l + count_if (fun s => f s && negb (g s)) l)%nat.
Proof. induction l as [|s l IH]; [reflexivity|]. rewrite !count_cons, IH. destruct (f s), (g s); cbn; lia. Qed.

(** ** One line *)

Lemma line_box_y s : s_ty s = SLine -> py (fst (seg_box s)) = Rmin (py (s_start s)) (py (s_end s)) /\ py (snd (seg_box s)) = Rmax (py (s_start s)) (py (s_end s)).
Proof.
  intros T. unfold seg_box, get_box. rewrite T. unfold Rmin, Rmax. destruct (Rle_dec (py (s_start s)) (py (s_end s))) as [L|L].
  - destruct (ltb _ e8); [rewrite leb_t by exact L; split; reflexivity|]. cbn [snd fst py]. destruct (ltb (py (s_start s)) (py (s_end s))) eqn:E; cbn; [split; reflexivity|]. apply ltb_false in E. split; lra.
  - destruct (ltb _ e8); [rewrite leb_f by lra; split; reflexivity|]. cbn [snd fst py]. rewrite ltb_f by lra. cbn. split; reflexivity.
Qed.

Lemma apart_home p q : at_home p -> at_home q -> in_plane p -> in_plane q -> 1 / 10^7 <= Rabs (py p - py q) -> ~ one_point p q e8.
Proof.
  intros (A & B) (C & D) Zp Zq H. assert (G : 1 / 10^14 <= gap2 p q).
  { rewrite gap2_flat by assumption. unfold dist2. pose proof (pow2_ge_0 (px p - px q)). rewrite <- (pow2_abs (py p - py q)). nra. }
  assert (U : forall v, - 10^7 <= px v <= 10^7 -> - 10^7 <= py v <= 10^7 -> in_plane v -> ~ far v).
  { intros v V W Z. unfold far, gap2, origin. cbn [px py pz]. rewrite Z, !Rminus_0_r. rewrite <- (pow2_abs (px v)), <- (pow2_abs (py v)).
    assert (Rabs (px v) <= 10^7) by (apply Rabs_le; lra). assert (Rabs (py v) <= 10^7) by (apply Rabs_le; lra). pose proof (Rabs_pos (px v)). pose proof (Rabs_pos (py v)). nra. }
  intros [K|[(_ & _ & K)|([K|K] & _)]]; [unfold e8 in K; lra|lra|revert K; now apply U|revert K; now apply U].
Qed.

Section Line.
Variables (p : pt) (x : R) (s : seg).
Hypothesis (Zp : in_plane p) (Hp : at_home p) (Ls : line_in_order s) (Ha : at_home (s_start s)) (Hb : at_home (s_end s)).
Hypothesis (Lr : line_in_order (line_of p (mkPt x (py p) 0))) (Cl : clear_of p x s).

Let a := s_start s.
Let b := s_end s.
Let l := line_of p (mkPt x (py p) 0).

(* where the line passes the height of [p] *)
Definition pass_x (s : seg) (y : R) : R := px (s_start s) + (y - py (s_start s)) / (py (s_end s) - py (s_start s)) * (px (s_end s) - px (s_start s)).

Lemma x_apart : x <> px p.
Proof.
  intros E. destruct Lr as (_ & _ & _ & _ & N). apply N. unfold line_of. cbn [s_start s_end]. rewrite E.
  replace (mkPt (px p) (py p) 0) with p; [apply one_point_refl|]. symmetry. rewrite <- Zp. now destruct p.
Qed.

(* the point at which the line reaches the height of [p] *)
Lemma pass_point : reaches (py p) s -> covers s (mkPt (pass_x s (py p)) (py p) 0) /\ (forall q, covers s q -> py q = py p -> px q = pass_x s (py p)).
Proof.
  intros R. assert (N : py b - py a <> 0) by (unfold reaches in R; fold a b in R; lra).
  unfold covers. rewrite (proj1 Ls). fold a b. unfold pass_x. fold a b. split.
  - exists ((py p - py a) / (py b - py a)). cbn [px py]. split; [|split; [reflexivity|field; exact N]].
    unfold reaches in R. fold a b in R. destruct R as [R|R].
    + split; [apply Rcomplements.Rdiv_le_0_compat; lra|apply Rcomplements.Rle_div_l; lra].
    + replace ((py p - py a) / (py b - py a)) with ((py a - py p) / (py a - py b)) by (field; lra). split; [apply Rcomplements.Rdiv_le_0_compat; lra|apply Rcomplements.Rle_div_l; lra].
  - intros q (t & _ & Q1 & Q2) E. rewrite Q1. f_equal. f_equal. rewrite <- E, Q2. field. exact N.
Qed.

Lemma pass_clear : reaches (py p) s -> e8 * Rabs (x - px p) <= Rabs (pass_x s (py p) - px p) /\ pass_x s (py p) <> px p.
Proof.
  intros R. destruct (pass_point R) as (C & _). destruct Cl as (_ & _ & K). exact (K _ C eq_refl).
Qed.

(* a level line is not found *)
Lemma level_none : py a = py b -> e6 < Rabs (px b - px a) * Rabs (py a - py p) -> intersections s l = nothing INone.
Proof.
  intros E N. unfold intersections. rewrite (proj1 Ls). change (s_ty l) with SLine. cbv iota. unfold check_lines, get_start, get_end. change (s_cw l) with false. cbv iota zeta.
  change (s_start l) with p. change (s_end l) with (mkPt x (py p) 0). fold a b. cbn [px py].
  replace ((x - px p) * (py b - py a) - (py p - py p) * (px b - px a)) with 0 by (rewrite E; ring).
  rewrite Rabs_R0, ltb_t by (unfold e6; lra).
  replace ((px b - px a) * (py p - py a) - (py b - py a) * (px p - px a)) with (- ((px b - px a) * (py a - py p))) by (rewrite E; ring).
  rewrite Rabs_Ropp, Rabs_mult, ltb_t by exact N. reflexivity.
Qed.

Lemma line_count prev next : count_on l (py p) prev s next =
  if reachb (py p) s && (ltb (- e8) ((pass_x s (py p) - px p) / (x - px p)) && ltb ((pass_x s (py p) - px p) / (x - px p)) (1 + e8)) then 1%nat else 0%nat.
Proof.
  destruct Cl as (Ends & [Steep|(Lev & Away)] & _).
  2:{ cbv zeta in Lev, Away. fold a b in Lev, Away. assert (E : reachb (py p) s = false) by (unfold reachb; fold a b; rewrite Lev; apply xorb_nilpotent). rewrite E. cbn [andb].
      unfold count_on. rewrite (level_none Lev Away). reflexivity. }
  cbv zeta in Ends, Steep. fold a b in Ends, Steep.
  assert (N : py b - py a <> 0). { intros E. rewrite E, Rabs_R0 in Steep. unfold e6 in Steep. lra. }
  pose proof x_apart as Nx.
  assert (CR : e6 <= Rabs (cross s l)).
  { unfold cross. change (s_start l) with p. change (s_end l) with (mkPt x (py p) 0). fold a b. cbn [px py].
    replace ((x - px p) * (py b - py a) - (py p - py p) * (px b - px a)) with ((x - px p) * (py b - py a)) by ring. rewrite Rabs_mult. exact Steep. }
  destruct (lines_spec s l Ls Lr CR) as (t & u & q & Ct & Cu & Zq & _ & F & G).
  unfold course in Ct, Cu. rewrite (proj1 Ls) in Ct. change (s_ty l) with SLine in Cu. change (s_start l) with p in Cu. change (s_end l) with (mkPt x (py p) 0) in Cu.
  fold a b in Ct. cbn [px py] in Cu. destruct Ct as (X & Y), Cu as (Ux & Uy).
  assert (Yq : py q = py p) by (rewrite Uy; ring).
  assert (T : t = (py p - py a) / (py b - py a)) by (rewrite <- Yq, Y; field; exact N).
  assert (Xq : px q = pass_x s (py p)) by (unfold pass_x; fold a b; rewrite <- T; exact X).
  assert (U : u = (pass_x s (py p) - px p) / (x - px p)) by (rewrite <- Xq, Ux; field; lra).
  rewrite <- U. clear U.
  assert (Hq : 0 <= t <= 1 -> at_home q).
  { intros Ht. destruct Ha as (A1 & A2), Hb as (B1 & B2). fold a in A1, A2. fold b in B1, B2. split; [rewrite X|rewrite Y]; nra. }
  (* how the ends lie *)
  assert (D : forall v, v = a \/ v = b -> py v <> py p -> in_plane v -> at_home v -> 0 <= t <= 1 -> ~ one_point q v e8).
  { intros v V W Zv Hv Ht. apply apart_home; try assumption; [now apply Hq|]. rewrite Yq, Rabs_minus_sym. destruct (Ends v V) as [E|(E & _)]; [contradiction|exact E]. }
  pose proof Ls as (_ & _ & Za & Zb & _). fold a in Za. fold b in Zb.
  assert (In0 : in_reach u <-> ltb (- e8) u && ltb u (1 + e8) = true). { rewrite andb_true_iff, !ltb_true. unfold in_reach. reflexivity. }
  assert (Out : ~ in_reach t -> count_on l (py p) prev s next = 0%nat). { intros H. unfold count_on. rewrite G; [reflexivity|]. intros (H1 & _). contradiction. }
  assert (Go : 0 <= t <= 1 -> counts (py p) prev s next q = reachb (py p) s -> count_on l (py p) prev s next = if reachb (py p) s && (ltb (- e8) u && ltb u (1 + e8)) then 1%nat else 0%nat).
  { intros Ht E. assert (Rt : in_reach t) by (unfold in_reach; pose proof e8_pos; lra). unfold count_on. destruct (ltb (- e8) u && ltb u (1 + e8)) eqn:Bu.
    - destruct (F Rt (proj2 In0 eq_refl)) as (f & K & _). rewrite K. cbn [found fst snd filter]. rewrite E. destruct (reachb (py p) s); reflexivity.
    - rewrite G; [rewrite andb_false_r; reflexivity|]. intros (_ & H). apply In0 in H. discriminate. }
  destruct (line_box_y s (proj1 Ls)) as (B1 & B2). fold a b in B1, B2.
  assert (Be : below s (py p) = true <-> py a <= py p /\ py b <= py p).
  { unfold below, box_of. rewrite B1, B2, andb_true_iff, !leb_true. unfold Rmin, Rmax. destruct (Rle_dec (py a) (py b)); lra. }
  assert (Cn : counts (py p) prev s next q = if point_matches q a e8 || point_matches q b e8 then below s (py p) else true).
  { unfold counts. rewrite (proj1 Ls). cbn [segty_eqb]. fold a b. destruct (point_matches q a e8 || point_matches q b e8); [|reflexivity]. destruct (below s (py p)); reflexivity. }
  assert (Free : forall v, v = a \/ v = b -> py v <> py p -> in_plane v -> at_home v -> 0 <= t <= 1 -> point_matches q v e8 = false).
  { intros v V W Zv Hv Ht. apply point_matches_not. now apply D. }
  assert (Hit : forall v, t = 0 /\ v = a \/ t = 1 /\ v = b -> in_plane v -> point_matches q v e8 = true).
  { intros v V Zv. apply point_matches_spec. replace q with v; [apply one_point_refl|]. destruct v as [v1 v2 v3], q as [q1 q2 q3]. unfold in_plane in Zv, Zq. cbn in *. subst.
    destruct V as [(E & V)|(E & V)]; rewrite <- V in *; cbn [px py] in *; f_equal; rewrite ?X, ?Y, E; ring. }
  assert (Ty : t * (py b - py a) = py p - py a) by (rewrite T; field; exact N).
  pose proof e8_pos as P8.
  destruct (Req_dec (py a) (py p)) as [Ea|Na].
  { assert (T0 : t = 0) by (rewrite T, Ea; unfold Rdiv; rewrite Rminus_diag_eq by reflexivity; ring).
    apply Go; [lra|]. rewrite Cn, (Hit a (or_introl (conj T0 eq_refl)) Za). cbn [orb]. unfold reachb. fold a b.
    rewrite (ltb_f (py a)) by lra. destruct (ltb (py b) (py p)) eqn:Eb; [apply ltb_true in Eb|apply ltb_false in Eb]; cbn [xorb].
    - apply Be. lra.
    - destruct (below s (py p)); [|reflexivity]. pose proof (proj1 Be eq_refl). exfalso. lra. }
  destruct (Req_dec (py b) (py p)) as [Eb|Nb].
  { assert (T1 : t = 1) by (rewrite T, Eb; field; lra).
    apply Go; [lra|]. rewrite Cn, (Hit b (or_intror (conj T1 eq_refl)) Zb), orb_true_r. unfold reachb. fold a b.
    rewrite (ltb_f (py b)) by lra. destruct (ltb (py a) (py p)) eqn:Ea; [apply ltb_true in Ea|apply ltb_false in Ea]; cbn [xorb].
    - apply Be. lra.
    - destruct (below s (py p)); [|reflexivity]. pose proof (proj1 Be eq_refl). exfalso. lra. }
  destruct (Ends a (or_introl eq_refl)) as [?|(_ & Ka)]; [contradiction|]. destruct (Ends b (or_intror eq_refl)) as [?|(_ & Kb)]; [contradiction|].
  destruct (reachb (py p) s) eqn:Rb.
  - assert (R : reaches (py p) s) by now apply reachb_spec. unfold reaches in R. fold a b in R.
    assert (Ht : 0 <= t <= 1) by (split; nra).
    apply Go; [exact Ht|]. rewrite Cn, (Free a), (Free b) by (auto; try exact Ha; exact Hb). reflexivity.
  - cbn [andb]. apply Out. assert (R : ~ reaches (py p) s) by (intros R; apply reachb_spec in R; congruence). unfold reaches in R. fold a b in R.
    intros (L1 & L2). unfold Rabs in Ka, Kb. destruct (Rcase_abs (py b - py a)), (Rcase_abs (py a - py p)), (Rcase_abs (py b - py p)); nra.
Qed.

Lemma div_ge u v d : 0 < d -> u * d <= v -> u <= v / d.
Proof. intros D H. now apply (Rcomplements.Rle_div_r u v d). Qed.

Lemma reach_div_in v d : 0 < v < d -> ltb (- e8) (v / d) && ltb (v / d) (1 + e8) = true.
Proof.
  intros H. pose proof e8_pos. assert (0 < v / d) by (apply Rdiv_lt_0_compat; lra). assert (v / d < 1) by (apply Rcomplements.Rlt_div_l; lra).
  rewrite !ltb_t by lra. reflexivity.
Qed.

Lemma line_count_left prev next : (forall q, covers s q -> py q = py p -> x + 1 <= px q) -> Rabs (x - px p) <= 10^8 ->
  count_on l (py p) prev s next = if reachb (py p) s && ltb (pass_x s (py p)) (px p) then 1%nat else 0%nat.
Proof.
  intros H D. rewrite line_count. destruct (reachb (py p) s) eqn:R; [|reflexivity]. apply reachb_spec in R. cbn [andb].
  destruct (pass_point R) as (C & _). specialize (H _ C eq_refl). cbn [px] in H. destruct (pass_clear R) as (K & N). pose proof x_apart as Nx. pose proof e8_pos as P8.
  set (X := pass_x s (py p)) in *. destruct (Rlt_le_dec X (px p)) as [L|L].
  - rewrite (ltb_t X) by exact L. replace ((X - px p) / (x - px p)) with ((px p - X) / (px p - x)) by (field; lra). now rewrite reach_div_in by lra.
  - rewrite (ltb_f X) by lra. destruct (Rlt_le_dec x (px p)) as [L'|L'].
    + rewrite Rabs_left in K by lra. rewrite Rabs_right in K by lra. rewrite ltb_f; [reflexivity|].
      replace ((X - px p) / (x - px p)) with (- ((X - px p) / (px p - x))) by (field; lra). apply Ropp_le_contravar. apply div_ge; [lra|]. nra.
    + rewrite Rabs_right in D by lra. rewrite (ltb_f _ (1 + e8)); [now rewrite andb_false_r|]. apply div_ge; [lra|]. unfold e8. lra.
Qed.

Lemma line_count_right prev next : (forall q, covers s q -> py q = py p -> px q <= x - 1) -> Rabs (x - px p) <= 10^8 ->
  count_on l (py p) prev s next = if reachb (py p) s && ltb (px p) (pass_x s (py p)) then 1%nat else 0%nat.
Proof.
  intros H D. rewrite line_count. destruct (reachb (py p) s) eqn:R; [|reflexivity]. apply reachb_spec in R. cbn [andb].
  destruct (pass_point R) as (C & _). specialize (H _ C eq_refl). cbn [px] in H. destruct (pass_clear R) as (K & N). pose proof x_apart as Nx. pose proof e8_pos as P8.
  set (X := pass_x s (py p)) in *. destruct (Rlt_le_dec (px p) X) as [L|L].
  - rewrite (ltb_t (px p)) by exact L. now rewrite reach_div_in by lra.
  - rewrite (ltb_f (px p)) by lra. destruct (Rlt_le_dec (px p) x) as [L'|L'].
    + rewrite Rabs_right in K by lra. rewrite Rabs_left in K by lra. rewrite ltb_f; [reflexivity|].
      replace ((X - px p) / (x - px p)) with (- ((px p - X) / (x - px p))) by (field; lra). apply Ropp_le_contravar. apply div_ge; [lra|]. nra.
    + rewrite Rabs_left in D by lra. rewrite (ltb_f _ (1 + e8)); [now rewrite andb_false_r|]. replace ((X - px p) / (x - px p)) with ((px p - X) / (px p - x)) by (field; lra). apply div_ge; [lra|]. unfold e8. lra.
Qed.

Lemma side_spec : (reachb (py p) s && ltb (pass_x s (py p)) (px p) = true <-> passes_left p s) /\ (reachb (py p) s && ltb (px p) (pass_x s (py p)) = true <-> passes_right p s).
Proof.
  unfold passes_left, passes_right. rewrite !andb_true_iff, !reachb_spec, !ltb_true. split; split; intros (R & H); (split; [exact R|]); destruct (pass_point R) as (C & U).
  - intros q Cq E. now rewrite (U q Cq E).
  - exact (H _ C eq_refl).
  - intros q Cq E. now rewrite (U q Cq E).
  - exact (H _ C eq_refl).
Qed.
End Line.

(** ** The whole outline *)

Lemma count_sum (g : nat -> nat) (f : seg -> bool) (l : list seg) : (forall i, (i < length l)%nat -> g i = if f (nth i l seg_init) then 1%nat else 0%nat) ->
  fold_left Nat.add (map g (seq 0 (length l))) 0%nat = count_if f l.
Proof.
  assert (G : forall (l : list seg) k acc, (forall i, (i < length l)%nat -> g (k + i)%nat = if f (nth i l seg_init) then 1%nat else 0%nat) ->
    fold_left Nat.add (map g (seq k (length l))) acc = (acc + count_if f l)%nat).
  { clear l. induction l as [|s l IH]; intros k acc H; [cbn; unfold count_if; cbn; lia|].
    cbn [length seq map fold_left]. rewrite IH.
    - rewrite count_cons. pose proof (H 0%nat ltac:(cbn; lia)) as E. rewrite Nat.add_0_r in E. rewrite E. cbn [nth]. destruct (f s); lia.
    - intros i L. replace (S k + i)%nat with (k + S i)%nat by lia. rewrite H by (cbn; lia). reflexivity. }
  intros H. now rewrite (G l 0%nat 0%nat H).
Qed.

Lemma home_line s q : s_ty s = SLine -> at_home (s_start s) -> at_home (s_end s) -> covers s q -> at_home q.
Proof. intros T (A1 & A2) (B1 & B2) C. unfold covers in C. rewrite T in C. destruct C as (t & Ht & X & Y). split; [rewrite X|rewrite Y]; nra. Qed.

(* lines in order within a box, which need not have been added one by one *)
Section Lines.
Variables (o : outline) (p : pt) (x : R) (e : bool).
Hypothesis (Mo : forall s, In s (o_segs o) -> line_in_order s) (Co : o_closed o = true) (Ro : exact_ring (o_segs o)).
Hypothesis (Bx : forall s q, In s (o_segs o) -> covers s q -> px (o_bl o) - e8 <= px q <= px (o_tr o) + e8).
Hypothesis (Ho : forall s, In s (o_segs o) -> at_home (s_start s) /\ at_home (s_end s)).
Hypothesis (Zp : in_plane p) (Hp : at_home p) (Lx : line_end o p x) (Fx : 1 <= Rabs (x - px p)) (D : Rabs (x - px p) <= 10^8) (Cl : forall s, In s (o_segs o) -> clear_of p x s).

Lemma lines_ray : ray o p = line_of p (mkPt x (py p) 0) /\ line_in_order (line_of p (mkPt x (py p) 0)).
Proof.
  rewrite (line_end_ray o p x Lx). destruct (set_line_cases p x Zp) as [(N & _)|(L & E)]; [|now split].
  exfalso. revert N. destruct Hp as (P1 & P2). pose proof D as D'. apply Rcomplements.Rabs_le_between in D'.
  apply apart_wide; try exact Zp; try reflexivity; cbn [px py]; try lra. rewrite Rabs_minus_sym. lra.
Qed.

Lemma lines_inside : exists n m, counted (passes_right p) (o_segs o) n /\ counted (passes_left p) (o_segs o) m /\ Nat.odd n = Nat.odd m /\ is_inside o p e = (Nat.odd n, e).
Proof.
  destruct lines_ray as (Er & Lr).
  set (fr := fun s => reachb (py p) s && ltb (px p) (pass_x s (py p))). set (fl := fun s => reachb (py p) s && ltb (pass_x s (py p)) (px p)).
  exists (count_if fr (o_segs o)), (count_if fl (o_segs o)).
  assert (Sd : forall s, In s (o_segs o) -> (fl s = true <-> passes_left p s) /\ (fr s = true <-> passes_right p s)) by (intros s I; apply side_spec; now apply Mo).
  assert (Eq : Nat.odd (count_if fr (o_segs o)) = Nat.odd (count_if fl (o_segs o))).
  { pose proof (ring_parity (py p) _ Ro) as Pa. rewrite (count_split (reachb (py p)) (fun s => ltb (px p) (pass_x s (py p)))) in Pa.
    replace (count_if (fun s => reachb (py p) s && negb (ltb (px p) (pass_x s (py p)))) (o_segs o)) with (count_if fl (o_segs o)) in Pa.
    - fold fr in Pa. rewrite Nat.odd_add in Pa. destruct (Nat.odd (count_if fr (o_segs o))), (Nat.odd (count_if fl (o_segs o))); try reflexivity; discriminate.
    - unfold count_if. f_equal. apply filter_ext_in. intros s I. unfold fl. destruct (reachb (py p) s) eqn:R; [|reflexivity]. apply reachb_spec in R.
      destruct (pass_clear p x s (Mo s I) (Cl s I) R) as (_ & N). cbn [andb].
      destruct (Rlt_le_dec (pass_x s (py p)) (px p)) as [L|L]; [rewrite ltb_t, ltb_f by lra; reflexivity|rewrite ltb_f, ltb_t by lra; reflexivity]. }
  split; [apply (counted_spec _ fr); [intros s I; apply (Sd s I)|reflexivity]|].
  split; [apply (counted_spec _ fl); [intros s I; apply (Sd s I)|reflexivity]|].
  split; [exact Eq|]. unfold is_inside. rewrite Co. cbn [negb]. f_equal. unfold count_all. rewrite Er.
  pose proof e8_small. pose proof Lx as [(_ & E)|(_ & E)].
  - rewrite (count_sum _ fl); [now rewrite Eq|]. intros i L. assert (I : In (nth i (o_segs o) seg_init) (o_segs o)) by now apply nth_In. destruct (Ho _ I) as (Ha & Hb).
    apply line_count_left; auto. intros q C _. pose proof (Bx _ q I C). lra.
  - rewrite (count_sum _ fr); [reflexivity|]. intros i L. assert (I : In (nth i (o_segs o) seg_init) (o_segs o)) by now apply nth_In. destruct (Ho _ I) as (Ha & Hb).
    apply line_count_right; auto. intros q C _. pose proof (Bx _ q I C). lra.
Qed.
End Lines.

Section Polygon.
Variables (o : outline) (p : pt) (x : R) (e : bool).
Hypothesis (Bo : built made o) (Co : o_closed o = true) (Lo : Forall (fun s => s_ty s = SLine) (o_segs o)) (Ro : exact_ring (o_segs o)).
Hypothesis (Ho : forall s, In s (o_segs o) -> at_home (s_start s) /\ at_home (s_end s)).
Hypothesis (Zp : in_plane p) (Hp : at_home p) (Lx : line_end o p x) (Fx : 1 <= Rabs (x - px p)) (Cl : forall s, In s (o_segs o) -> clear_of p x s).

Lemma poly_lines s : In s (o_segs o) -> line_in_order s.
Proof.
  intros I. destruct (built_boxed o Bo) as (M & _). rewrite Forall_forall in Lo. specialize (Lo s I). destruct (M s I) as [L|[(A & _)|C]]; [exact L| |].
  - destruct A as (T & _). congruence.
  - destruct C as (T & _). congruence.
Qed.

Lemma poly_far : Rabs (x - px p) <= 10^8.
Proof.
  destruct (built_tight o Bo Co) as ((s & q & I & C & T) & _ & (w & (s1 & s2 & q1 & q2 & I1 & I2 & C1 & C2 & W) & Tw)).
  rewrite Forall_forall in Lo.
  assert (G : forall s q, In s (o_segs o) -> covers s q -> at_home q) by (intros u v Iu Cu; destruct (Ho u Iu); now apply (home_line u v (Lo u Iu))).
  pose proof (G s q I C) as (Q1 & _). pose proof (G s1 q1 I1 C1) as (Q2 & Q3). pose proof (G s2 q2 I2 C2) as (Q4 & Q5).
  destruct (built_in_box o s q Bo I C) as (X & _). pose proof e8_small. pose proof e8_pos. destruct Hp as (P1 & _).
  apply Rabs_le. destruct Lx as [(_ & ->)|(_ & ->)]; destruct W as [W|W]; lra.
Qed.

Lemma polygon_inside : exists n m, counted (passes_right p) (o_segs o) n /\ counted (passes_left p) (o_segs o) m /\ Nat.odd n = Nat.odd m /\ is_inside o p e = (Nat.odd n, e).
Proof.
  apply (lines_inside o p x e poly_lines Co Ro); try assumption; [|exact poly_far]. intros s q I C. apply (built_in_box o s q Bo I C).
Qed.
End Polygon.

(** A triangle and a point in it. *)
Lemma triangle_inside : exists o x, draw triangle = Some (yes, o) /\ built made o /\ o_closed o = true /\ Forall (fun s => s_ty s = SLine) (o_segs o) /\ exact_ring (o_segs o) /\
  (forall s, In s (o_segs o) -> at_home (s_start s) /\ at_home (s_end s)) /\ at_home (at2 1 1) /\ line_end o (at2 1 1) x /\ 1 <= Rabs (x - 1) /\
  (forall s, In s (o_segs o) -> clear_of (at2 1 1) x s) /\ is_inside o (at2 1 1) false = (true, false).
Proof.
  destruct triangle_area as (o & D & B & C & L & _). destruct triangle_case as (o1 & D1 & _ & _ & _ & _ & o2 & A & _ & _ & S).
  assert (E : o2 = o). { change triangle with ([tri1; tri2] ++ [tri3]) in D. unfold draw in D, D1. rewrite fold_left_app, D1 in D. cbn [fold_left] in D. congruence. }
  subst o2. destruct (line_end_exists o (at2 1 1)) as (x & X & _). exists o, x.
  assert (Xr : - 7 <= x <= -4 \/ 7 <= x <= 20).
  { assert (I1 : In (reverse tri1) (o_segs o)) by (rewrite S; right; right; now left). assert (I2 : In (reverse tri2) (o_segs o)) by (rewrite S; right; now left).
    assert (P1 : covers (reverse tri1) (at2 0 0)) by (exists 1; cbn; lra). assert (P2 : covers (reverse tri2) (at2 3 0)) by (exists 0; cbn; lra).
    destruct (built_in_box o _ _ B I1 P1) as (Q1 & _). destruct (built_in_box o _ _ B I2 P2) as (Q2 & _). cbn [px at2] in Q1, Q2.
    destruct (built_tight o B C) as ((s & q & I & Cq & T) & _ & (w & (s1 & s2 & q1 & q2 & J1 & J2 & C1 & C2 & W) & Tw)).
    assert (G : forall s q, In s (o_segs o) -> covers s q -> 0 <= px q <= 3 /\ 0 <= py q <= 4).
    { intros u v Iu Cu. rewrite S in Iu. destruct Iu as [<-|[<-|[<-|[]]]]; destruct Cu as (t & Ht & U & V); cbn in U, V; split; lra. }
    pose proof (G s q I Cq). pose proof (G s1 q1 J1 C1). pose proof (G s2 q2 J2 C2). pose proof e8_small. pose proof e8_pos.
    destruct X as [(_ & X)|(_ & X)]; [left|right]; destruct W; lra. }
  assert (Ax : 1 <= Rabs (x - 1) <= 20) by (destruct Xr; [rewrite Rabs_left by lra|rewrite Rabs_right by lra]; lra).
  split; [exact D|]. split; [exact B|]. split; [exact C|]. split; [exact L|].
  assert (Ro : exact_ring (o_segs o)) by (rewrite S; cbn; repeat split; reflexivity).
  assert (Ho : forall s, In s (o_segs o) -> at_home (s_start s) /\ at_home (s_end s)).
  { intros s I. rewrite S in I. unfold at_home. destruct I as [<-|[<-|[<-|[]]]]; cbn; repeat split; lra. }
  assert (Hp : at_home (at2 1 1)) by (unfold at_home; cbn; repeat split; lra).
  assert (Cl : forall s, In s (o_segs o) -> clear_of (at2 1 1) x s).
  { intros s I. rewrite S in I. unfold clear_of. destruct I as [<-|[<-|[<-|[]]]]; cbn [reverse tri1 tri2 tri3 line_of s_ty s_start s_end px py at2];
      (split; [intros v [->| ->]; right; cbn [py at2]; unfold e8; split; unfold Rabs; destruct (Rcase_abs _); try destruct (Rcase_abs _); lra|split]).
    - right. split; [reflexivity|]. unfold e6. rewrite Rabs_right, Rabs_left by lra. lra.
    - intros q (t & Ht & U & V) Y. cbn in U, V, Y. lra.
    - left. rewrite (Rabs_right (4 - 0)) by lra. unfold e6. nra.
    - intros q (t & Ht & U & V) Y. cbn in U, V. rewrite Y in V. assert (px q = 9 / 4) by lra. split; [|lra]. rewrite (Rabs_right (px q - 1)) by lra. unfold e8. lra.
    - left. rewrite (Rabs_left (0 - 4)) by lra. unfold e6. nra.
    - intros q (t & Ht & U & V) Y. cbn in U, V. assert (px q = 0) by lra. split; [|lra]. rewrite (Rabs_left (px q - 1)) by lra. unfold e8. lra. }
  split; [exact Ro|]. split; [exact Ho|]. split; [exact Hp|]. split; [exact X|]. split; [lra|]. split; [exact Cl|].
  destruct (polygon_inside o (at2 1 1) x false B C L Ro Ho (eq_refl : in_plane (at2 1 1)) Hp X (proj1 Ax) Cl) as (n & m & N & _ & _ & ->). rewrite S in N.
  assert (R3 : ~ passes_right (at2 1 1) (reverse tri3)) by (intros (R & _); unfold reaches in R; cbn in R; lra).
  assert (R2 : passes_right (at2 1 1) (reverse tri2)).
  { split; [unfold reaches; cbn; lra|]. intros q (t & Ht & U & V) Y. cbn in U, V. rewrite Y in V. cbn [px at2]. cbn in V. lra. }
  assert (R1 : ~ passes_right (at2 1 1) (reverse tri1)).
  { intros (_ & K). assert (Q : covers (reverse tri1) (at2 0 1)) by (exists (3 / 4); cbn; lra). specialize (K _ Q eq_refl). cbn in K. lra. }
  inversion N as [|? ? ? U N1|? ? ? U N1]; subst; [contradiction|]. inversion N1 as [|? ? n1 U1 N2|? ? n1 U1 N2]; subst; [|contradiction].
  inversion N2 as [|? ? n2 U2 N3|? ? n2 U2 N3]; subst; [contradiction|]. inversion N3. subst. reflexivity.
Qed.
