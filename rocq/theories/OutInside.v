(** Which points are inside a circular outline. *)

From Coq Require Import Reals List Bool ZArith Lra Lia.
From Verif Require Import SegModel SegSpec SegTrig SegFacts SegBox SegSplit SegProps CutModel CutSpec CutCircle CutLine CutCases OutModel OutSpec OutFacts OutBox OutArea OutDraw.
Import ListNotations.
Open Scope R_scope.

(** How many points a list has. *)
Lemma lists_nil l P : lists l P -> (forall p, ~ P p) -> length l = 0%nat.
Proof. intros (A & _) N. destruct l as [|p l]; [reflexivity|]. exfalso. apply (N p). apply A. now left. Qed.

Lemma lists_single l P a : lists l P -> (forall p, P p <-> same_place p a) -> length l = 1%nat.
Proof.
  intros (A & B & C) S. destruct l as [|p [|q l]]; [|reflexivity|].
  - destruct (B a) as (q & [] & _). apply S. now split.
  - exfalso. assert (E : 0%nat = 1%nat); [|discriminate]. apply (C 0%nat 1%nat p q); try reflexivity.
    pose proof (proj1 (S p) (A p (or_introl eq_refl))) as (X1 & Y1). pose proof (proj1 (S q) (A q (or_intror (or_introl eq_refl)))) as (X2 & Y2).
    split; congruence.
Qed.

Lemma lists_pair l P a b : lists l P -> ~ same_place a b -> (forall p, P p <-> same_place p a \/ same_place p b) -> length l = 2%nat.
Proof.
  intros (A & B & C) N S.
  assert (T : forall u v w, same_place u w -> same_place v w -> same_place u v) by (intros u v w (X1 & Y1) (X2 & Y2); split; congruence).
  destruct l as [|p [|q [|r l]]]; [|exfalso|reflexivity|exfalso].
  - destruct (B a) as (q & [] & _). apply S. left. now split.
  - destruct (B a) as (x & [<-|[]] & (E1 & E2)); [apply S; left; now split|]. destruct (B b) as (x & [<-|[]] & (F1 & F2)); [apply S; right; now split|].
    apply N. split; congruence.
  - assert (D : forall i j u v, nth_error (p :: q :: r :: l) i = Some u -> nth_error (p :: q :: r :: l) j = Some v -> i <> j -> ~ same_place u v) by (intros i j u v I J K L; apply K; exact (C i j u v I J L)).
    pose proof (D 0 1 p q eq_refl eq_refl ltac:(discriminate))%nat as D1. pose proof (D 0 2 p r eq_refl eq_refl ltac:(discriminate))%nat as D2. pose proof (D 1 2 q r eq_refl eq_refl ltac:(discriminate))%nat as D3.
    pose proof (proj1 (S p) (A p (or_introl eq_refl))) as [P1|P1]; pose proof (proj1 (S q) (A q (or_intror (or_introl eq_refl)))) as [Q1|Q1];
    pose proof (proj1 (S r) (A r (or_intror (or_intror (or_introl eq_refl))))) as [R1|R1];
    first [now apply D1, (T _ _ a) | now apply D1, (T _ _ b) | now apply D2, (T _ _ a) | now apply D2, (T _ _ b) | now apply D3, (T _ _ a) | now apply D3, (T _ _ b)].
Qed.

(** The line drawn. *)
Lemma line_end_exists o p : exists x, line_end o p x /\ ray o p = snd (set_line p (mkPt x (py p) 0)).
Proof.
  unfold ray, line_end. destruct (leb (px p - px (o_bl o)) (px (o_tr o) - px p)) eqn:L; [apply leb_true in L|apply leb_false in L]; eexists; (split; [|reflexivity]); [left|right]; (split; [exact L|reflexivity]).
Qed.
Lemma line_end_ray o p x : line_end o p x -> ray o p = snd (set_line p (mkPt x (py p) 0)).
Proof.
  unfold ray. intros [(L & ->)|(L & ->)]; [rewrite leb_t by exact L|rewrite leb_f by exact L]; reflexivity.
Qed.
Lemma line_end_unique o p x y : line_end o p x -> line_end o p y -> x = y.
Proof. intros [(A & ->)|(A & ->)] [(B & ->)|(B & ->)]; lra. Qed.

Lemma set_line_cases p x : in_plane p ->
  (one_point p (mkPt x (py p) 0) e8 /\ snd (set_line p (mkPt x (py p) 0)) = seg_init) \/
  (line_in_order (line_of p (mkPt x (py p) 0)) /\ snd (set_line p (mkPt x (py p) 0)) = line_of p (mkPt x (py p) 0)).
Proof.
  intros Z. destruct (point_matches p (mkPt x (py p) 0) e8) eqn:M.
  - apply point_matches_spec in M. left. split; [exact M|now apply set_line_bad].
  - apply point_matches_not in M. right. split; [|now apply set_line_good]. split; [reflexivity|]. split; [reflexivity|]. split; [exact Z|]. split; [reflexivity|exact M].
Qed.

(** An outline with one segment, a circle. *)
Lemma inside_circle_count o c p e : o_closed o = true -> o_segs o = [c] -> s_ty c = SCircle ->
  is_inside o p e = (let i := intersections c (ray o p) in if fst i then Nat.odd (length (fst (snd i))) else false, e).
Proof.
  intros C S T. unfold is_inside, count_all. rewrite C, S. cbn [negb length seq map fold_left nth Nat.eqb Nat.sub Nat.add]. unfold count_on.
  destruct (fst (intersections c (ray o p))); [|reflexivity]. cbn zeta. f_equal. f_equal. 
  assert (F : forall l, filter (counts (py p) c c c) l = l). { induction l as [|q l IH]; [reflexivity|]. cbn [filter]. unfold counts at 1. rewrite T. cbn [segty_eqb]. now rewrite IH. }
  rewrite F. reflexivity.
Qed.

Section Circle.
Variables (o : outline) (c : seg) (p : pt) (x : R).
Hypothesis (Cl : o_closed o = true) (Sg : o_segs o = [c]) (Fc : full_circle c) (Zp : in_plane p).
Hypothesis (Lo : px (o_bl o) <= px (s_cen c) - s_rad c) (Hi : px (s_cen c) + s_rad c <= px (o_tr o)).
Hypothesis (X : line_end o p x).

Let cx := px (s_cen c).
Let cy := py (s_cen c).
Let r := s_rad c.
Let l := line_of p (mkPt x (py p) 0).

Lemma x_far : x <= cx - r - 5 \/ cx + r + 5 <= x.
Proof. unfold cx, r. destruct X as [(_ & ->)|(_ & ->)]; lra. Qed.

Lemma circle_reach : line_reach c l = 4 * ((x - px p) ^ 2 * (r ^ 2 - (py p - cy) ^ 2)).
Proof. unfold line_reach, reach, l, line_of, dist2, r, cy. cbn [s_start s_end px py]. ring. Qed.

Lemma covers_l q : covers l q <-> py q = py p /\ ((px p <= px q <= x) \/ (x <= px q <= px p)).
Proof.
  unfold covers, l, line_of. cbn [s_ty s_start s_end px py]. split.
  - intros (t & T & A & B). split; [rewrite B; ring|]. rewrite A. destruct (Rle_dec (px p) x); [left|right]; nra.
  - intros (B & H). destruct (Req_dec x (px p)) as [E|E].
    + exists 0. rewrite B. split; [lra|]. split; [|ring]. lra.
    + exists ((px q - px p) / (x - px p)). assert (N : x - px p <> 0) by lra. split; [|split; [field; exact N|rewrite B; ring]].
      destruct H as [H|H].
      * assert (0 < x - px p) by lra. split; [apply Rcomplements.Rdiv_le_0_compat; lra|]. apply Rcomplements.Rle_div_l; lra.
      * assert (0 < px p - x) by lra. replace ((px q - px p) / (x - px p)) with ((px p - px q) / (px p - x)) by (field; lra). split; [apply Rcomplements.Rdiv_le_0_compat; lra|]. apply Rcomplements.Rle_div_l; lra.
Qed.

Lemma covers_c q : covers c q <-> (px q - cx) ^ 2 + (py q - cy) ^ 2 = r ^ 2.
Proof. unfold covers. destruct Fc as (T & _). rewrite T. reflexivity. Qed.

(* the two places on the circle level with [p] *)
Lemma level k : 0 < k -> k ^ 2 = r ^ 2 - (py p - cy) ^ 2 -> forall q, common c l q <->
  py q = py p /\ (px q = cx - k \/ px q = cx + k) /\ ((px p <= px q <= x) \/ (x <= px q <= px p)).
Proof.
  intros K E q. unfold common. rewrite covers_l, covers_c. split.
  - intros (A & B & C). split; [exact B|]. split; [|exact C]. rewrite B in A.
    assert (Q : (px q - cx - k) * (px q - cx + k) = 0) by nra. apply Rmult_integral in Q. destruct Q; [right|left]; lra.
  - intros (B & [A|A] & C); (split; [rewrite A, B; nra|split; [exact B|exact C]]).
Qed.

Lemma intersect_seg : one_point p (mkPt x (py p) 0) e8 -> intersections c (ray o p) = nothing INone.
Proof.
  intros M. rewrite (line_end_ray o p x X), (set_line_bad _ _ M). unfold intersections. destruct Fc as (T & _). now rewrite T.
Qed.

Lemma circle_clear e : e6 <= 4 * ((x - px p) ^ 2 * Rabs (r ^ 2 - (py p - cy) ^ 2)) ->
  (dist p (s_cen c) < r -> ~ one_point p (mkPt x (py p) 0) e8 -> is_inside o p e = (true, e)) /\
  (r < dist p (s_cen c) -> is_inside o p e = (false, e)).
Proof.
  intros M. assert (R : 0 < r) by (unfold r; now destruct Fc as (_ & ? & _)).
  pose proof (dist_sq p (s_cen c)) as D2. unfold dist2 in D2. fold cx cy in D2. pose proof (dist_pos p (s_cen c)) as Dp.
  rewrite (inside_circle_count o c p e Cl Sg (proj1 Fc)).
  destruct (set_line_cases p x Zp) as [(One & _)|(Li & Sl)].
  { rewrite (intersect_seg One). cbn. split; [intros _ N; contradiction|reflexivity]. }
  rewrite (line_end_ray o p x X), Sl. fold l in Li |- *.
  destruct (circle_line_spec c l c l (or_introl (conj eq_refl eq_refl)) Fc Li) as (S1 & S2 & _). rewrite circle_reach in S1, S2.
  pose proof x_far as XF. assert (E6 : 0 < e6) by (unfold e6; lra). pose proof (pow2_ge_0 (x - px p)) as XP.
  destruct (Rle_dec (r ^ 2) ((py p - cy) ^ 2)) as [H|H].
  - rewrite Rabs_left1 in M by lra. destruct S2 as (Q & _); [nra|]. rewrite Q. cbn. split; [|reflexivity]. intros B _. exfalso. pose proof (pow2_ge_0 (px p - cx)). nra.
  - rewrite Rabs_right in M by lra. destruct (S1 M) as (ps & Ls & _ & (f & Q & _) & _).
    set (k := sqrt (r ^ 2 - (py p - cy) ^ 2)). assert (K : 0 < k) by (apply sqrt_lt_R0; lra). assert (Ke : k ^ 2 = r ^ 2 - (py p - cy) ^ 2) by (unfold k; rewrite <- Rsqr_pow2; apply Rsqr_sqrt; lra).
    assert (Kr : k <= r) by (pose proof (pow2_ge_0 (py p - cy)); nra).
    pose proof (level k K Ke) as Lv.
    assert (Len : Nat.odd (length ps) = true -> (let i := intersections c l in if fst i then Nat.odd (length (fst (snd i))) else false, e) = (true, e)).
    { intros O. rewrite Q. destruct ps as [|a ps]; [discriminate O|]. cbn [found nothing fst snd]. cbn zeta. rewrite O. reflexivity. }
    assert (Len' : Nat.odd (length ps) = false -> (let i := intersections c l in if fst i then Nat.odd (length (fst (snd i))) else false, e) = (false, e)).
    { intros O. rewrite Q. destruct ps as [|a ps]; [reflexivity|]. cbn [found nothing fst snd]. cbn zeta. rewrite O. reflexivity. }
    split.
    + intros B _. apply Len. assert (In1 : cx - k < px p < cx + k) by (split; nra).
      destruct XF as [XF|XF].
      * rewrite (lists_single ps _ (mkPt (cx - k) (py p) 0) Ls); [reflexivity|]. intros q. rewrite Lv. unfold same_place. cbn [px py]. split; [intros (A & [C|C] & D); split; lra|intros (A & C); split; [exact C|]; split; [now left|right; lra]].
      * rewrite (lists_single ps _ (mkPt (cx + k) (py p) 0) Ls); [reflexivity|]. intros q. rewrite Lv. unfold same_place. cbn [px py]. split; [intros (A & [C|C] & D); split; lra|intros (A & C); split; [exact C|]; split; [now right|left; lra]].
    + intros B. apply Len'. assert (Out : px p < cx - k \/ cx + k < px p).
      { destruct (Rlt_dec (px p) (cx - k)); [now left|]. destruct (Rlt_dec (cx + k) (px p)); [now right|]. exfalso. nra. }
      assert (Two : (px p < cx - k /\ cx + r + 5 <= x) \/ (cx + k < px p /\ x <= cx - r - 5) \/ (px p < cx - k /\ x <= cx - r - 5) \/ (cx + k < px p /\ cx + r + 5 <= x)) by tauto.
      assert (NS : ~ same_place (mkPt (cx - k) (py p) 0) (mkPt (cx + k) (py p) 0)) by (intros (A & _); cbn in A; lra).
      destruct Two as [(A & C)|[(A & C)|[(A & C)|(A & C)]]].
      * rewrite (lists_pair ps _ _ _ Ls NS); [reflexivity|]. intros q. rewrite Lv. unfold same_place. cbn [px py]. split; [intros (G & [F|F] & _); [left|right]; now split|intros [(F & G)|(F & G)]; (split; [exact G|]); (split; [tauto|left; lra])].
      * rewrite (lists_pair ps _ _ _ Ls NS); [reflexivity|]. intros q. rewrite Lv. unfold same_place. cbn [px py]. split; [intros (G & [F|F] & _); [left|right]; now split|intros [(F & G)|(F & G)]; (split; [exact G|]); (split; [tauto|right; lra])].
      * rewrite (lists_nil ps _ Ls); [reflexivity|]. intros q. rewrite Lv. intros (_ & [F|F] & G); lra.
      * rewrite (lists_nil ps _ Ls); [reflexivity|]. intros q. rewrite Lv. intros (_ & [F|F] & G); lra.
Qed.

(* next to the top and the bottom of the circle it is the place of the centre which decides *)
Lemma circle_level e : 4 * ((x - px p) ^ 2 * Rabs (r ^ 2 - (py p - cy) ^ 2)) < e6 -> ~ one_point p (mkPt x (py p) 0) e8 ->
  is_inside o p e = (leb (Rmin (px p) x) cx && leb cx (Rmax (px p) x), e).
Proof.
  intros M N. rewrite (inside_circle_count o c p e Cl Sg (proj1 Fc)).
  destruct (set_line_cases p x Zp) as [(One & _)|(Li & Sl)]; [contradiction|].
  rewrite (line_end_ray o p x X), Sl. fold l in Li |- *.
  destruct (circle_line_spec c l c l (or_introl (conj eq_refl eq_refl)) Fc Li) as (_ & _ & S3). rewrite circle_reach in S3.
  destruct S3 as (t & S3).
  { rewrite Rabs_mult, Rabs_mult, (Rabs_right 4), (Rabs_right ((x - px p) ^ 2)); [exact M| |lra]. apply Rle_ge, pow2_ge_0. }
  cbn zeta in S3. destruct S3 as (Near & _ & Y1 & Y2). set (f := at_t (s_start l) (s_end l) t) in *.
  assert (NX : x <> px p).
  { intros E. destruct Li as (_ & _ & _ & _ & Li). apply Li. unfold l, line_of. cbn [s_start s_end]. rewrite E. replace (mkPt (px p) (py p) 0) with p; [apply one_point_refl|]. symmetry. rewrite <- Zp. now destruct p. }
  assert (Fx : px f = t * px p + (1 - t) * x) by reflexivity. assert (Fy : py f = py p) by (change (py f) with (t * py p + (1 - t) * py p); ring).
  assert (Cx : px f = cx).
  { set (u := (cx - x) / (px p - x)). specialize (Near u). 
    assert (U1 : px (at_t (s_start l) (s_end l) u) = cx) by (change (px (at_t (s_start l) (s_end l) u)) with (u * px p + (1 - u) * x); unfold u; field; lra).
    assert (U2 : py (at_t (s_start l) (s_end l) u) = py p) by (change (py (at_t (s_start l) (s_end l) u)) with (u * py p + (1 - u) * py p); ring).
    pose proof (dist_pos f (s_cen c)) as P1. pose proof (dist_sq f (s_cen c)) as P2. pose proof (dist_sq (at_t (s_start l) (s_end l) u) (s_cen c)) as P3. pose proof (dist_pos (at_t (s_start l) (s_end l) u) (s_cen c)) as P4.
    unfold dist2 in P2, P3. rewrite U1, U2 in P3. fold cx cy in P2, P3. rewrite Fy in P2.
    pose proof (Rmult_le_compat _ _ _ _ P1 P1 Near Near) as P5. rewrite P2, P3 in P5.
    assert (Q0 : (px f - cx) * (px f - cx) = 0) by (pose proof (pow2_ge_0 (px f - cx)); lra). apply Rmult_integral in Q0. lra. }
  rewrite Cx in Fx.
  assert (Dec : 0 <= t <= 1 <-> Rmin (px p) x <= cx <= Rmax (px p) x).
  { unfold Rmin, Rmax. destruct (Rle_dec (px p) x); split; intros H; nra. }
  destruct (leb (Rmin (px p) x) cx && leb cx (Rmax (px p) x)) eqn:B.
  - apply andb_true_iff in B. rewrite !leb_true in B. rewrite (Y1 (proj2 Dec B)). reflexivity.
  - assert (NB : ~ 0 <= t <= 1). { rewrite Dec. intros H. apply not_true_iff_false in B. apply B. apply andb_true_iff. now rewrite !leb_true. }
    rewrite (Y2 NB). reflexivity.
Qed.
End Circle.

(** ** Circular outlines as they are made *)

Lemma adjust_range bl tr bl' tr' : adjust_box (bl, tr) = Some (bl', tr') ->
  - 10^10 <= px bl' <= 10^10 /\ - 10^10 <= px tr' <= 10^10 /\ - 10^10 <= py bl' <= 10^10 /\ - 10^10 <= py tr' <= 10^10.
Proof.
  unfold adjust_box. destruct (forallb int_ok _) eqn:F; [|discriminate]. intros E. injection E as <- <-. cbn [px py].
  rewrite forallb_forall in F. set (x0 := floor (px bl)) in *. set (y0 := floor (py bl)) in *. set (u := even_up _) in *. set (v := even_up (_ - y0)) in *.
  assert (G : forall z, In z [x0; y0; u; v] -> - 2147483648 <= IZR z <= 2147483648).
  { intros z I. assert (J : int_ok z = true) by (apply F; cbn [In] in *; tauto). apply int_ok_spec in J. split; apply IZR_le; lia. }
  pose proof (G x0 ltac:(cbn; tauto)). pose proof (G y0 ltac:(cbn; tauto)). pose proof (G u ltac:(cbn; tauto)). pose proof (G v ltac:(cbn; tauto)).
  assert (M : IZR (Z.max u v) = IZR u \/ IZR (Z.max u v) = IZR v) by (destruct (Z.max_spec u v) as [(_ & ->)|(_ & ->)]; auto).
  destruct M as [-> | ->]; lra.
Qed.

Lemma built_range P o : built P o -> o_closed o = true ->
  - 10^10 <= px (o_bl o) <= 10^10 /\ - 10^10 <= px (o_tr o) <= 10^10 /\ - 10^10 <= py (o_bl o) <= 10^10 /\ - 10^10 <= py (o_tr o) <= 10^10.
Proof.
  intros H. induction H as [|o a r o' H IH Ma A]; [discriminate|]. destruct a as [s|]; [|injection A as _ <-; exact IH].
  destruct (fits_dec o s) as [F|F]; [|rewrite (add_refused o s F) in A; injection A as _ <-; exact IH].
  destruct (closes_dec o s) as [K|K]; [|rewrite (add_open o s F K) in A; injection A as _ <-; discriminate].
  rewrite (add_closing o s F K) in A. destruct (adjust_box (box_after o s)) as [(bl & tr)|] eqn:J; [|discriminate]. injection A as _ <-. intros _. cbn [o_bl o_tr].
  destruct (box_after o s) as (b0 & b1). exact (adjust_range _ _ _ _ J).
Qed.

Lemma apart_wide p q : - 10^11 <= px p <= 10^11 -> - 10^11 <= py p <= 10^11 -> - 10^11 <= px q <= 10^11 -> - 10^11 <= py q <= 10^11 -> in_plane p -> in_plane q ->
  1 <= Rabs (px p - px q) -> ~ one_point p q e8.
Proof.
  intros A B C D Zp Zq H. assert (G : 1 <= gap2 p q).
  { rewrite gap2_flat by assumption. unfold dist2. pose proof (pow2_ge_0 (py p - py q)). rewrite <- (pow2_abs (px p - px q)). nra. }
  assert (U : forall v, - 10^11 <= px v <= 10^11 -> - 10^11 <= py v <= 10^11 -> in_plane v -> gap2 v origin <= 2 * 10^22).
  { intros v V W Z. unfold gap2, origin. cbn [px py pz]. rewrite Z, !Rminus_0_r. rewrite <- (pow2_abs (px v)), <- (pow2_abs (py v)).
    assert (Rabs (px v) <= 10^11) by (apply Rabs_le; lra). assert (Rabs (py v) <= 10^11) by (apply Rabs_le; lra). pose proof (Rabs_pos (px v)). pose proof (Rabs_pos (py v)). nra. }
  intros [K|[(_ & _ & K)|(_ & K)]]; [unfold e8 in K; lra|lra|].
  assert (M : Rmax (gap2 p origin) (gap2 q origin) <= 2 * 10^22) by (apply Rmax_lub; apply U; assumption). lra.
Qed.

Lemma circle_outline o c : built made o -> o_closed o = true -> o_segs o = [c] ->
  full_circle c /\ px (o_bl o) <= px (s_cen c) - s_rad c /\ px (s_cen c) + s_rad c <= px (o_tr o) /\ py (o_bl o) <= py (s_cen c) - s_rad c /\ py (s_cen c) + s_rad c <= py (o_tr o).
Proof.
  intros B C S. pose proof (built_shape made o B) as Sh. unfold shape in Sh. rewrite C, S in Sh.
  destruct Sh as [(x & E & T)|(_ & _ & N)]; [|cbn in N; lia]. injection E as <-.
  destruct (built_boxed o B) as (M & Bx). specialize (M c). rewrite S in M. specialize (M (or_introl eq_refl)). specialize (Bx c). rewrite S in Bx. specialize (Bx (or_introl eq_refl)).
  assert (F : full_circle c). { destruct M as [(X & _)|[((X & _) & _)|X]]; [congruence|congruence|exact X]. }
  split; [exact F|]. unfold within, seg_box, get_box in Bx. rewrite T in Bx. cbn [fst snd px py] in Bx. tauto.
Qed.

(** The answer for a circular outline. *)
Lemma circle_inside o c p x e : built made o -> o_closed o = true -> o_segs o = [c] -> in_plane p -> line_end o p x ->
  let clearance := 4 * ((x - px p) ^ 2 * Rabs (s_rad c ^ 2 - (py p - py (s_cen c)) ^ 2)) in
  (e6 <= clearance -> dist p (s_cen c) < s_rad c -> is_inside o p e = (true, e)) /\
  (e6 <= clearance -> s_rad c < dist p (s_cen c) -> is_inside o p e = (false, e)) /\
  (clearance < e6 -> ~ one_point p (mkPt x (py p) 0) e8 -> is_inside o p e = (leb (Rmin (px p) x) (px (s_cen c)) && leb (px (s_cen c)) (Rmax (px p) x), e)).
Proof.
  intros B C S Z X cl. destruct (circle_outline o c B C S) as (F & L1 & L2 & L3 & L4). destruct (built_range made o B C) as (R1 & R2 & R3 & R4).
  split; [|split].
  - intros M D. apply (proj1 (circle_clear o c p x C S F Z L1 L2 X e M) D).
    assert (R : 0 < s_rad c) by now destruct F as (_ & ? & _).
    pose proof (dist_pos p (s_cen c)) as Dp. pose proof (dist_sq p (s_cen c)) as D2. unfold dist2 in D2.
    assert (PX : px (s_cen c) - s_rad c < px p < px (s_cen c) + s_rad c) by (pose proof (pow2_ge_0 (py p - py (s_cen c))); split; nra).
    assert (PY : py (s_cen c) - s_rad c < py p < py (s_cen c) + s_rad c) by (pose proof (pow2_ge_0 (px p - px (s_cen c))); split; nra).
    apply apart_wide; cbn [px py]; try assumption; try reflexivity; try lra.
    + destruct X as [(_ & ->)|(_ & ->)]; lra.
    + destruct X as [(_ & ->)|(_ & ->)]; [rewrite Rabs_right by lra|rewrite Rabs_left1 by lra]; lra.
  - intros M. exact (proj2 (circle_clear o c p x C S F Z L1 L2 X e M)).
  - exact (circle_level o c p x C S F Z X e).
Qed.

(** An outline which is not closed. *)
Lemma open_inside o p e : o_closed o = false -> is_inside o p e = (false, true).
Proof. intros C. unfold is_inside. now rewrite C. Qed.

(** ** A point far outside which is taken for inside *)

Lemma floor_unique x z : IZR z <= x < IZR z + 1 -> floor x = z.
Proof.
  intros H. pose proof (floor_spec x) as F.
  assert (A : (floor x < z + 1)%Z) by (apply lt_IZR; rewrite plus_IZR; lra). assert (B : (z < floor x + 1)%Z) by (apply lt_IZR; rewrite plus_IZR; lra). lia.
Qed.
Lemma ceil_unique x z : IZR z - 1 < x <= IZR z -> ceil x = z.
Proof.
  intros H. pose proof (ceil_spec x) as F.
  assert (A : (ceil x < z + 1)%Z) by (apply lt_IZR; rewrite plus_IZR; lra). assert (B : (z < ceil x + 1)%Z) by (apply lt_IZR; rewrite plus_IZR; lra). lia.
Qed.

Definition dot : seg := mkSeg SCircle (1 / 100) 0 (2 * PI) false (at2 (1 / 100) (1 / 100)) (at2 (1 / 50) (1 / 100)) (at2 (1 / 50) (1 / 100)).
Definition dot_outline : outline := mkOut [dot] true 0 true (at2 0 0) (at2 2 2).

Lemma dot_full : full_circle dot.
Proof. split; [reflexivity|]. cbn. repeat split; lra. Qed.

Lemma dot_drawn : draw [dot] = Some (yes, dot_outline).
Proof.
  unfold draw. cbn [fold_left]. unfold add_segment. change (s_ty dot) with SCircle. cbn [segty_eqb out_init o_closed o_segs o_bl o_tr o_wind].
  unfold get_box. change (s_ty dot) with SCircle. cbn [snd]. change (s_cen dot) with (at2 (1 / 100) (1 / 100)). change (s_rad dot) with (1 / 100). cbn [px py at2].
  unfold adjust_box. cbn [px py pz].
  rewrite !(floor_unique (1 / 100 - 1 / 100) 0) by lra. rewrite !(ceil_unique (1 / 100 + 1 / 100) 1) by lra.
  cbv [forallb]. change (int_ok 0) with true. change (int_ok 1) with true. change (1 - 0)%Z with 1%Z. change (even_up 1) with 2%Z. change (int_ok 1) with true. change (int_ok 2) with true. cbn [andb].
  change (Z.max 2 2) with 2%Z. unfold dot_outline, yes. rewrite Rplus_0_l. reflexivity.
Qed.

Lemma dot_point : is_inside dot_outline (at2 (9 / 10) (1 / 50)) false = (true, false) /\ dist (at2 (9 / 10) (1 / 50)) (s_cen dot) > 80 * s_rad dot.
Proof.
  assert (B : built made dot_outline). { apply (draw_built made [dot] yes); [|exact dot_drawn]. intros s [<-|[]]. right. right. exact dot_full. }
  assert (X : line_end dot_outline (at2 (9 / 10) (1 / 50)) (-5)). { left. cbn. split; lra. }
  destruct (circle_inside dot_outline dot _ _ false B eq_refl eq_refl (eq_refl : in_plane (at2 (9 / 10) (1 / 50))) X) as (_ & _ & K).
  split.
  - rewrite K.
    + cbn [px at2 s_cen dot]. rewrite Rmin_right, Rmax_left by lra. rewrite !leb_t by lra. reflexivity.
    + change (s_rad dot) with (1 / 100). cbn [py px at2 s_cen dot]. replace ((1 / 100) ^ 2 - (1 / 50 - 1 / 100) ^ 2) with 0 by lra. rewrite Rabs_R0. unfold e6. lra.
    + apply apart_wide; cbn [px py at2]; try lra; try reflexivity. abs_lra.
  - change (s_rad dot) with (1 / 100). apply Rlt_gt. apply Rsqr_incrst_0; [|lra|apply dist_pos]. unfold Rsqr. rewrite dist_sq. unfold dist2. cbn [px py at2 s_cen dot]. lra.
Qed.
