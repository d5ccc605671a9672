(** The box of an outline. *)

From Coq Require Import Reals List Bool ZArith Lra Lia.
From Verif Require Import SegModel SegSpec SegTrig SegFacts SegBox SegSplit SegProps CutModel CutSpec OutModel OutSpec OutFacts.
Import ListNotations.
Open Scope R_scope.

Lemma floor_spec x : IZR (floor x) <= x < IZR (floor x) + 1.
Proof. unfold floor. destruct (base_Int_part x). lra. Qed.
Lemma ceil_spec x : x <= IZR (ceil x) < x + 1.
Proof. unfold ceil. rewrite opp_IZR. destruct (base_Int_part (- x)). lra. Qed.

Lemma even_up_spec d : Z.even (even_up d) = true /\ (d <= even_up d <= d + 1)%Z.
Proof.
  unfold even_up. destruct (Z.odd d) eqn:O.
  - split; [|lia]. rewrite Z.even_add, <- Z.negb_odd, O. reflexivity.
  - split; [|lia]. now rewrite <- Z.negb_odd, O.
Qed.

Lemma int_ok_spec z : int_ok z = true <-> (- 2147483648 <= z < 2147483648)%Z.
Proof. unfold int_ok. rewrite andb_true_iff, Z.leb_le, Z.ltb_lt. change (2 ^ 31)%Z with 2147483648%Z. lia. Qed.

(** What [adjustBoundingBox] makes of a box. *)
Lemma adjust_spec bl tr bl' tr' : adjust_box (bl, tr) = Some (bl', tr') ->
  px bl' <= px bl < px bl' + 1 /\ py bl' <= py bl < py bl' + 1 /\ px tr <= px tr' /\ py tr <= py tr' /\
  exists i j k, px bl' = IZR i /\ py bl' = IZR j /\ px tr' = IZR (i + 2 * k) /\ py tr' = IZR (j + 2 * k) /\
    (IZR (2 * k) < px tr - px bl + 3 \/ IZR (2 * k) < py tr - py bl + 3).
Proof.
  unfold adjust_box. destruct (forallb int_ok _); [|discriminate]. intros E. injection E as <- <-. cbn [px py].
  pose proof (floor_spec (px bl)) as A. pose proof (floor_spec (py bl)) as B. pose proof (ceil_spec (px tr)) as C. pose proof (ceil_spec (py tr)) as D.
  set (x0 := floor (px bl)) in *. set (y0 := floor (py bl)) in *. set (x1 := ceil (px tr)) in *. set (y1 := ceil (py tr)) in *.
  destruct (even_up_spec (x1 - x0)) as (E1 & E2). destruct (even_up_spec (y1 - y0)) as (F1 & F2).
  set (u := even_up (x1 - x0)) in *. set (v := even_up (y1 - y0)) in *. set (m := Z.max u v).
  assert (M : (u <= m /\ v <= m)%Z) by (unfold m; lia). assert (M2 : m = u \/ m = v) by (unfold m; lia).
  assert (Em : Z.even m = true) by (destruct M2 as [-> | ->]; assumption).
  apply Z.even_spec in Em. destruct Em as (k & Em).
  assert (G : IZR (x1 - x0) <= IZR m) by (apply IZR_le; lia). assert (H : IZR (y1 - y0) <= IZR m) by (apply IZR_le; lia).
  rewrite minus_IZR in G, H. repeat split; try lra.
  exists x0, y0, k. rewrite !plus_IZR, <- Em. repeat split; try reflexivity.
  destruct M2 as [M2|M2]; [left|right].
  - assert (IZR m <= IZR (x1 - x0 + 1)) by (apply IZR_le; lia). rewrite plus_IZR, minus_IZR in H0. lra.
  - assert (IZR m <= IZR (y1 - y0 + 1)) by (apply IZR_le; lia). rewrite plus_IZR, minus_IZR in H0. lra.
Qed.

(** It is defined for coordinates up to a thousand million. *)
Lemma adjust_total bl tr : px bl <= px tr + 1 -> py bl <= py tr + 1 -> - 10^9 <= px bl -> - 10^9 <= py bl -> px tr <= 10^9 -> py tr <= 10^9 ->
  exists bl' tr', adjust_box (bl, tr) = Some (bl', tr').
Proof.
  intros A B C D E F. unfold adjust_box.
  pose proof (floor_spec (px bl)) as A1. pose proof (floor_spec (py bl)) as B1. pose proof (ceil_spec (px tr)) as C1. pose proof (ceil_spec (py tr)) as D1.
  set (x0 := floor (px bl)) in *. set (y0 := floor (py bl)) in *. set (x1 := ceil (px tr)) in *. set (y1 := ceil (py tr)) in *.
  destruct (even_up_spec (x1 - x0)) as (_ & E2). destruct (even_up_spec (y1 - y0)) as (_ & F2).
  assert (T : 10^9 = IZR 1000000000) by lra.
  assert (X0 : (-1000000003 < x0 < 1000000003)%Z) by (split; apply lt_IZR; lra).
  assert (Y0 : (-1000000003 < y0 < 1000000003)%Z) by (split; apply lt_IZR; lra).
  assert (X1 : (-1000000003 < x1 < 1000000003)%Z) by (split; apply lt_IZR; lra).
  assert (Y1 : (-1000000003 < y1 < 1000000003)%Z) by (split; apply lt_IZR; lra).
  replace (forallb int_ok _) with true; [eexists; eexists; reflexivity|].
  symmetry. apply forallb_forall. intros z I. apply int_ok_spec. cbn [In] in I. decompose [or] I; subst; try lia; contradiction.
Qed.

(** A corner beyond the range of [int] is undefined behaviour. *)
Lemma adjust_undefined bl tr : px bl < - 2^31 -> adjust_box (bl, tr) = None.
Proof.
  intros A. unfold adjust_box. pose proof (floor_spec (px bl)) as B. set (x0 := floor (px bl)) in *.
  assert (X : (x0 < -2147483648)%Z) by (apply lt_IZR; lra).
  cbn [forallb]. replace (int_ok x0) with false; [reflexivity|]. symmetry. apply not_true_iff_false. rewrite int_ok_spec. lia.
Qed.

(** ** Boxes of segments *)

Lemma box_xy s p0 p1 : s_ty s <> SNone -> px (fst (snd (get_box s p0 p1))) = px (fst (seg_box s)) /\ py (fst (snd (get_box s p0 p1))) = py (fst (seg_box s)) /\
  px (snd (snd (get_box s p0 p1))) = px (snd (seg_box s)) /\ py (snd (snd (get_box s p0 p1))) = py (snd (seg_box s)).
Proof.
  intros N. unfold seg_box, get_box. destruct (s_ty s); [congruence| | |cbn; tauto].
  - destruct (ltb _ e8); [destruct (leb _ _); cbn; tauto|]. cbn. tauto.
  - cbn [snd]. set (x := if ltb (px (s_start s)) _ then _ else _). set (y := if ltb (py (s_start s)) _ then _ else _).
    assert (G : forall l a b c d, px a = px c -> py a = py c -> px b = px d -> py b = py d ->
      px (fst (fold_left widen l (a, b))) = px (fst (fold_left widen l (c, d))) /\ py (fst (fold_left widen l (a, b))) = py (fst (fold_left widen l (c, d))) /\
      px (snd (fold_left widen l (a, b))) = px (snd (fold_left widen l (c, d))) /\ py (snd (fold_left widen l (a, b))) = py (snd (fold_left widen l (c, d)))).
    { induction l as [|m l IH]; intros a b c d A B C D; cbn [fold_left fst snd]; [tauto|]. unfold widen at 2 4 6 8 10 12 14 16. cbn [px py]. apply IH; cbn [px py]; rewrite ?A, ?B, ?C, ?D; reflexivity. }
    apply G; reflexivity.
Qed.

Lemma reverse_seg_box s : made s -> seg_box (reverse s) = seg_box s.
Proof.
  intros [L|[(A & _)|C]]; unfold seg_box.
  - rewrite reverse_box; [reflexivity|now left].
  - rewrite reverse_box; [reflexivity|]. right. now destruct A.
  - rewrite reverse_round; [reflexivity|]. left. now destruct C.
Qed.

Lemma made_reverse s : made s -> made (reverse s).
Proof.
  intros [L|[(A & B)|C]].
  - left. destruct L as (T & W & Z1 & Z2 & N). unfold reverse. rewrite T. unfold line_in_order. cbn [s_ty s_start s_end s_cw]. repeat split; try assumption. intros H. apply N. now apply one_point_sym.
  - right. left. split; [now apply reverse_arc_order|]. unfold reverse. destruct A as (T & _). rewrite T. exact B.
  - right. right. rewrite reverse_round; [exact C|]. left. now destruct C.
Qed.

(** The points covered by a segment are in its box, up to 1e-8. *)
Lemma seg_in_box s p : made s -> covers s p -> in_box e8 (fst (seg_box s)) (snd (seg_box s)) p.
Proof.
  intros [L|[(A & _)|C]] H; unfold seg_box, in_box.
  - destruct (line_box_bounds s origin origin (proj1 L)) as (b & E & (d & D & _ & K) & _). rewrite E. cbn [snd]. specialize (K p H). lra.
  - destruct (arc_box_bounds e8 s origin origin A) as (b & E & K & _). rewrite E. cbn [snd]. specialize (K p H). lra.
  - destruct C as (T & R & _). destruct (circle_box_bounds s origin origin T R) as (b & E & K & _). rewrite E. cbn [snd]. specialize (K p H). pose proof e8_pos. lra.
Qed.

(** The box is not upside down. *)
Lemma seg_box_order s : made s -> px (fst (seg_box s)) <= px (snd (seg_box s)) + 2 * e8 /\ py (fst (seg_box s)) <= py (snd (seg_box s)) + 2 * e8.
Proof.
  intros M. assert (E : exists p, covers s p).
  { destruct M as [L|[(A & _)|C]].
    - destruct (line_box_bounds s origin origin (proj1 L)) as (b & _ & _ & (p & H & _) & _). now exists p.
    - destruct (arc_box_bounds e8 s origin origin A) as (b & _ & _ & (p & H & _) & _). now exists p.
    - destruct C as (T & R & _). destruct (circle_box_bounds s origin origin T R) as (b & _ & _ & (p & H & _) & _). now exists p. }
  destruct E as (p & H). pose proof (seg_in_box s p M H) as B. unfold in_box in B. lra.
Qed.

(** ** The box of the outline *)

Definition within (c b : pt * pt) : Prop :=
  px (fst b) <= px (fst c) /\ py (fst b) <= py (fst c) /\ px (snd c) <= px (snd b) /\ py (snd c) <= py (snd b).

Lemma join_within b c : within b (join_box b c) /\ within c (join_box b c).
Proof.
  destruct b as (bl & tr), c as (b0 & b1). unfold within, join_box. cbn [fst snd px py].
  destruct (ltb (px b0) (px bl)) eqn:A; [apply ltb_true in A|apply ltb_false in A];
  (destruct (ltb (py b0) (py bl)) eqn:B; [apply ltb_true in B|apply ltb_false in B]);
  (destruct (ltb (px tr) (px b1)) eqn:C; [apply ltb_true in C|apply ltb_false in C]);
  (destruct (ltb (py tr) (py b1)) eqn:D; [apply ltb_true in D|apply ltb_false in D]); lra.
Qed.

Lemma within_trans a b c : within a b -> within b c -> within a c.
Proof. unfold within. lra. Qed.

Lemma adjust_within b bl tr : adjust_box b = Some (bl, tr) -> within b (bl, tr).
Proof. destruct b as (b0 & b1). intros A. destruct (adjust_spec _ _ _ _ A) as (X & Y & Z & W & _). unfold within. cbn [fst snd]. lra. Qed.

Definition boxed (o : outline) : Prop := forall s, In s (o_segs o) -> within (seg_box s) (o_bl o, o_tr o).

Lemma box_after_old o s : boxed o -> forall t, In t (o_segs o) -> within (seg_box t) (box_after o s).
Proof.
  intros B t I. unfold box_after. destruct (o_segs o) as [|f l] eqn:S; [destruct I|]. rewrite <- S in I.
  apply (within_trans _ _ _ (B t I)). apply join_within.
Qed.
Lemma box_after_new o s : s_ty s <> SNone -> within (seg_box s) (box_after o s).
Proof.
  intros N. unfold box_after. destruct (o_segs o) as [|f l]; [|apply join_within].
  destruct (box_xy s (o_bl o) (o_tr o) N) as (A & B & C & D). unfold within. rewrite A, B, C, D. lra.
Qed.

Lemma made_type s : made s -> s_ty s <> SNone.
Proof. intros [L|[(A & _)|C]]; [destruct L as (T & _)|destruct A as (T & _)|destruct C as (T & _)]; congruence. Qed.

Lemma boxed_add o a r o' : (forall s, In s (o_segs o) -> made s) -> boxed o -> (forall s, a = Some s -> made s) -> add_segment o a = Some (r, o') ->
  (forall s, In s (o_segs o') -> made s) /\ boxed o'.
Proof.
  intros M B Ma A. destruct a as [s|]; [|injection A as _ <-; now split]. specialize (Ma s eq_refl).
  assert (All : forall t, In t (o_segs o ++ [s]) -> made t /\ within (seg_box t) (box_after o s)).
  { intros t I. apply in_app_or in I. destruct I as [I|[<-|[]]].
    - split; [now apply M|]. now apply box_after_old.
    - split; [exact Ma|]. apply box_after_new. now apply made_type. }
  destruct (fits_dec o s) as [F|F]; [|rewrite (add_refused o s F) in A; injection A as _ <-; now split].
  destruct (closes_dec o s) as [K|K].
  - rewrite (add_closing o s F K) in A. destruct (adjust_box (box_after o s)) as [(bl & tr)|] eqn:J; [|discriminate]. injection A as _ <-.
    assert (All' : forall t, In t (segs_after o s) -> made t /\ within (seg_box t) (box_after o s)).
    { intros t I. assert (Q : exists u, In u (o_segs o ++ [s]) /\ (t = u \/ t = reverse u)).
      { unfold segs_after in I. destruct (segty_eqb (s_ty s) SCircle).
        - destruct I as [<-|[]]. exists s. split; [|now left]. apply in_or_app. right. now left.
        - destruct (ltb _ _); [|exists t; split; [exact I|now left]]. 
          assert (I' : In t (map reverse (o_segs o ++ [s]))) by (destruct (Nat.eqb _ 2); [exact I|now apply in_rev]).
          apply in_map_iff in I'. destruct I' as (u & <- & I'). exists u. split; [exact I'|now right]. }
      destruct Q as (u & Iu & [-> | ->]); [now apply All|]. destruct (All u Iu) as (Mu & Wu). split; [now apply made_reverse|]. now rewrite reverse_seg_box. }
    split; [intros t I; now apply All'|]. intros t I. cbn [o_bl o_tr]. apply (within_trans _ _ _ (proj2 (All' t I))). now apply adjust_within.
  - rewrite (add_open o s F K) in A. injection A as _ <-. split; [intros t I; now apply All|]. intros t I. cbn [o_bl o_tr]. rewrite <- surjective_pairing. now apply All.
Qed.

Lemma built_boxed o : built made o -> (forall s, In s (o_segs o) -> made s) /\ boxed o.
Proof.
  induction 1 as [|o a r o' _ (M & B) Ma A]; [split; intros s []|]. exact (boxed_add o a r o' M B Ma A).
Qed.

(** Every point of the outline is in the box, up to 1e-8. *)
Lemma built_in_box o s p : built made o -> In s (o_segs o) -> covers s p -> in_box e8 (o_bl o) (o_tr o) p.
Proof.
  intros H I C. destruct (built_boxed o H) as (M & B). pose proof (seg_in_box s p (M s I) C) as X. specialize (B s I). unfold within, in_box in *. cbn [fst snd] in *. lra.
Qed.

(** Once closed, the corners are whole numbers and the box is a square. *)

Lemma built_square P o : built P o -> o_closed o = true -> o_bbok o = true /\ square_box o.
Proof.
  intros H. induction H as [|o a r o' H IH Ma A]; [discriminate|]. destruct a as [s|]; [|injection A as _ <-; exact IH].
  destruct (fits_dec o s) as [F|F]; [|rewrite (add_refused o s F) in A; injection A as _ <-; exact IH].
  destruct (closes_dec o s) as [K|K].
  - rewrite (add_closing o s F K) in A. destruct (adjust_box (box_after o s)) as [(bl & tr)|] eqn:J; [|discriminate]. injection A as _ <-. intros _. split; [reflexivity|].
    destruct (box_after o s) as (b0 & b1). destruct (adjust_spec _ _ _ _ J) as (_ & _ & _ & _ & i & j & k & A1 & A2 & A3 & A4 & _). exists i, j, k. cbn [o_bl o_tr]. now repeat split.
  - rewrite (add_open o s F K) in A. injection A as _ <-. discriminate.
Qed.

(** ** The box is not larger than needed *)

(* each side of the box [b] is a side of the box of one of the segments *)
Definition attained (l : list seg) (b : pt * pt) : Prop :=
  (exists s, In s l /\ px (fst b) = px (fst (seg_box s))) /\ (exists s, In s l /\ py (fst b) = py (fst (seg_box s))) /\
  (exists s, In s l /\ px (snd b) = px (snd (seg_box s))) /\ (exists s, In s l /\ py (snd b) = py (snd (seg_box s))).

Lemma attained_join l b s : attained l b -> attained (l ++ [s]) (join_box b (seg_box s)).
Proof.
  intros ((s1 & I1 & E1) & (s2 & I2 & E2) & (s3 & I3 & E3) & (s4 & I4 & E4)). destruct b as (bl & tr). cbn [fst snd] in *.
  unfold attained, join_box. destruct (seg_box s) as (b0 & b1) eqn:S. cbn [fst snd px py].
  assert (L : forall t, In t l -> In t (l ++ [s])) by (intros t I; apply in_or_app; now left).
  assert (Q : In s (l ++ [s])) by (apply in_or_app; right; now left).
  repeat split; (destruct (ltb _ _); [exists s; split; [exact Q|rewrite S; reflexivity]|]).
  - exists s1. split; [now apply L|exact E1].
  - exists s2. split; [now apply L|exact E2].
  - exists s3. split; [now apply L|exact E3].
  - exists s4. split; [now apply L|exact E4].
Qed.

Lemma attained_after o s : s_ty s <> SNone -> (o_segs o <> [] -> attained (o_segs o) (o_bl o, o_tr o)) -> attained (o_segs o ++ [s]) (box_after o s).
Proof.
  intros N H. unfold box_after. destruct (o_segs o) as [|f l] eqn:S.
  - destruct (box_xy s (o_bl o) (o_tr o) N) as (A & B & C & D). unfold attained. rewrite A, B, C, D. cbn [app]. repeat split; exists s; split; try reflexivity; now left.
  - apply attained_join. apply H. discriminate.
Qed.

Lemma built_attained o : built made o -> o_closed o = false -> o_segs o <> [] -> attained (o_segs o) (o_bl o, o_tr o).
Proof.
  induction 1 as [|o a r o' H IH Ma A]; [intros _ X; now contradiction X|].
  destruct a as [s|]; [|injection A as _ <-; exact IH].
  destruct (fits_dec o s) as [F|F]; [|rewrite (add_refused o s F) in A; injection A as _ <-; exact IH].
  destruct (closes_dec o s) as [K|K].
  - rewrite (add_closing o s F K) in A. destruct (adjust_box (box_after o s)) as [(bl & tr)|] eqn:J; [|discriminate]. injection A as _ <-. discriminate.
  - rewrite (add_open o s F K) in A. injection A as _ <-. intros _ _. cbn [o_segs o_bl o_tr]. rewrite <- surjective_pairing.
    apply attained_after; [apply made_type; now apply Ma|]. intros X. apply IH; [now destruct F|exact X].
Qed.

Lemma after_attained o s : built made o -> made s -> fits o s -> attained (o_segs o ++ [s]) (box_after o s).
Proof.
  intros H M F. apply attained_after; [now apply made_type|]. intros X. apply built_attained; [exact H|now destruct F|exact X].
Qed.

(** Each side of the box of a segment is touched, up to 1e-8. *)
Lemma seg_box_touched s : made s ->
  (exists p, covers s p /\ px p - e8 <= px (fst (seg_box s))) /\ (exists p, covers s p /\ py p - e8 <= py (fst (seg_box s))) /\
  (exists p, covers s p /\ px (snd (seg_box s)) <= px p + e8) /\ (exists p, covers s p /\ py (snd (seg_box s)) <= py p + e8).
Proof.
  pose proof e8_pos as E8. intros [L|[(A & _)|C]]; unfold seg_box.
  - destruct (line_box_bounds s origin origin (proj1 L)) as (b & E & _ & (p1 & H1 & K1) & (p2 & H2 & K2) & (p3 & H3 & K3) & (p4 & H4 & K4)). rewrite E. cbn [snd].
    repeat split; [exists p1|exists p3|exists p2|exists p4]; split; try assumption; lra.
  - destruct (arc_box_bounds e8 s origin origin A) as (b & E & _ & (p1 & H1 & K1) & (p2 & H2 & K2) & (p3 & H3 & K3) & (p4 & H4 & K4)). rewrite E. cbn [snd].
    repeat split; [exists p1|exists p3|exists p2|exists p4]; split; try assumption; lra.
  - destruct C as (T & R & _). destruct (circle_box_bounds s origin origin T R) as (b & E & _ & (p1 & H1 & K1) & (p2 & H2 & K2) & (p3 & H3 & K3) & (p4 & H4 & K4)). rewrite E. cbn [snd].
    repeat split; [exists p1|exists p3|exists p2|exists p4]; split; try assumption; lra.
Qed.

(** Adding a segment is defined when everything lies within a thousand million of the
    origin. *)

Lemma add_defined o s : built made o -> made s -> (forall t p, In t (o_segs o ++ [s]) -> covers t p -> near_home p) ->
  exists r o', add_segment o (Some s) = Some (r, o').
Proof.
  intros H M N. destruct (fits_dec o s) as [F|F]; [|rewrite (add_refused o s F); eexists; eexists; reflexivity].
  destruct (closes_dec o s) as [K|K]; [|rewrite (add_open o s F K); eexists; eexists; reflexivity].
  rewrite (add_closing o s F K). destruct (built_boxed o H) as (Mo & B).
  assert (Ms : forall t, In t (o_segs o ++ [s]) -> made t) by (intros t I; apply in_app_or in I; destruct I as [I|[<-|[]]]; [now apply Mo|exact M]).
  destruct (after_attained o s H M F) as ((s1 & I1 & E1) & (s2 & I2 & E2) & (s3 & I3 & E3) & (s4 & I4 & E4)).
  pose proof (box_after_new o s (made_type s M)) as W. pose proof (seg_box_order s M) as O. pose proof e8_pos. pose proof e8_small.
  destruct (seg_box_touched s1 (Ms s1 I1)) as ((p1 & C1 & D1) & _ & _ & _). destruct (seg_box_touched s2 (Ms s2 I2)) as (_ & (p2 & C2 & D2) & _ & _).
  destruct (seg_box_touched s3 (Ms s3 I3)) as (_ & _ & (p3 & C3 & D3) & _). destruct (seg_box_touched s4 (Ms s4 I4)) as (_ & _ & _ & (p4 & C4 & D4)).
  pose proof (seg_in_box s1 p1 (Ms s1 I1) C1) as B1. pose proof (seg_in_box s2 p2 (Ms s2 I2) C2) as B2.
  pose proof (N s1 p1 I1 C1) as N1. pose proof (N s2 p2 I2 C2) as N2. pose proof (N s3 p3 I3 C3) as N3. pose proof (N s4 p4 I4 C4) as N4. 
  destruct (box_after o s) as (bl & tr). unfold within, near_home, in_box in *. cbn [fst snd] in *.
  destruct (adjust_total bl tr) as (bl' & tr' & J); try lra.
  rewrite J. eexists; eexists; reflexivity.
Qed.

(** Closing an outline of which a point is too far left has no defined effect. *)
Lemma add_undefined o s t p : built made o -> made s -> fits o s -> closes o s -> In t (o_segs o ++ [s]) -> covers t p -> px p < - 2^31 - 1 ->
  add_segment o (Some s) = None.
Proof.
  intros H M F K I C L. rewrite (add_closing o s F K). destruct (built_boxed o H) as (Mo & B).
  assert (W : within (seg_box t) (box_after o s)).
  { apply in_app_or in I. destruct I as [I|[<-|[]]]; [now apply box_after_old|now apply box_after_new, made_type]. }
  assert (Mt : made t) by (apply in_app_or in I; destruct I as [I|[<-|[]]]; [now apply Mo|exact M]).
  pose proof (seg_in_box t p Mt C) as (Q & _). pose proof e8_small. destruct W as (W & _). destruct (box_after o s) as (bl & tr). cbn [fst snd] in *.
  rewrite adjust_undefined; [reflexivity|lra].
Qed.

(** The box of a closed outline goes less than one unit (and 1e-8) too far left and down,
    and the side is less than three units (and 2e-8) above what is needed. *)

Lemma segs_after_in o s t : fits o s -> In t (o_segs o ++ [s]) -> exists u, In u (segs_after o s) /\ forall p, covers u p <-> covers t p.
Proof.
  intros F I. unfold segs_after. destruct (segty_eqb (s_ty s) SCircle) eqn:T.
  - apply ty_eqb_spec in T. destruct F as (_ & [(_ & E)|(P & _)]); [|destruct P; congruence]. rewrite E in I. exists t. split; [exact I|reflexivity].
  - destruct (ltb _ _); [|exists t; split; [exact I|reflexivity]]. exists (reverse t). split.
    + assert (J : In (reverse t) (map reverse (o_segs o ++ [s]))) by (now apply in_map). destruct (Nat.eqb _ 2); [exact J|now apply in_rev in J].
    + intros p. destruct (s_ty t) eqn:Tt.
      * rewrite reverse_round; [reflexivity|now right].
      * apply (reverse_facts t); now left.
      * apply (reverse_facts t); now right.
      * rewrite reverse_round; [reflexivity|now left].
Qed.

Lemma built_tight o : built made o -> o_closed o = true ->
  (exists s p, In s (o_segs o) /\ covers s p /\ px p < px (o_bl o) + 1 + e8) /\ (exists s p, In s (o_segs o) /\ covers s p /\ py p < py (o_bl o) + 1 + e8) /\
  (exists w, spans (o_segs o) w /\ px (o_tr o) - px (o_bl o) < w + 3 + 2 * e8).
Proof.
  induction 1 as [|o a r o' H IH Ma A]; [discriminate|].
  destruct a as [s|]; [|injection A as _ <-; exact IH].
  destruct (fits_dec o s) as [F|F]; [|rewrite (add_refused o s F) in A; injection A as _ <-; exact IH].
  destruct (closes_dec o s) as [K|K]; [|rewrite (add_open o s F K) in A; injection A as _ <-; discriminate].
  intros _. specialize (Ma s eq_refl). rewrite (add_closing o s F K) in A. destruct (adjust_box (box_after o s)) as [(bl & tr)|] eqn:J; [|discriminate]. injection A as _ <-. cbn [o_bl o_tr o_segs].
  destruct (built_boxed o H) as (Mo & _).
  assert (Ms : forall t, In t (o_segs o ++ [s]) -> made t) by (intros t I; apply in_app_or in I; destruct I as [I|[<-|[]]]; [now apply Mo|exact Ma]).
  destruct (after_attained o s H Ma F) as ((s1 & I1 & E1) & (s2 & I2 & E2) & (s3 & I3 & E3) & (s4 & I4 & E4)).
  destruct (seg_box_touched s1 (Ms s1 I1)) as ((p1 & C1 & D1) & _ & _ & _). destruct (seg_box_touched s2 (Ms s2 I2)) as (_ & (p2 & C2 & D2) & _ & _).
  destruct (seg_box_touched s3 (Ms s3 I3)) as (_ & _ & (p3 & C3 & D3) & _). destruct (seg_box_touched s4 (Ms s4 I4)) as (_ & _ & _ & (p4 & C4 & D4)).
  destruct (segs_after_in o s s1 F I1) as (t1 & L1 & G1). destruct (segs_after_in o s s2 F I2) as (t2 & L2 & G2).
  destruct (segs_after_in o s s3 F I3) as (t3 & L3 & G3). destruct (segs_after_in o s s4 F I4) as (t4 & L4 & G4).
  apply G1 in C1. apply G2 in C2. apply G3 in C3. apply G4 in C4.
  destruct (box_after o s) as (b0 & b1). cbn [fst snd] in *. destruct (adjust_spec _ _ _ _ J) as (X & Y & _ & _ & i & j & k & P1 & P2 & P3 & P4 & S).
  split; [exists t1, p1; repeat split; try assumption; lra|]. split; [exists t2, p2; repeat split; try assumption; lra|].
  rewrite P3, P1, plus_IZR. destruct S as [S|S].
  - exists (px p3 - px p1). split; [exists t1, t3, p1, p3; repeat split; try assumption; now left|]. lra.
  - exists (py p4 - py p2). split; [exists t2, t4, p2, p4; repeat split; try assumption; now right|]. lra.
Qed.
