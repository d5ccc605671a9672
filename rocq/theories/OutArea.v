(** The area enclosed by an outline and the direction in which it is travelled. *)

From Coquelicot Require Import Coquelicot.
From Coq Require Import Reals List Bool ZArith Lra Lia.
From Verif Require Import SegModel SegSpec SegTrig SegFacts SegSplit SegProps CutModel CutSpec CutCases OutModel OutSpec OutFacts.
Import ListNotations.
Open Scope R_scope.

(** ** The integral along lines and arcs *)

Lemma sweep_line s : s_ty s = SLine -> forall v, sweeps s v <->
  v = - ((px (s_end s) - px (s_start s)) * (py (s_end s) + py (s_start s))) / 2.
Proof.
  intros T. set (x0 := px (s_start s)). set (y0 := py (s_start s)). set (dx := px (s_end s) - px (s_start s)). set (dy := py (s_end s) - py (s_start s)).
  assert (Dx : forall t, Derive (fun t => x0 + t * dx) t = dx).
  { intros t. apply is_derive_unique. auto_derive; [exact I|ring]. }
  assert (Int : is_RInt (fun t => - ((y0 + t * dy) * dx)) 0 1 (- (dx * (py (s_end s) + y0)) / 2)).
  { replace (- (dx * (py (s_end s) + y0)) / 2) with (minus ((fun t => - dx * (y0 * t + dy * t * t / 2)) 1) ((fun t => - dx * (y0 * t + dy * t * t / 2)) 0)).
    - apply (is_RInt_derive (fun t => - dx * (y0 * t + dy * t * t / 2))).
      + intros t _. auto_derive; [exact I|field].
      + intros t _. apply (ex_derive_continuous (fun t => - ((y0 + t * dy) * dx))). auto_derive. exact I.
    - unfold minus, plus, opp. cbn. unfold dy, y0. field. }
  intros v. split.
  - intros (x & y & C & J).
    assert (X : forall t, x t = x0 + t * dx) by (intros t; specialize (C t); unfold course in C; rewrite T in C; now destruct C).
    assert (Y : forall t, y t = y0 + t * dy) by (intros t; specialize (C t); unfold course in C; rewrite T in C; now destruct C).
    assert (J' : is_RInt (fun t => - ((y0 + t * dy) * dx)) 0 1 v).
    { apply (is_RInt_ext (fun t => - (y t * Derive x t))); [|exact J]. intros t _. rewrite Y, (Derive_ext x (fun t => x0 + t * dx) t X), Dx. reflexivity. }
    rewrite <- (is_RInt_unique _ _ _ _ J'). exact (is_RInt_unique _ _ _ _ Int).
  - intros ->. exists (fun t => x0 + t * dx), (fun t => y0 + t * dy). split.
    + intros t. unfold course. rewrite T. split; reflexivity.
    + apply (is_RInt_ext (fun t => - ((y0 + t * dy) * dx))); [|exact Int]. intros t _. now rewrite Dx.
Qed.

Definition arc_sweep (s : seg) : R :=
  let F (w : R) := - py (s_cen s) * s_rad s * cos w + s_rad s * s_rad s * (w - sin w * cos w) / 2 in
  F (s_eang s) - F (s_sang s).

Lemma sweep_arc s : s_ty s = SArc -> forall v, sweeps s v <-> v = arc_sweep s.
Proof.
  intros T. set (cx := px (s_cen s)). set (cy := py (s_cen s)). set (r := s_rad s). set (a := s_sang s). set (d := s_eang s - s_sang s).
  set (X := fun t => cx + r * cos (a + t * d)). set (Y := fun t => cy + r * sin (a + t * d)).
  assert (Dx : forall t, Derive X t = - (r * d) * sin (a + t * d)).
  { intros t. apply is_derive_unique. unfold X. auto_derive; [exact I|ring]. }
  set (G := fun t => - cy * r * cos (a + t * d) + r * r * ((a + t * d) - sin (a + t * d) * cos (a + t * d)) / 2).
  assert (Int : is_RInt (fun t => - (Y t * Derive X t)) 0 1 (arc_sweep s)).
  { replace (arc_sweep s) with (minus (G 1) (G 0)).
    - apply (is_RInt_derive G).
      + intros t _. rewrite Dx. unfold G, Y. auto_derive; [exact I|].
        pose proof (sin2_cos2 (a + t * d)) as S. unfold Rsqr in S. set (w := sin (a + t * d)) in *. set (u := cos (a + t * d)) in *. apply Rminus_diag_uniq. match goal with |- ?L = 0 => replace L with (r * r * d / 2 * (1 - (w * w + u * u))) by field end. rewrite S. ring.
      + intros t _. apply (continuous_ext (fun t => - (Y t * (- (r * d) * sin (a + t * d))))); [intros z; now rewrite Dx|].
        apply (ex_derive_continuous (fun t => - (Y t * (- (r * d) * sin (a + t * d))))). unfold Y. auto_derive. exact I.
    - unfold minus, plus, opp, arc_sweep, G. cbn. replace (a + 1 * d) with (s_eang s) by (unfold a, d; ring). replace (a + 0 * d) with (s_sang s) by (unfold a, d; ring). unfold cy, r. ring. }
  intros v. split.
  - intros (x & y & C & J).
    assert (X' : forall t, x t = X t) by (intros t; specialize (C t); unfold course in C; rewrite T in C; now destruct C).
    assert (Y' : forall t, y t = Y t) by (intros t; specialize (C t); unfold course in C; rewrite T in C; now destruct C).
    assert (J' : is_RInt (fun t => - (Y t * Derive X t)) 0 1 v).
    { apply (is_RInt_ext (fun t => - (y t * Derive x t))); [|exact J]. intros t _. now rewrite Y', (Derive_ext x X t X'). }
    rewrite <- (is_RInt_unique _ _ _ _ J'). exact (is_RInt_unique _ _ _ _ Int).
  - intros ->. exists X, Y. split; [|exact Int]. intros t. unfold course. rewrite T. split; reflexivity.
Qed.

Definition sweep (s : seg) : R :=
  if segty_eqb (s_ty s) SArc then arc_sweep s else - ((px (s_end s) - px (s_start s)) * (py (s_end s) + py (s_start s))) / 2.
Lemma sweep_spec s : piece s -> forall v, sweeps s v <-> v = sweep s.
Proof. unfold sweep. intros [T|T] v; rewrite T; [now apply sweep_line|now apply sweep_arc]. Qed.

Definition total (f : seg -> R) (l : list seg) : R := fold_right Rplus 0 (map f l).
Lemma total_app f l m : total f (l ++ m) = total f l + total f m.
Proof. induction l as [|s l IH]; unfold total in *; cbn; [ring|]. rewrite IH. ring. Qed.
Lemma total_snoc f l s : total f (l ++ [s]) = total f l + f s.
Proof. rewrite total_app. unfold total. cbn. ring. Qed.
Lemma total_rev f l : total f (rev l) = total f l.
Proof. induction l as [|s l IH]; [reflexivity|]. cbn [rev]. rewrite total_app, IH. unfold total. cbn. ring. Qed.
Lemma total_map f g k l : (forall s, In s l -> f (g s) = k * f s) -> total f (map g l) = k * total f l.
Proof.
  induction l as [|s l IH]; intros H; [unfold total; cbn; ring|]. unfold total in *. cbn. rewrite H by now left. rewrite IH; [ring|]. intros t I. apply H. now right.
Qed.

Lemma encloses_spec l : Forall piece l -> forall v, encloses l v <-> v = total sweep l.
Proof.
  induction 1 as [|s l P F IH]; intros v; cbn [encloses]; [reflexivity|].
  change (total sweep (s :: l)) with (sweep s + total sweep l). split.
  - intros (a & b & A & B & ->). apply (sweep_spec s P) in A. apply IH in B. now subst.
  - intros ->. exists (sweep s), (total sweep l). split; [now apply sweep_spec|]. split; [now apply IH|reflexivity].
Qed.

(** Travelled backwards, the integral changes its sign. *)
Lemma sweep_reverse s : piece s -> sweep (reverse s) = - sweep s.
Proof. intros [T|T]; unfold sweep, reverse; rewrite T; cbn [segty_eqb s_ty s_start s_end]; [field|]. unfold arc_sweep. cbn [s_cen s_rad s_eang s_sang]. ring. Qed.

Lemma wind_reverse s : piece s -> wind_of (reverse s) = - wind_of s.
Proof.
  intros [T|T]; unfold wind_of.
  - unfold reverse. rewrite T. cbn [s_ty s_start s_end]. ring.
  - destruct (midpoint_facts s origin (or_intror T)) as (m & M & _ & m' & M' & (E1 & E2)).
    rewrite M, M'. unfold reverse. rewrite T. cbn [s_ty s_start s_end snd]. rewrite E1, E2. ring.
Qed.

(** ** The winding of a closed outline *)

Lemma built_wind P o : built P o -> o_closed o = false -> o_wind o = total wind_of (o_segs o).
Proof.
  induction 1 as [|o a r o' H IH Ma A]; [reflexivity|]. destruct a as [s|]; [|injection A as _ <-; exact IH].
  destruct (fits_dec o s) as [F|F]; [|rewrite (add_refused o s F) in A; injection A as _ <-; exact IH].
  destruct (closes_dec o s) as [K|K].
  - rewrite (add_closing o s F K) in A. destruct (adjust_box _) as [(bl & tr)|]; [|discriminate]. injection A as _ <-. discriminate.
  - rewrite (add_open o s F K) in A. injection A as _ <-. intros _. cbn [o_wind o_segs]. rewrite total_app, IH by now destruct F. unfold total at 3. cbn. ring.
Qed.

Lemma turned_total f l l' : (forall s, In s l -> f (reverse s) = -1 * f s) -> turned l l' -> total f l' = - total f l.
Proof.
  intros H [->|(s & t & -> & ->)].
  - rewrite total_rev, (total_map f reverse (-1) l H). ring.
  - change [reverse s; reverse t] with (map reverse [s; t]). rewrite (total_map f reverse (-1) _ H). ring.
Qed.

Lemma built_winding P o : built P o -> o_closed o = true -> Forall piece (o_segs o) -> total wind_of (o_segs o) <= 0.
Proof.
  induction 1 as [|o a r o' H IH Ma A]; [discriminate|]. destruct a as [s|]; [|injection A as _ <-; exact IH].
  destruct (fits_dec o s) as [F|F]; [|rewrite (add_refused o s F) in A; injection A as _ <-; exact IH].
  destruct (closes_dec o s) as [K|K]; [|rewrite (add_open o s F K) in A; injection A as _ <-; discriminate].
  intros _ Fa. pose proof (built_shape P o H) as S. unfold shape in S. destruct F as (C & F). rewrite C in S. destruct S as (S & _). pose proof (built_wind P o H C) as W.
  rewrite (add_closing o s (conj C F) K) in A. destruct (adjust_box _) as [(bl & tr)|]; [|discriminate]. injection A as _ <-. cbn [o_segs] in *.
  unfold segs_after in *. destruct (segty_eqb (s_ty s) SCircle) eqn:T.
  - apply ty_eqb_spec in T. inversion Fa as [|? ? [X|X] _]; congruence.
  - destruct F as [(T' & _)|(Ps & _)]; [rewrite T' in T; discriminate|].
    assert (All : Forall piece (o_segs o ++ [s])) by (apply Forall_app; split; [exact S|now constructor]).
    assert (R : forall t, In t (o_segs o ++ [s]) -> wind_of (reverse t) = -1 * wind_of t).
    { intros t I. rewrite Forall_forall in All. rewrite wind_reverse by now apply All. ring. }
    assert (Z : total wind_of (o_segs o ++ [s]) = o_wind o + wind_of s) by (rewrite total_app, W; unfold total at 2; cbn; ring).
    destruct (ltb 0 (o_wind o + wind_of s)) eqn:L.
    + apply ltb_true in L.
      assert (Q : total wind_of (if Nat.eqb (length (o_segs o ++ [s])) 2 then map reverse (o_segs o ++ [s]) else rev (map reverse (o_segs o ++ [s]))) = - total wind_of (o_segs o ++ [s])).
      { destruct (Nat.eqb _ 2); rewrite ?total_rev, (total_map wind_of reverse (-1) _ R); ring. }
      rewrite Q, Z. lra.
    + apply ltb_false in L. rewrite Z. exact L.
Qed.

(** An outline of lines is counterclockwise. *)
Lemma lines_counterclockwise P o : built P o -> o_closed o = true -> Forall (fun s => s_ty s = SLine) (o_segs o) ->
  exists v, 0 <= v /\ forall v', encloses (o_segs o) v' <-> v' = v.
Proof.
  intros H C L. assert (F : Forall piece (o_segs o)) by (revert L; apply Forall_impl; now left).
  exists (total sweep (o_segs o)). split; [|intros v'; now apply encloses_spec].
  pose proof (built_winding P o H C F) as W.
  assert (Q : total sweep (o_segs o) = - / 2 * total wind_of (o_segs o)).
  { clear W F C H. induction L as [|s l T _ IH]; unfold total in *; cbn; [ring|]. rewrite IH. unfold sweep, wind_of. rewrite T. cbn [segty_eqb]. field. }
  rewrite Q. lra.
Qed.

(** The segments with each arc replaced by the two lines through its middle. *)

Lemma straight_counterclockwise P o l : built P o -> o_closed o = true -> straightened (o_segs o) l ->
  exists v, 0 <= v /\ forall v', encloses l v' <-> v' = v.
Proof.
  intros H C S.
  assert (G : Forall piece (o_segs o) /\ Forall piece l /\ total sweep l = - / 2 * total wind_of (o_segs o)).
  { clear H C. induction S as [|s k l T S (A & B & D)|s m k l T M S (A & B & D)].
    - split; [constructor|]. split; [constructor|]. unfold total. cbn. ring.
    - split; [constructor; [now left|exact A]|]. split; [constructor; [now left|exact B]|]. change (total sweep (s :: l)) with (sweep s + total sweep l). change (total wind_of (s :: k)) with (wind_of s + total wind_of k).
      rewrite D. unfold sweep, wind_of. rewrite T. cbn [segty_eqb]. field.
    - split; [constructor; [now right|exact A]|]. split; [constructor; [now left|constructor; [now left|exact B]]|].
      change (total sweep (line_of (s_start s) m :: line_of m (s_end s) :: l)) with (sweep (line_of (s_start s) m) + (sweep (line_of m (s_end s)) + total sweep l)).
      change (total wind_of (s :: k)) with (wind_of s + total wind_of k). rewrite D.
      destruct (midpoint_facts s origin (or_intror T)) as (m' & M' & K & _).
      assert (E : px m' = px m /\ py m' = py m). { unfold course in K, M. rewrite T in K, M. destruct K as (K1 & K2), M as (M1 & M2). rewrite K1, K2, M1, M2. now split. }
      unfold wind_of. rewrite T, M'. cbn [snd]. destruct E as (-> & ->). unfold sweep, line_of. cbn [segty_eqb s_ty s_start s_end]. field. }
  destruct G as (A & B & D). exists (total sweep l). split; [|intros v'; now apply encloses_spec].
  rewrite D. pose proof (built_winding P o H C A). lra.
Qed.
