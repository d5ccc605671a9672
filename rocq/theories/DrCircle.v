(** The geometry of DrModel for the circles and outlines of SegModel, CutModel, OutModel and
    OvlModel.  A drill is a circle with its address. *)
From Coq Require Import Reals Lra List Bool Arith Lia Sorting.Permutation.
From Verif Require Import SegModel SegSpec SegFacts SegProps CutModel CutSpec CutCircle CutCases CutArc OutModel OutSpec OutOps OvlModel DrModel DrSpec DrFacts DrBoard.
Import ListNotations.
Open Scope R_scope.

Definition drill : Type := nat * seg.

(** idf2igs.cpp [convertDrills] L486-515: what [SetParams] answers is not looked at. *)
Definition drill_circle (x y dia : R) : seg :=
  let e := mkPt (x + 1 / 2 * dia) y 0 in snd (set_arc (mkPt x y 0) e e false).

(** The answer of [GetIntersections]; a flag is raised unless it is MCAD_IFLAG_NONE. *)
Definition circle_meet (a b : drill) : answer :=
  match intersections (snd a) (snd b) with
  | (true, _) => Hit
  | (false, (_, INone)) => Clear
  | _ => Flagged
  end.

(** [bundleDrills] L691-707, L717. *)
Definition gap (f a : drill) : R := dist (s_cen (snd a)) (s_cen (snd f)) - (s_rad (snd f) + s_rad (snd a)).
Definition circle_closer (f a b : drill) : bool := ltb (gap f a) (gap f b).

(** [AddSegment] to a new outline; [None], which is undefined behaviour, is taken for an
    empty outline here (see C105). *)
Definition circle_begin (d : drill) : outline :=
  match add_segment out_init (Some (snd d)) with Some (_, o) => o | None => out_init end.

Definition told {X} (r : ans) (x : X) : reply X :=
  match r with (true, _) => Took x | (false, false) => Left x | (false, true) => Bad x end.

Definition circle_add (o : outline) (d : drill) : reply outline :=
  let (r, o') := op_circle o (Some (snd d)) false in told r o'.

(** ** Two drills *)

Definition apart (a b : drill) : Prop := s_rad (snd a) + s_rad (snd b) < dist (s_cen (snd a)) (s_cen (snd b)).
Definition crossing (a b : drill) : Prop :=
  let d := dist (s_cen (snd a)) (s_cen (snd b)) in
  ~ alike (snd a) (snd b) /\ ~ touching (snd a) (snd b) /\ Rabs (s_rad (snd a) - s_rad (snd b)) < d /\ d <= s_rad (snd a) + s_rad (snd b).

Lemma alike_dec s o : alike s o \/ ~ alike s o.
Proof.
  unfold alike. destruct (point_matches (s_cen s) (s_cen o) e3) eqn:M; [apply point_matches_spec in M|apply point_matches_not in M; right; tauto].
  destruct (Rlt_dec (Rabs (s_rad s - s_rad o)) e3); [left; tauto|right; tauto].
Qed.

Lemma meet_answers a b : full_circle (snd a) -> full_circle (snd b) ->
  (circle_meet a b = Clear <-> apart a b) /\ (circle_meet a b = Hit <-> crossing a b).
Proof.
  intros Fa Fb. destruct (circles_spec (snd a) (snd b) Fa Fb) as (A & B & C & D & E & F). cbv zeta in *. unfold circle_meet, apart, crossing. cbv zeta.
  set (d := dist (s_cen (snd a)) (s_cen (snd b))) in *. set (r := s_rad (snd a)) in *. set (r2 := s_rad (snd b)) in *.
  destruct (Rlt_le_dec (r + r2) d) as [G|G]; [destruct (A G) as (K & _); rewrite K; cbn; split; split; intros; try discriminate; try reflexivity; lra|].
  destruct (alike_dec (snd a) (snd b)) as [Da|Da]; [rewrite (B G Da); cbn; split; split; intros; try discriminate; [lra|tauto]|].
  destruct (Rlt_dec (Rabs (dist (s_cen (snd a)) (s_cen (snd b)) - s_rad (snd a) - s_rad (snd b))) e3) as [T|T]; fold (touching (snd a) (snd b)) in T.
  { rewrite (C G Da T); cbn; split; split; intros; try discriminate; [lra|tauto]. }
  destruct (Rle_lt_dec d (r - r2)) as [K1|K1].
  { destruct (D G Da T K1) as (X & _); rewrite X; cbn; split; split; try discriminate; [lra|]. intros (_ & _ & H & _). apply Rabs_def2 in H. lra. }
  destruct (Rle_lt_dec d (r2 - r)) as [K2|K2].
  { destruct (E G Da T K2) as (X & _); rewrite X; cbn; split; split; try discriminate; [lra|]. intros (_ & _ & H & _). apply Rabs_def2 in H. lra. }
  destruct (F G Da T K1 K2) as (p & q & X & _). rewrite X. cbn. split; split; intros; try discriminate; [lra| |reflexivity].
  split; [exact Da|]. split; [exact T|]. split; [apply Rabs_def1; lra|exact G].
Qed.

Lemma alike_sym s o : alike s o -> alike o s.
Proof. intros (A & B). split; [now apply one_point_sym|]. now rewrite Rabs_minus_sym. Qed.

Lemma crossing_sym a b : crossing a b -> crossing b a.
Proof.
  unfold crossing. cbv zeta. intros (A & B & C & D). rewrite dist_sym. split; [intros H; apply A; now apply alike_sym|]. split.
  - intros H; apply B. unfold touching in *. rewrite dist_sym. replace (dist (s_cen (snd b)) (s_cen (snd a)) - s_rad (snd a) - s_rad (snd b)) with (dist (s_cen (snd b)) (s_cen (snd a)) - s_rad (snd b) - s_rad (snd a)) by ring. exact H.
  - rewrite Rabs_minus_sym. lra.
Qed.

(** A list of drills: circles at different addresses. *)
Definition drill_list (l : list drill) : Prop := NoDup (map fst l) /\ forall d, In d l -> full_circle (snd d).

Lemma addresses (l : list drill) : NoDup (map fst l) -> NoDup l /\ told_apart l.
Proof.
  intros N. split; [eapply NoDup_map_inv; exact N|]. intros a b Ia Ib. destruct (Nat.eq_dec (fst a) (fst b)) as [E|E]; [left|right; congruence].
  induction l as [|x l IH]; [destruct Ia|]. cbn in N. inversion N as [|? ? N1 N2]; subst.
  destruct Ia as [<-|Ia], Ib as [<-|Ib]; [reflexivity| | |auto]; exfalso; apply N1; [rewrite E|rewrite <- E]; now apply in_map.
Qed.

Lemma drills_symmetric l : drill_list l -> symmetric circle_meet l.
Proof.
  intros (_ & F) a b Ia Ib H. unfold overlap in *. apply (meet_answers b a (F b Ib) (F a Ia)). apply crossing_sym. now apply (meet_answers a b (F a Ia) (F b Ib)).
Qed.

(** Drills which are apart or cross, pair by pair, are sorted out. *)
Definition clean (l : list drill) : Prop := forall a b, pair_of l a b -> apart a b \/ crossing a b.

Lemma pair_in {T} (l : list T) a b : pair_of l a b -> In a l /\ In b l.
Proof. intros (k & P). split; (eapply Permutation_in; [symmetry; exact P|]); [left; reflexivity|right; left; reflexivity]. Qed.

Lemma flags_are l : drill_list l -> (flag_free circle_meet l <-> clean l).
Proof.
  intros (_ & F). split; intros H a b P; destruct (pair_in _ _ _ P) as (Ia & Ib); destruct (meet_answers a b (F a Ia) (F b Ib)) as (A & B); specialize (H a b P).
  - destruct (circle_meet a b); [right; apply B; reflexivity|left; apply A; reflexivity|contradiction].
  - intros E. destruct H as [H|H]; [apply A in H|apply B in H]; congruence.
Qed.

Theorem drills_sorted l : drill_list l -> clean l -> exists holes bundles,
  DrModel.merge circle_meet l = DrModel.Merged holes bundles false /\ sorted_out circle_meet l holes bundles.
Proof.
  intros Dl Cl. destruct (addresses l (proj1 Dl)) as (N & T). apply merge_sorts; [exact N|exact T|now apply drills_symmetric|now apply flags_are].
Qed.

(** The order of adding. *)
Lemma closer_weak f a b c : circle_closer f b a = false -> circle_closer f c b = false -> circle_closer f c a = false.
Proof. unfold circle_closer, ltb. intros A B. repeat match goal with |- context [Rlt_dec ?x ?y] => destruct (Rlt_dec x y) | H : context [Rlt_dec ?x ?y] |- _ => destruct (Rlt_dec x y) end; try discriminate; try reflexivity; lra. Qed.
Lemma closer_asym f a b : circle_closer f a b = true -> circle_closer f b a = false.
Proof. unfold circle_closer, ltb. intros A. repeat match goal with |- context [Rlt_dec ?x ?y] => destruct (Rlt_dec x y) | H : context [Rlt_dec ?x ?y] |- _ => destruct (Rlt_dec x y) end; try discriminate; try reflexivity; lra. Qed.

(** ** Making the circle *)

Lemma drill_made x y dia : 3 / 10 <= dia <= 10 ^ 6 -> Rabs x <= 10 ^ 6 -> Rabs y <= 10 ^ 6 ->
  full_circle (drill_circle x y dia) /\ s_cen (drill_circle x y dia) = at2 x y /\ s_rad (drill_circle x y dia) = dia / 2.
Proof.
  intros D X Y. apply Rcomplements.Rabs_le_between in X. apply Rcomplements.Rabs_le_between in Y. unfold drill_circle. set (c := mkPt x y 0). set (e := mkPt (x + 1 / 2 * dia) y 0). cbv zeta.
  assert (Dc : dist e c = dia / 2) by (apply (dist_at2 (x + 1 / 2 * dia) y x y (dia / 2)); [lra|field]).
  assert (G : gap2 c e = (dia / 2) ^ 2) by (rewrite gap2_flat by reflexivity; unfold dist2, c, e; cbn [px py]; field).
  assert (Nf : ~ far c /\ ~ far e) by (unfold far, gap2, c, e, origin; cbn [px py pz]; split; nra).
  assert (N : ~ one_point c e e8).
  { intros [O|[(_ & _ & O)|([O|O] & _)]]; [| |tauto|tauto]; rewrite G in O; unfold e8 in *; nra. }
  destruct (set_arc_spec c e e false) as (I & _ & J & _).
  assert (Ok : fst (set_arc c e e false) = true).
  { apply I. repeat split; try assumption. left. apply one_point_refl. }
  rewrite (J Ok (one_point_refl e e8)). unfold circle_of, full_circle. rewrite Dc. cbn [s_ty s_rad s_sang s_eang s_cw s_cen]. repeat split; lra.
Qed.
