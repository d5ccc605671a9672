(** Lists of segments: splitting at two points, finding where to start, passing along and
    putting together. *)

From Coq Require Import Reals List Bool Arith Lra Lia.
From Verif Require Import SegModel SegSpec SegTrig SegFacts SegSplit SegProps CutModel CutSpec CutCases OutModel OutSpec OutFacts OutCut OvlModel OvlSpec.
Import ListNotations.
Open Scope R_scope.

(** ** Courses *)

Lemma chained_app a l m b : chained a (l ++ m) b <-> exists c, chained a l c /\ chained c m b.
Proof.
  revert a. induction l as [|s l IH]; intros a; cbn [app chained].
  - split; [intros H; exists a; now split|intros (c & -> & H); exact H].
  - rewrite IH. split; [intros (A & c & B & C); exists c; now repeat split|intros (c & (A & B) & C); split; [exact A|exists c; now split]].
Qed.

Lemma chained_end a s l b : chained a (l ++ [s]) b -> b = s_end s.
Proof. intros H. apply chained_app in H. destruct H as (c & _ & (_ & E)). now cbn in E. Qed.

Lemma chained_start a a' s l b : chained a (s :: l) b -> chained a' (s :: l) b -> a = a'.
Proof. intros (A & _) (B & _). congruence. Qed.

Lemma ring_chained l : exact_ring l <-> l <> [] /\ exists z, chained z l z.
Proof.
  destruct l as [|s l]; [split; [intros []|intros (N & _); now destruct N]|]. cbn [exact_ring]. split.
  - intros H. split; [discriminate|]. now exists (s_start s).
  - intros (_ & z & H). pose proof H as (A & _). now rewrite A.
Qed.

Lemma turned_sym l l' : turned_round l l' -> turned_round l' l.
Proof. intros (x & y & -> & ->). now exists y, x. Qed.
Lemma turned_refl l : turned_round l l.
Proof. exists l, []. now rewrite app_nil_r. Qed.

Lemma ring_turns l l' : turned_round l l' -> exact_ring l -> exact_ring l'.
Proof.
  intros (x & y & -> & ->) H. apply ring_chained in H. destruct H as (N & z & H). apply chained_app in H. destruct H as (c & A & B).
  apply ring_chained. split; [intros E; apply N; apply app_eq_nil in E; destruct E as (-> & ->); reflexivity|].
  exists c. apply chained_app. now exists z.
Qed.

Lemma turned_in l l' s : turned_round l l' -> In s l <-> In s l'.
Proof. intros (x & y & -> & ->). rewrite !in_app_iff. tauto. Qed.
Lemma turned_all (P : seg -> Prop) l l' : turned_round l l' -> Forall P l -> Forall P l'.
Proof. intros T F. rewrite Forall_forall in F |- *. intros s I. apply F. now apply (turned_in l l'). Qed.

Lemma chained_back a l b : Forall piece l -> chained a l b -> chained b (rev (map reverse l)) a.
Proof.
  revert a. induction l as [|s l IH]; intros a F H; [cbn in H |- *; congruence|]. inversion F as [|? ? P F']; subst. destruct H as (E & H).
  cbn [map rev]. apply chained_app. exists (s_end s). split; [now apply IH|]. destruct (reverse_ends s P) as (A & B & _). cbn [chained]. rewrite A, B. now split.
Qed.

(** ** Splitting *)

Lemma split_two s p q ps s' n : piece s -> flat s -> in_plane p -> in_plane q -> ~ one_point p q e8 -> ~ tip s p -> ~ tip s q ->
  split s [p; q] = (true, (ps, (s', n))) ->
  exists u v x y, n = [x; y] /\ ((u = p /\ v = q) \/ (u = q /\ v = p)) /\ s_start s' = s_start s /\ s_end s' = u /\ s_start x = u /\ s_end x = v /\ s_start y = v /\ s_end y = s_end s /\
    Forall piece (s' :: n) /\ Forall flat (s' :: n).
Proof.
  intros P (Z0 & Z1) Zp Zq N Np Nq H.
  assert (K : forall v, ~ tip s v -> negb (point_matches v (s_start s) e8 || point_matches v (s_end s) e8) = true).
  { intros v Nv. apply keep_spec. intros A. now apply Nv. }
  unfold split in H. destruct P as [T|T]; rewrite T in H; cbn [length filter] in H; rewrite (K p Np), (K q Nq) in H; cbn [split_line split_arc] in H.
  - destruct (line_param s p) as [t|]; [|discriminate]. destruct (line_param s q) as [t'|]; [|discriminate]. cbn [fst snd] in H. injection H as _ <- <-.
    set (u := if ltb t t' then p else q). set (v := if ltb t t' then q else p).
    assert (Uv : (u = p /\ v = q) \/ (u = q /\ v = p)) by (unfold u, v; destruct (ltb t t'); [now left|now right]).
    assert (G1 : snd (set_line u v) = mkSeg SLine 0 0 0 false origin u v).
    { apply set_line_good; destruct Uv as [(-> & ->)|(-> & ->)]; try assumption. intros M. apply N. now apply one_point_sym. }
    assert (G2 : snd (set_line v (s_end s)) = mkSeg SLine 0 0 0 false origin v (s_end s)).
    { apply set_line_good; [destruct Uv as [(_ & ->)|(_ & ->)]; assumption|exact Z1|]. intros M. destruct Uv as [(_ & E)|(_ & E)]; rewrite E in M; [apply Nq|apply Np]; now right. }
    exists u, v, (snd (set_line u v)), (snd (set_line v (s_end s))). rewrite G1, G2. cbn. repeat split; try assumption; try reflexivity.
    + repeat (apply Forall_cons; [unfold piece; cbn; auto|]); apply Forall_nil.
    + assert (Zu : in_plane u /\ in_plane v) by (destruct Uv as [(-> & ->)|(-> & ->)]; now split). destruct Zu. repeat (apply Forall_cons; [split; assumption|]); apply Forall_nil.
  - destruct (arc_angle s p) as [t|]; [|discriminate]. destruct (arc_angle s q) as [t'|]; [|discriminate]. cbn [fst snd] in H. injection H as _ <- <-.
    set (sw := if s_cw s then ltb t t' else ltb t' t).
    assert (Uv : ((if sw then q else p) = p /\ (if sw then p else q) = q) \/ ((if sw then q else p) = q /\ (if sw then p else q) = p)) by (destruct sw; [now right|now left]).
    eexists _, _, _, _. split; [reflexivity|]. split; [exact Uv|]. unfold new_arc, with_arc_end. cbn. repeat split; try reflexivity.
    + repeat (apply Forall_cons; [unfold piece; cbn; auto|]); apply Forall_nil.
    + assert (Zu : in_plane (if sw then q else p) /\ in_plane (if sw then p else q)) by (destruct Uv as [(-> & ->)|(-> & ->)]; now split). destruct Zu. repeat (apply Forall_cons; [split; assumption|]); apply Forall_nil.
Qed.

Lemma split_ways s ps ok ps' s' n x : split s ps = (ok, (ps', (s', n))) -> In x (s' :: n) -> s_cw x = s_cw s \/ s_cw x = false.
Proof.
  assert (L : forall a b, s_cw (snd (set_line a b)) = false).
  { intros a b. unfold set_line. repeat match goal with |- context [if ?c then _ else _] => destruct c end; reflexivity. }
  assert (C : forall a b c d e f, s_cw (ccw_arc a b c d e f) = false) by reflexivity.
  unfold split. intros H I.
  destruct (s_ty s).
  - injection H as _ _ <- <-. destruct I as [<-|[]]; now left.
  - destruct (length ps) as [|[|[|k]]]; try (injection H as _ _ <- <-; destruct I as [<-|[]]; now left);
    (destruct (filter (fun p => negb (point_matches p (s_start s) e8 || point_matches p (s_end s) e8)) ps) as [|p [|q [|? ?]]]; cbn [split_line] in H;
     [injection H as _ _ <- <-; destruct I as [<-|[]]; now left| | |injection H as _ _ <- <-; destruct I as [<-|[]]; now left]);
    repeat match type of H with context [match line_param s ?v with _ => _ end] => destruct (line_param s v) end; cbn [fst snd] in H; injection H as _ _ <- <-;
    repeat (destruct I as [<-|I]); try (now left); try (right; apply L); try destruct I.
  - destruct (length ps) as [|[|[|k]]]; try (injection H as _ _ <- <-; destruct I as [<-|[]]; now left);
    (destruct (filter (fun p => negb (point_matches p (s_start s) e8 || point_matches p (s_end s) e8)) ps) as [|p [|q [|? ?]]]; cbn [split_arc] in H;
     [injection H as _ _ <- <-; destruct I as [<-|[]]; now left| | |injection H as _ _ <- <-; destruct I as [<-|[]]; now left]);
    repeat match type of H with context [match arc_angle s ?v with _ => _ end] => destruct (arc_angle s v) end; cbn [fst snd] in H; injection H as _ _ <- <-;
    repeat (destruct I as [<-|I]); try (now left); try destruct I.
  - destruct (length ps) as [|[|[|k]]]; try (injection H as _ _ <- <-; destruct I as [<-|[]]; now left);
    (destruct ps as [|p [|q [|? ?]]]; cbn [split_circle] in H; try (injection H as _ _ <- <-; destruct I as [<-|[]]; now left)).
    all: repeat match type of H with context [if ?c then (false, _) else _] => destruct c end; cbn [fst snd] in H; injection H as _ _ <- <-;
    repeat (destruct I as [<-|I]); try (now left); try (right; apply C); try destruct I.
Qed.

Definition good (l : list seg) : Prop := Forall piece l /\ Forall flat l /\ exact_ring l.

Lemma put_good x s y t n : good (x ++ s :: y) -> chained (s_start s) (t :: n) (s_end s) -> Forall piece (t :: n) -> Forall flat (t :: n) -> good (x ++ t :: n ++ y).
Proof.
  intros (Fp & Ff & R) C P F. rewrite Forall_app, Forall_cons_iff in Fp, Ff.
  change (x ++ t :: n ++ y) with (x ++ (t :: n) ++ y). repeat split; [rewrite !Forall_app; tauto|rewrite !Forall_app; tauto|].
  apply ring_chained in R. destruct R as (_ & z & R). apply chained_app in R. destruct R as (c & A & (B & D)).
  apply ring_chained. split; [intros E; apply app_eq_nil in E; destruct E; discriminate|]. exists z. apply chained_app. exists c. split; [exact A|].
  apply chained_app. exists (s_end s). split; [now rewrite <- B|exact D].
Qed.

Lemma split_at_good l i p l' : good l -> (i < length l)%nat -> in_plane p -> split_at l i p = Some l' ->
  exists ps t n, split (nth i l seg_init) [p] = (true, (ps, (t, [n]))) /\ l' = firstn i l ++ t :: n :: skipn (S i) l /\ good l' /\
    s_start t = s_start (nth i l seg_init) /\ s_end t = p /\ s_start n = p /\ s_end n = s_end (nth i l seg_init).
Proof.
  intros G L Zp H. unfold split_at in H. pose proof (nth_cut i l L) as E. set (s := nth i l seg_init) in *.
  assert (I : In s l) by (now apply nth_In). pose proof G as (Fp & Ff & _). rewrite Forall_forall in Fp, Ff.
  destruct (split s [p]) as (ok & ps & t & n) eqn:Sq. destruct ok; [|discriminate].
  destruct (split_one s p ps t n (Fp s I) (Ff s I) Zp Sq) as (m & -> & E1 & E2 & E3 & E4 & P1 & P2 & F1 & F2).
  assert (Hl : l' = firstn i l ++ t :: m :: skipn (S i) l) by (injection H as H; now symmetry).
  exists ps, t, m. split; [reflexivity|]. split; [exact Hl|]. split; [|now repeat split].
  rewrite Hl. change (firstn i l ++ t :: m :: skipn (S i) l) with (firstn i l ++ t :: [m] ++ skipn (S i) l). rewrite E in G. apply (put_good _ s); [exact G| | |].
  - cbn [chained]. now rewrite E1, E2, E3, E4.
  - repeat (apply Forall_cons; [assumption|]); apply Forall_nil.
  - repeat (apply Forall_cons; [assumption|]); apply Forall_nil.
Qed.

Lemma touches_spec p s : touches p s = true <-> tip s p.
Proof. unfold touches, tip. rewrite orb_true_iff, !point_matches_spec. tauto. Qed.
Lemma touches_not p s : touches p s = false <-> ~ tip s p.
Proof. rewrite <- touches_spec. destruct (touches p s); split; congruence. Qed.

(* one more split *)
Lemma split_once_good (P : pt -> Prop) l i p l' : good l -> (i < length l)%nat -> in_plane p -> P p -> split_once l i p = Some l' ->
  good l' /\ cut_up P l l' /\ (length l <= length l')%nat /\ (touches p (nth i l seg_init) = false -> length l' = S (length l)) /\
  (forall s, In s l' -> s_start s = p \/ exists s0, In s0 l /\ s_start s = s_start s0) /\
  (Forall (fun s => s_cw s = false) l -> Forall (fun s => s_cw s = false) l') /\
  (touches p (nth i l seg_init) = true -> l' = l) /\
  (touches p (nth i l seg_init) = false -> map s_start l' = firstn (S i) (map s_start l) ++ p :: skipn (S i) (map s_start l)).
Proof.
  intros G L Zp Pp H. unfold split_once in H. destruct (touches p (nth i l seg_init)) eqn:T.
  - injection H as <-. split; [exact G|]. split; [apply cut_none|]. split; [lia|]. split; [discriminate|]. split; [|split; [auto|split; [reflexivity|discriminate]]].
    intros s I. right. now exists s.
  - destruct (split_at_good l i p l' G L Zp H) as (ps & t & n & Sq & -> & G' & A & B & C & D). pose proof (nth_cut i l L) as E. set (s := nth i l seg_init) in *.
    assert (Is : In s l) by (now apply nth_In).
    assert (Sub : forall u, In u (firstn i l) \/ In u (skipn (S i) l) -> In u l) by (intros u K; rewrite E; apply in_or_app; destruct K; [now left|right; now right]).
    split; [exact G'|]. split; [|split; [|split; [|split; [|split; [|split; [discriminate|]]]]]].
    + change (firstn i l ++ t :: n :: skipn (S i) l) with (firstn i l ++ t :: [n] ++ skipn (S i) l). apply (cut_more P l _ s _ [p] ps); [rewrite <- E; apply cut_none|intros v [<-|[]]; exact Pp|exact Sq].
    + pose proof (f_equal (@length seg) E) as EL. rewrite app_length in EL |- *. cbn [length] in EL |- *. lia.
    + intros _. pose proof (f_equal (@length seg) E) as EL. rewrite app_length in EL |- *. cbn [length] in EL |- *. lia.
    + intros u K. apply in_app_or in K. destruct K as [K|[<-|[<-|K]]]; [right; exists u; split; [apply Sub; now left|reflexivity]|right; now exists s|left; exact C|right; exists u; split; [apply Sub; now right|reflexivity]].
    + intros F. rewrite Forall_forall in F |- *. intros u K. apply in_app_or in K.
      assert (W : forall x, In x [t; n] -> s_cw x = false) by (intros x Ix; destruct (split_ways s [p] true ps t [n] x Sq Ix) as [W|W]; [rewrite W; now apply F|exact W]).
      destruct K as [K|[<-|[<-|K]]]; [apply F, Sub; now left|apply W; now left|apply W; right; now left|apply F, Sub; now right].
    + intros _. rewrite map_app. cbn [map]. rewrite A, C, firstn_map, skipn_map, (firstn_last i l L), map_app, <- app_assoc. cbn [map app]. reflexivity.
Qed.

Definition apart_starts (l : list pt) : Prop :=
  forall i j, (i < length l)%nat -> (j < length l)%nat -> one_point (nth i l origin) (nth j l origin) e8 -> i = j.

Lemma apart_insert x y p : apart_starts (x ++ y) -> (forall v, In v (x ++ y) -> ~ one_point p v e8) -> apart_starts (x ++ p :: y).
Proof.
  intros A N i j Li Lj M. rewrite app_length in Li, Lj. cbn [length] in Li, Lj.
  assert (Get : forall k, (k < length x + S (length y))%nat -> k <> length x -> exists k', (k' < length (x ++ y))%nat /\ nth k (x ++ p :: y) origin = nth k' (x ++ y) origin /\ (k' = if Nat.ltb k (length x) then k else (k - 1)%nat)).
  { intros k Lk Nk. rewrite app_length. destruct (Nat.ltb k (length x)) eqn:B.
    - apply Nat.ltb_lt in B. exists k. split; [lia|]. split; [now rewrite !app_nth1|reflexivity].
    - apply Nat.ltb_ge in B. exists (k - 1)%nat. split; [lia|]. split; [|reflexivity]. rewrite !app_nth2 by lia. replace (k - length x)%nat with (S (k - 1 - length x)) by lia. reflexivity. }
  assert (At : nth (length x) (x ++ p :: y) origin = p) by (rewrite app_nth2, Nat.sub_diag by lia; reflexivity).
  destruct (Nat.eq_dec i (length x)) as [->|Ni]; destruct (Nat.eq_dec j (length x)) as [->|Nj]; [reflexivity| | |].
  - destruct (Get j Lj Nj) as (k & Lk & Ek & _). rewrite At, Ek in M. elim (N (nth k (x ++ y) origin)); [now apply nth_In|exact M].
  - destruct (Get i Li Ni) as (k & Lk & Ek & _). rewrite At, Ek in M. elim (N (nth k (x ++ y) origin)); [now apply nth_In|now apply one_point_sym].
  - destruct (Get i Li Ni) as (k & Lk & Ek & Dk). destruct (Get j Lj Nj) as (h & Lh & Eh & Dh). rewrite Ek, Eh in M. pose proof (A k h Lk Lh M) as E.
    destruct (Nat.ltb i (length x)) eqn:Bi; destruct (Nat.ltb j (length x)) eqn:Bj; rewrite ?Nat.ltb_lt, ?Nat.ltb_ge in *; lia.
Qed.

Lemma circle_split c p q ps t n : s_ty c = SCircle -> split c [p; q] = (true, (ps, (t, n))) -> in_plane p -> in_plane q ->
  exists x, n = [x] /\ s_start t = q /\ s_end t = p /\ s_start x = p /\ s_end x = q /\ Forall piece [t; x] /\ Forall flat [t; x].
Proof.
  intros T H Zp Zq. unfold split in H. rewrite T in H. cbn [length split_circle] in H.
  repeat match type of H with context [if ?c then (false, _) else _] => destruct c; [discriminate|] end. cbn [fst snd] in H. injection H as _ <- <-.
  eexists. split; [reflexivity|]. unfold ccw_arc. cbn. repeat split; try reflexivity.
  - repeat (apply Forall_cons; [now right|]); apply Forall_nil.
  - repeat (apply Forall_cons; [split; assumption|]); apply Forall_nil.
Qed.

Section Both.
Variables (l : list seg) (p q : pt) (i j : nat) (l' : list seg) (k : nat).
Hypothesis (G : good l \/ one_circle l) (Li : (i < length l)%nat) (Lj : (j < length l)%nat) (Zp : in_plane p) (Zq : in_plane q) (Npq : ~ one_point p q e8).
Hypothesis H : split_both l p i q j = (true, (l', k)).
Let P (v : pt) : Prop := v = p \/ v = q.
Let si := nth i l seg_init.
Let sj := nth j l seg_init.

(* what each way of splitting gives *)
Lemma both_cases :
  (exists c x t ps, l = [c] /\ s_ty c = SCircle /\ l' = [t; x] /\ k = 0%nat /\ split c [p; q] = (true, (ps, (t, [x]))) /\ s_start t = q /\ s_end t = p /\ s_start x = p /\ s_end x = q /\ Forall piece l' /\ Forall flat l') \/
  (exists u v ps t x y, good l /\ i = j /\ k = i /\ ~ tip si p /\ ~ tip si q /\ split si [p; q] = (true, (ps, (t, [x; y]))) /\ l' = firstn i l ++ t :: [x; y] ++ skipn (S i) l /\
     ((u = p /\ v = q) \/ (u = q /\ v = p)) /\ s_start t = s_start si /\ s_end t = u /\ s_start x = u /\ s_end x = v /\ s_start y = v /\ s_end y = s_end si /\ Forall piece [t; x; y] /\ Forall flat [t; x; y]) \/
  (exists l0 j', good l /\ split_once l i p = Some l0 /\ split_once l0 j' q = Some l' /\
     j' = (if negb (touches p si) && (i <? j)%nat then S j else j) /\ k = (if negb (touches q (nth j' l0 seg_init)) && (j' <? i)%nat then S i else i)).
Proof.
  unfold split_both in H. fold si sj in H.
  destruct G as [Gd|(c & El & Tc)].
  - assert (Pc : Forall piece l) by apply Gd. rewrite Forall_forall in Pc. assert (Is : In si l) by (now apply nth_In). assert (Ij : In sj l) by (now apply nth_In).
    rewrite (proj2 (piece_types si (Pc si Is))), (proj2 (piece_types sj (Pc sj Ij))) in H. cbn [negb andb] in H.
    destruct (negb (touches p si) && negb (touches q sj) && Nat.eqb i j) eqn:B.
    + right. left. apply andb_true_iff in B. destruct B as (B & E). apply andb_true_iff in B. destruct B as (Bp & Bq). apply Nat.eqb_eq in E. apply negb_true_iff in Bp, Bq. apply touches_not in Bp, Bq.
      assert (Es : sj = si) by (unfold si, sj; now rewrite E). rewrite Es in Bq.
      destruct (split si [p; q]) as (ok & ps & t & n) eqn:Sq. destruct ok; [|discriminate]. injection H as <- <-.
      assert (Fl : flat si) by (destruct Gd as (_ & Ff & _); rewrite Forall_forall in Ff; now apply Ff).
      destruct (split_two si p q ps t n (Pc si Is) Fl Zp Zq Npq Bp Bq Sq) as (u & v & x & y & -> & Uv & E1 & E2 & E3 & E4 & E5 & E6 & Fp & Ff).
      exists u, v, ps, t, x, y. split; [exact Gd|]. repeat split; assumption || reflexivity.
    + right. right. destruct (split_once l i p) as [l0|] eqn:S0; [|discriminate].
      set (j' := if negb (touches p si) && (i <? j)%nat then S j else j) in *. destruct (split_once l0 j' q) as [l1|] eqn:S1; [|discriminate].
      injection H as <- <-. exists l0, j'. split; [exact Gd|]. split; [reflexivity|]. split; [assumption|]. split; reflexivity.
  - left. assert (E0 : i = 0%nat /\ j = 0%nat) by (rewrite El in Li, Lj; cbn in Li, Lj; lia). destruct E0 as (Ei & Ej).
    assert (Es : si = c /\ sj = c) by (unfold si, sj; rewrite El, Ei, Ej; now split). destruct Es as (Es & Et). rewrite Es, Et, Tc, Ei, Ej in H. cbn [segty_eqb negb andb Nat.eqb] in H.
    destruct (split c [p; q]) as (ok & ps & t & n) eqn:Sq. destruct ok; [|discriminate]. injection H as <- <-.
    destruct (circle_split c p q ps t n Tc Sq Zp Zq) as (x & -> & A & B & C & D & Fp & Ff).
    exists c, x, t, ps. rewrite El. cbn [firstn skipn app]. repeat split; assumption || reflexivity.
Qed.

Lemma both_good : good l' /\ (k < length l')%nat /\ cut_up P l l' /\
  (forall s, In s l' -> P (s_start s) \/ exists s0, In s0 l /\ piece s0 /\ s_start s = s_start s0) /\
  (Forall (fun s => s_cw s = false) l -> Forall (fun s => s_cw s = false) l').
Proof.
  destruct both_cases as [(c & x & t & ps & El & Tc & El' & -> & Sq & A & B & C & D & Fp & Ff)|[(u & v & ps & t & x & y & Gd & Eij & -> & Np & Nq & Sq & El' & Uv & E1 & E2 & E3 & E4 & E5 & E6 & Fp & Ff)|(l0 & j' & Gd & S0 & S1 & Ej & Ek)]].
  - split; [|split; [rewrite El'; cbn; lia|split; [|split]]].
    + split; [exact Fp|]. split; [exact Ff|]. rewrite El'. cbn. now rewrite A, B, C, D.
    + rewrite El, El'. apply (cut_more P [c] [] c [] [p; q] ps t [x]); [apply cut_none|intros w [<-|[<-|[]]]; [now left|now right]|exact Sq].
    + intros s I. left. rewrite El' in I. destruct I as [<-|[<-|[]]]; [right; exact A|left; exact C].
    + intros F. rewrite El in F. pose proof (Forall_inv F) as W. rewrite El'. rewrite Forall_forall. intros s I. destruct (split_ways c [p; q] true ps t [x] s Sq I) as [E|E]; congruence.
  - pose proof (nth_cut i l Li) as E. fold si in E.
    assert (Is : In si l) by (now apply nth_In).
    assert (Sub : forall w, In w (firstn i l) \/ In w (skipn (S i) l) -> In w l) by (intros w K; rewrite E; apply in_or_app; destruct K; [now left|right; now right]).
    assert (Pc : forall w, In w l -> piece w) by (destruct Gd as (F & _); now apply Forall_forall).
    split; [|split; [|split; [|split]]].
    + rewrite El'. apply (put_good _ si); [rewrite <- E; exact Gd| |exact Fp|exact Ff]. cbn [chained]. now rewrite E1, E2, E3, E4, E5, E6.
    + rewrite El', !app_length. cbn [length]. rewrite firstn_length. lia.
    + rewrite El'. apply (cut_more P l _ si _ [p; q] ps); [rewrite <- E; apply cut_none|intros w [<-|[<-|[]]]; [now left|now right]|exact Sq].
    + intros s I. rewrite El' in I. apply in_app_or in I.
      assert (Pu : P u /\ P v) by (unfold P; destruct Uv as [(-> & ->)|(-> & ->)]; auto). destruct Pu as (Pu & Pv).
      destruct I as [I|[<-|[<-|[<-|I]]]]; [right; exists s; repeat split; [apply Sub; now left|apply Pc, Sub; now left]|right; exists si; repeat split; [exact Is|now apply Pc|exact E1]|left; now rewrite E3|left; now rewrite E5|right; exists s; repeat split; [apply Sub; now right|apply Pc, Sub; now right]].
    + intros F. rewrite Forall_forall in F |- *. intros s I. rewrite El' in I. apply in_app_or in I.
      assert (W : forall z, In z [t; x; y] -> s_cw z = false) by (intros z Iz; destruct (split_ways si [p; q] true ps t [x; y] z Sq Iz) as [W|W]; [rewrite W; now apply F|exact W]).
      destruct I as [I|[<-|[<-|[<-|I]]]]; [apply F, Sub; now left|apply W; now left|apply W; right; now left|apply W; right; right; now left|apply F, Sub; now right].
  - destruct (split_once_good P l i p l0 Gd Li Zp (or_introl eq_refl) S0) as (G0 & C0 & N0 & N0' & St0 & W0 & Sm0 & _).
    assert (Lj' : (j' < length l0)%nat). { rewrite Ej. fold si in N0'. destruct (touches p si); cbn [negb andb]; [lia|]. specialize (N0' eq_refl). destruct (i <? j)%nat; lia. }
    destruct (split_once_good P l0 j' q l' G0 Lj' Zq (or_intror eq_refl) S1) as (G1 & C1 & N1 & N1' & St1 & W1 & _).
    split; [exact G1|]. split; [|split; [|split]].
    + rewrite Ek. destruct (touches q (nth j' l0 seg_init)); cbn [negb andb]; [lia|]. specialize (N1' eq_refl). destruct (j' <? i)%nat; lia.
    + clear - C0 C1. induction C1 as [m|m x s y ps ps' t n C IH Ps Sq]; [exact C0|]. apply (cut_more P l x s y ps ps'); auto.
    + intros s I. destruct (St1 s I) as [E|(s0 & I0 & E)]; [left; now right|]. destruct (St0 s0 I0) as [E'|(s1 & I1 & E')]; [left; left; congruence|].
      right. exists s1. split; [exact I1|]. split; [destruct Gd as (Fp & _); rewrite Forall_forall in Fp; now apply Fp|congruence].
    + intros F. auto.
Qed.

(* no two segments start at one point afterwards *)
Lemma both_apart : apart_starts (map s_start l) ->
  (forall u, In u l -> (one_point p (s_start u) e8 -> tip si p) /\ (one_point q (s_start u) e8 -> tip sj q)) -> (one_point q (s_end sj) e8 -> i = j -> tip sj p) ->
  apart_starts (map s_start l').
Proof.
  intros A T1 T3.
  destruct both_cases as [(c & x & t & ps & El & Tc & El' & -> & Sq & Ea & Eb & Ec & Ed & Fp & Ff)|[(u & v & ps & t & x & y & Gd & Eij & -> & Np & Nq & Sq & El' & Uv & E1 & E2 & E3 & E4 & E5 & E6 & Fp & Ff)|(l0 & j' & Gd & S0 & S1 & Ej & Ek)]].
  - rewrite El'. cbn [map]. rewrite Ea, Ec. intros a b La Lb M. cbn in La, Lb. destruct a as [|[|a]]; destruct b as [|[|b]]; try lia; cbn in M; exfalso; apply Npq; [now apply one_point_sym|exact M].
  - rewrite El', map_app. cbn [map app]. rewrite E1, E3, E5. replace (map s_start (firstn i l) ++ s_start si :: u :: v :: map s_start (skipn (S i) l)) with ((map s_start (firstn (S i) l) ++ [u]) ++ v :: map s_start (skipn (S i) l)) by (rewrite (firstn_last i l Li), map_app, <- !app_assoc; reflexivity).
    assert (Nu : forall w, In w l -> ~ one_point p (s_start w) e8 /\ ~ one_point q (s_start w) e8).
    { intros w I. destruct (T1 w I) as (Tp & Tq). assert (Es : sj = si) by (unfold sj, si; now rewrite Eij). rewrite Es in Tq. split; intros M; [apply Np|apply Nq]; auto. }
    assert (A1 : apart_starts (map s_start (firstn (S i) l) ++ u :: map s_start (skipn (S i) l))).
    { apply apart_insert; [rewrite <- map_app, firstn_skipn; exact A|]. intros w I M. rewrite <- map_app, firstn_skipn in I. apply in_map_iff in I. destruct I as (s & <- & I). destruct (Nu s I) as (B & C). destruct Uv as [(-> & _)|(-> & _)]; auto. }
    apply apart_insert; [rewrite <- app_assoc; exact A1|]. intros w I M. rewrite <- app_assoc in I. apply in_app_or in I. destruct I as [I|[<-|I]].
    + apply in_map_iff in I. destruct I as (s & <- & I). assert (Il : In s l) by (rewrite <- (firstn_skipn (S i) l); apply in_or_app; now left). destruct (Nu s Il) as (B & C). destruct Uv as [(_ & ->)|(_ & ->)]; auto.
    + destruct Uv as [(-> & ->)|(-> & ->)]; [apply Npq; now apply one_point_sym|now apply Npq].
    + apply in_map_iff in I. destruct I as (s & <- & I). assert (Il : In s l) by (rewrite <- (firstn_skipn (S i) l); apply in_or_app; now right). destruct (Nu s Il) as (B & C). destruct Uv as [(_ & ->)|(_ & ->)]; auto.
  - destruct (split_once_good P l i p l0 Gd Li Zp (or_introl eq_refl) S0) as (G0 & C0 & N0 & N0' & St0 & W0 & Sm0 & Mp0). fold si in N0', Sm0, Mp0.
    assert (Lj' : (j' < length l0)%nat). { rewrite Ej. destruct (touches p si); cbn [negb andb]; [lia|]. specialize (N0' eq_refl). destruct (i <? j)%nat; lia. }
    destruct (split_once_good P l0 j' q l' G0 Lj' Zq (or_intror eq_refl) S1) as (G1 & C1 & N1 & N1' & St1 & W1 & Sm1 & Mp1).
    assert (A0 : apart_starts (map s_start l0)).
    { destruct (touches p si) eqn:Tp; [now rewrite (Sm0 eq_refl)|]. rewrite (Mp0 eq_refl). apply apart_insert; [now rewrite firstn_skipn|].
      intros w I M. rewrite firstn_skipn in I. apply in_map_iff in I. destruct I as (s & <- & I). apply touches_not in Tp. apply Tp. now apply (proj1 (T1 s I)). }
    destruct (touches q (nth j' l0 seg_init)) eqn:Tq; [now rewrite (Sm1 eq_refl)|]. rewrite (Mp1 eq_refl). apply apart_insert; [now rewrite firstn_skipn|].
    intros w I M. rewrite firstn_skipn in I. apply in_map_iff in I. destruct I as (s & <- & I). apply touches_not in Tq. apply Tq.
    destruct (St0 s I) as [E|(s1 & I1 & E)]; [exfalso; apply Npq; rewrite E in M; now apply one_point_sym|]. rewrite E in M. pose proof (proj2 (T1 s1 I1) M) as Tj.
    (* the segment at j' is sj, or what is left of it when p was on it too *)
    destruct (touches p si) eqn:Tp.
    + rewrite (Sm0 eq_refl), Ej. cbn [negb andb]. exact Tj.
    + cbn [negb andb] in Ej. unfold split_once in S0. fold si in S0. rewrite Tp in S0. destruct (split_at_good l i p l0 Gd Li Zp S0) as (ps & t & n & Sq & -> & _ & Ea & Eb & Ec & Ed).
      assert (Lf : length (firstn i l) = i) by (rewrite firstn_length; lia). pose proof (nth_cut i l Li) as E0. fold si in E0.
      destruct (Nat.lt_trichotomy i j) as [B|[B|B]].
      * rewrite (proj2 (Nat.ltb_lt i j) B) in Ej. rewrite Ej, app_nth2, Lf by lia. replace (S j - i)%nat with (S (S (j - S i))) by lia. cbn [nth].
        replace (nth (j - S i) (skipn (S i) l) seg_init) with sj; [exact Tj|]. unfold sj. transitivity (nth j (firstn i l ++ si :: skipn (S i) l) seg_init); [now rewrite <- E0|]. rewrite app_nth2, Lf by lia. replace (j - i)%nat with (S (j - S i)) by lia. reflexivity.
      * rewrite <- B in Ej. rewrite Nat.ltb_irrefl in Ej. rewrite Ej, app_nth2, Lf, Nat.sub_diag by lia. cbn [nth]. assert (Es : sj = si) by (unfold sj, si; now rewrite B). rewrite Es in Tj, T3.
        destruct Tj as [Tj|Tj]; [left; now rewrite Ea|]. exfalso. apply touches_not in Tp. apply Tp. now apply T3.
      * rewrite (proj2 (Nat.ltb_ge i j)) in Ej by lia. rewrite Ej, app_nth1 by lia. replace (nth j (firstn i l) seg_init) with sj; [exact Tj|]. unfold sj. transitivity (nth j (firstn i l ++ si :: skipn (S i) l) seg_init); [now rewrite <- E0|]. now rewrite app_nth1 by lia.
Qed.
End Both.
