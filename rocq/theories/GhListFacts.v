(** What the arrays contain. *)

From Coq Require Import List Bool ZArith Lia.
From Verif Require Import GhModel GhSpec GhList.
Import ListNotations.
Local Open Scope Z_scope.

(** The caller's array and count fit together; the elements they mean. *)
Definition proper (a : arr) (n : Z) (old : list cell) : Prop :=
  (a = None /\ n = 0 /\ old = []) \/ (exists l, a = Some l /\ n = Z.of_nat (length old) /\ exists r, l = old ++ r).

Lemma write_app pre x post v i : i = length pre -> write i v (pre ++ x :: post) = Some (pre ++ v :: post).
Proof.
  intros ->. unfold write. rewrite app_length. cbn [length]. replace (Nat.ltb _ _) with true by (symmetry; apply Nat.ltb_lt; lia).
  rewrite firstn_app, Nat.sub_diag, firstn_O, app_nil_r, firstn_all.
  replace (S (length pre)) with (length pre + 1)%nat by lia. rewrite skipn_app.
  rewrite skipn_all2 by lia. replace (length pre + 1 - length pre)%nat with 1%nat by lia. reflexivity.
Qed.

Lemma write_all_app l : forall pre mid post i, i = length pre -> length mid = length l ->
  write_all i l (pre ++ mid ++ post) = Some (pre ++ l ++ post).
Proof.
  induction l as [|v l IH]; intros pre mid post i Ei E; cbn [write_all].
  - destruct mid; [reflexivity|discriminate].
  - destruct mid as [|x mid]; [discriminate|]. cbn [app]. rewrite (write_app pre x (mid ++ post) v i Ei). cbn [bind].
    replace (pre ++ v :: mid ++ post) with ((pre ++ [v]) ++ mid ++ post) by now rewrite <- app_assoc.
    rewrite (IH (pre ++ [v]) mid post (S i)).
    + now rewrite <- app_assoc.
    + rewrite app_length. cbn. lia.
    + now injection E.
Qed.

Lemma joined_do old new stop : (stop <= length new)%nat ->
  joined old new stop = Some (old ++ map Some (firstn stop new) ++ repeat None (length new - stop)).
Proof.
  intros B. unfold joined. rewrite repeat_app.
  rewrite (write_all_app old [] (repeat None (length old)) (repeat None (length new))) by (try reflexivity; apply repeat_length).
  cbn [bind app]. replace (repeat (@None nat) (length new)) with (repeat (@None nat) stop ++ repeat None (length new - stop)).
  - rewrite (write_all_app (map Some (firstn stop new)) old (repeat None stop)); try reflexivity.
    rewrite repeat_length, map_length, firstn_length. lia.
  - rewrite <- repeat_app. f_equal. lia.
Qed.

Lemma taken_proper a n old : proper a n old -> taken a n = Some old.
Proof.
  intros [(-> & -> & ->)|(l & -> & -> & r & ->)]; [reflexivity|]. unfold taken. rewrite app_length.
  destruct (Z.ltb_spec 0 (Z.of_nat (length old))) as [P|P].
  - replace (Z.of_nat (length old) <=? _) with true by (symmetry; apply Z.leb_le; lia).
    rewrite Nat2Z.id, firstn_app, Nat.sub_diag, firstn_O, app_nil_r, firstn_all. reflexivity.
  - destruct old; [reflexivity|]. cbn [length] in P. lia.
Qed.

Lemma valid_std s h p : owns s h p -> exists x, hs s h = Some x /\ hp x = Some p /\ hv x = true /\ refuse_std x = false.
Proof. intros (x & E & V & P). exists x. unfold refuse_std. rewrite P, V. auto. Qed.

Section Handed.
  Variables (s : st) (h p : nat) (g : geo).
  Hypothesis O : owns s h p.
  Hypothesis G : obj s p = Some g.

  Lemma fetch_do refuse stop ok new a n old : (forall x, hp x = Some p -> hv x = true -> refuse x = false) ->
    proper a n old -> (stop new <= length new)%nat ->
    fetch refuse stop (ok, new) h a n s =
      if ok && negb (match new with [] => true | _ => false end)
      then Some (true, Some (old ++ map Some (firstn (stop new) new) ++ repeat None (length new - stop new)), Z.of_nat (length (old ++ map Some new)))
      else Some (false, a, n).
  Proof.
    intros R P B. destruct O as (x & E & V & Px). unfold fetch. rewrite E. cbn [bind]. rewrite (R x Px V), Px. cbn [bind]. rewrite G.
    cbn [bind]. destruct (ok && _); [|reflexivity]. rewrite (taken_proper _ _ _ P). cbn [bind]. rewrite joined_do by assumption. cbn [bind].
    rewrite app_length, map_length. do 2 f_equal. lia.
  Qed.

  Lemma surfaces_do new a n old : proper a n old -> new <> [] ->
    get_vertical (true, new) h a n s = Some (true, Some (old ++ map Some new), Z.of_nat (length (old ++ map Some new))) /\
    get_plane (true, new) h a n s = Some (true, Some (old ++ map Some new), Z.of_nat (length (old ++ map Some new))).
  Proof.
    intros P N. assert (X : get_vertical (true, new) h a n s = Some (true, Some (old ++ map Some new), Z.of_nat (length (old ++ map Some new)))).
    { unfold get_vertical. rewrite (fetch_do refuse_std (@length nat) true new a n old); try assumption; [|unfold refuse_std; now intros x -> ->|lia].
      destruct new; [contradiction|]. rewrite firstn_all, Nat.sub_diag. cbn [andb negb repeat]. now rewrite app_nil_r. }
    exact (conj X X).
  Qed.

  Lemma no_surfaces ok new a n old : proper a n old -> ok = false \/ new = [] ->
    get_vertical (ok, new) h a n s = Some (false, a, n) /\ get_plane (ok, new) h a n s = Some (false, a, n) /\
    get_curves (ok, new) h a n s = Some (false, a, n) /\ get_curve_on_plane (ok, new) h a n s = Some (false, a, n).
  Proof.
    intros P N. assert (Z : ok && negb (match new with [] => true | _ => false end) = false) by (destruct N as [->| ->]; [reflexivity|apply andb_false_r]).
    assert (X : get_vertical (ok, new) h a n s = Some (false, a, n)).
    { unfold get_vertical. rewrite (fetch_do refuse_std (@length nat) ok new a n old); try assumption; [now rewrite Z|unfold refuse_std; now intros x -> ->|lia]. }
    split; [exact X|]. split; [exact X|]. split.
    - unfold get_curves. rewrite (fetch_do refuse_std _ ok new a n old); try assumption; [now rewrite Z|unfold refuse_std; now intros x -> ->|lia].
    - unfold get_curve_on_plane. rewrite (fetch_do refuse_plane _ ok new a n old); try assumption; [now rewrite Z|unfold refuse_plane; now intros x -> _|lia].
  Qed.

  Lemma curves_do new a n old : proper a n old -> new <> [] ->
    get_curves (true, new) h a n s = Some (true, Some (old ++ repeat None (length new)), n + Z.of_nat (length new)) /\
    get_curve_on_plane (true, new) h a n s = Some (true, Some (old ++ repeat None (length new)), n + Z.of_nat (length new)).
  Proof.
    intros P N. assert (En : n = Z.of_nat (length old)) by (destruct P as [(_ & -> & ->)|(l & _ & -> & _)]; reflexivity).
    assert (El : n + Z.of_nat (length new) = Z.of_nat (length (old ++ map Some new))) by (rewrite app_length, map_length; lia).
    rewrite El. split.
    - unfold get_curves. rewrite (fetch_do refuse_std _ true new a n old); try assumption; [|unfold refuse_std; now intros x -> ->|lia].
      destruct new; [contradiction|]. rewrite Nat.sub_0_r. reflexivity.
    - unfold get_curve_on_plane. rewrite (fetch_do refuse_plane _ true new a n old); try assumption; [|unfold refuse_plane; now intros x -> _|lia].
      destruct new; [contradiction|]. rewrite Nat.sub_0_r. reflexivity.
  Qed.

  Lemma wall_never core a n : get_wall core h a n s = Some (false, a, n).
  Proof. destruct O as (x & E & V & Px). unfold get_wall, fetch. rewrite E. cbn [bind]. unfold refuse_wall. now rewrite Px, V. Qed.

  Lemma get_list_do w : get_list w h s =
    match list_of w g with [] => Some (false, None, 0) | l => Some (true, Some (map Some l), Z.of_nat (length l)) end.
  Proof.
    destruct (valid_std _ _ _ O) as (x & E & Px & V & R). unfold get_list. rewrite E. cbn [bind]. rewrite R, Px. cbn [bind]. rewrite G. cbn [bind].
    destruct (list_of w g) as [|q l]; [reflexivity|].
    pose proof (write_all_app (map Some (q :: l)) [] (repeat None (length (q :: l))) [] 0%nat eq_refl) as X.
    rewrite !app_nil_r in X. cbn [app] in X. rewrite X by (rewrite repeat_length, map_length; reflexivity). reflexivity.
  Qed.

  Lemma split_do k new a n old : k > 0 -> proper a n old ->
    split true k (true, new) h a n s = Some (true, Some (old ++ map Some new), Z.of_nat (length (old ++ map Some new))).
  Proof.
    intros K P. destruct (valid_std _ _ _ O) as (x & E & Px & V & R). unfold split. rewrite E. cbn [bind]. rewrite R.
    destruct (Z.eqb_spec k 0); [lia|]. destruct (Z.ltb_spec k 0); [lia|]. cbn [negb orb]. rewrite Px. cbn [bind]. rewrite G. cbn [bind].
    rewrite (taken_proper _ _ _ P). cbn [bind]. rewrite joined_do by lia. cbn [bind]. rewrite firstn_all, Nat.sub_diag. cbn [repeat].
    rewrite app_nil_r. assert (En : n = Z.of_nat (length old)) by (destruct P as [(_ & -> & ->)|(l & _ & -> & _)]; reflexivity).
    rewrite app_length, map_length. do 2 f_equal. lia.
  Qed.

  Lemma split_loose k new n : k > 0 -> split true k (true, new) h None n s = Some (true, Some (map Some new), n + Z.of_nat (length new)).
  Proof.
    intros K. destruct (valid_std _ _ _ O) as (x & E & Px & V & R). unfold split. rewrite E. cbn [bind]. rewrite R.
    destruct (Z.eqb_spec k 0); [lia|]. destruct (Z.ltb_spec k 0); [lia|]. cbn [negb orb]. rewrite Px. cbn [bind]. rewrite G. cbn [bind taken].
    rewrite joined_do by lia. cbn [bind]. rewrite firstn_all, Nat.sub_diag. cbn [repeat app]. now rewrite app_nil_r.
  Qed.

  Lemma split_nothing given core a n : split given 0 core h a n s = Some (true, a, n).
  Proof. destruct (valid_std _ _ _ O) as (x & E & Px & V & R). unfold split. rewrite E. cbn [bind]. now rewrite R. Qed.

  Lemma split_refused given k new ok a n : given = false /\ k <> 0 \/ k < 0 \/ ok = false /\ k <> 0 ->
    split given k (ok, new) h a n s = Some (false, a, n).
  Proof.
    intros D. destruct (valid_std _ _ _ O) as (x & E & Px & V & R). unfold split. rewrite E. cbn [bind]. rewrite R.
    destruct (Z.eqb_spec k 0); [lia|]. destruct (negb given || (k <? 0)) eqn:Y; [reflexivity|]. apply orb_false_iff in Y as [Y1 Y2].
    apply Z.ltb_ge in Y2. rewrite Px. cbn [bind]. rewrite G. cbn [bind].
    destruct D as [(-> & _)|[D|(-> & _)]]; [discriminate|lia|reflexivity].
  Qed.

  Lemma intersections_do new : intersections (true, new) h None 0 s = Some (true, Some (map Some new), Z.of_nat (length new)).
  Proof.
    destruct (valid_std _ _ _ O) as (x & E & Px & V & R). unfold intersections. rewrite E. cbn [bind]. rewrite R. cbn [negb orb].
    rewrite Px. cbn [bind]. rewrite G. cbn [bind].
    pose proof (write_all_app (map Some new) [] (repeat None (length new)) [] 0%nat eq_refl) as X.
    rewrite !app_nil_r in X. cbn [app] in X. rewrite X by (rewrite repeat_length, map_length; reflexivity). reflexivity.
  Qed.

  Lemma intersections_refused ok new a n : a <> None \/ n <> 0 \/ ok = false -> intersections (ok, new) h a n s = Some (false, a, n).
  Proof.
    intros D. destruct (valid_std _ _ _ O) as (x & E & Px & V & R). unfold intersections. rewrite E. cbn [bind]. rewrite R.
    destruct a as [l|]; [reflexivity|]. cbn [negb orb]. destruct (Z.eqb_spec n 0); [|reflexivity]. cbn [negb].
    rewrite Px. cbn [bind]. rewrite G. cbn [bind]. destruct D as [D|[D|D]]; [congruence|congruence|now rewrite D].
  Qed.
End Handed.

(** A handle whose object was destroyed by its owner. *)
Definition left_over (s : st) (h p : nat) : Prop := exists x, hs s h = Some x /\ hv x = false /\ hp x = Some p /\ ~ live s p.

Lemma left_over_do s h p core a n : left_over s h p ->
  get_vertical core h a n s = Some (false, a, n) /\ get_plane core h a n s = Some (false, a, n) /\ get_curves core h a n s = Some (false, a, n) /\
  (forall given k, split given k core h a n s = Some (false, a, n)) /\ (forall w, get_list w h s = Some (false, None, 0)) /\
  get_curve_on_plane core h a n s = None /\ get_wall core h a n s = None.
Proof.
  intros (x & E & V & Px & L). assert (Go : obj s p = None) by (destruct (obj s p) eqn:Q; [exfalso; apply L; unfold live; congruence|reflexivity]).
  assert (R : refuse_std x = true) by (unfold refuse_std; now rewrite Px, V).
  assert (A : fetch refuse_std (@length nat) core h a n s = Some (false, a, n)) by (unfold fetch; rewrite E; cbn [bind]; now rewrite R).
  split; [exact A|]. split; [exact A|].
  split; [unfold get_curves, fetch; rewrite E; cbn [bind]; now rewrite R|].
  split; [intros; unfold split; rewrite E; cbn [bind]; now rewrite R|].
  split; [intros; unfold get_list; rewrite E; cbn [bind]; now rewrite R|].
  split.
  - unfold get_curve_on_plane, fetch. rewrite E. cbn [bind]. unfold refuse_plane. rewrite Px. cbn [bind]. now rewrite Go.
  - unfold get_wall, fetch. rewrite E. cbn [bind]. unfold refuse_wall. rewrite Px, V. cbn [bind]. now rewrite Go.
Qed.
