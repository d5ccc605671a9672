(** Facts about the components of a board. *)

From Coq Require Import Lia.
From Verif Require Import Base IoModel IdfText IdfSpec IdfPlace IdfParts IdfPartsSpec IdfFacts IdfPlaceFacts.
Local Open Scope nat_scope.

Lemma find_key_in n m i : find_key n m = Some i -> In (n, i) m.
Proof.
  induction m as [|[k j] m IH]; cbn; [discriminate|].
  destruct (str_eqb k n) eqn:E; intros H; [|right; auto].
  apply str_eqb_eq in E. left. congruence.
Qed.

Lemma find_key_none n m i : find_key n m = None -> ~ In (n, i) m.
Proof.
  induction m as [|[k j] m IH]; cbn; [tauto|].
  destruct (str_eqb k n) eqn:E; [discriminate|]. intros H [X|X]; [|exact (IH H X)].
  assert (k = n) by congruence. subst k. rewrite eqb_same in E. discriminate.
Qed.

Lemma in_find_key n m i : NoDup (map fst m) -> In (n, i) m -> find_key n m = Some i.
Proof.
  induction m as [|[k j] m IH]; cbn; [tauto|]. intros D H. inversion D as [|x l A B]; subst.
  destruct H as [H|H].
  - assert (k = n) by congruence. assert (j = i) by congruence. subst. rewrite eqb_same. reflexivity.
  - destruct (str_eqb k n) eqn:E; [|exact (IH B H)].
    apply str_eqb_eq in E. subst k. exfalso. apply A. apply in_map_iff. exists (n, i). auto.
Qed.

Lemma in_erase n m k i : In (k, i) (erase_key n m) <-> In (k, i) m /\ k <> n.
Proof.
  unfold erase_key. rewrite filter_In. cbn. split; intros [A B]; split; auto.
  - intros E. subst k. rewrite eqb_same in B. discriminate.
  - destruct (str_eqb k n) eqn:E; [|reflexivity]. apply str_eqb_eq in E. contradiction.
Qed.

Lemma nodup_erase n m : NoDup (map fst m) -> NoDup (map fst (erase_key n m)).
Proof.
  induction m as [|[k j] m IH]; cbn; [auto|]. intros D. inversion D as [|x l A B]; subst.
  destruct (str_eqb k n); cbn; [auto|]. constructor; [|auto].
  intros X. apply A. apply in_map_iff in X. destruct X as [[k' i] [E X]]. cbn in E. subst k'.
  apply in_erase in X. apply in_map_iff. exists (k, i). tauto.
Qed.

Lemma nodup_snoc (A : Type) (l : list A) x : NoDup l -> ~ In x l -> NoDup (l ++ [x]).
Proof.
  intros D. induction D as [|y l N D IH]; cbn; intros H; [repeat constructor; auto|].
  constructor; [|apply IH; tauto]. intros X. apply in_app_iff in X. destruct X as [X|[X|[]]]; [auto|]. subst. tauto.
Qed.

Definition sound_parts (s : brd_parts) : Prop :=
  NoDup (map fst (q_map s)) /\
  (forall k i, In (k, i) (q_map s) -> exists p, q_live s i = Some p /\ k_name p = k) /\
  (forall i p, q_live s i = Some p -> i < q_next s).

Lemma sound_one s i k k' : sound_parts s -> In (k, i) (q_map s) -> In (k', i) (q_map s) -> k = k'.
Proof.
  intros [_ [N _]] A B. destruct (N _ _ A) as [p [P E]]. destruct (N _ _ B) as [p' [P' E']]. congruence.
Qed.

Lemma live_rename s i p q : sound_parts s -> q_live s i = Some p ->
  (holds_part s i -> k_name q = k_name p) -> sound_parts (set_live i (Some q) s).
Proof.
  intros [D [N F]] L H. split; [exact D|split].
  - cbn. intros k j I. destruct (N k j I) as [p' [P E]]. destruct (j =? i) eqn:X; [|exists p'; auto].
    apply Nat.eqb_eq in X. subst j. exists q. split; [reflexivity|].
    rewrite H; [congruence|exists k; exact I].
  - cbn. intros j p'. destruct (j =? i) eqn:X; intros Y; [|exact (F _ _ Y)].
    apply Nat.eqb_eq in X. subst j. exact (F _ _ L).
Qed.

Lemma step_sound c s b s' : sound_parts s -> (forall i n, c = NamePart i n -> ~ holds_part s i) ->
  part_step c s = Some (b, s') -> sound_parts s'.
Proof.
  intros W H R. pose proof W as [D [N F]]. destruct c as [|i n|i q|i|i]; cbn in R.
  - injection R as _ <-. split; [exact D|split].
    + cbn. intros k i I. destruct (N k i I) as [p [P E]]. pose proof (F _ _ P) as G.
      replace (i =? q_next s) with false by (symmetry; apply Nat.eqb_neq; lia). exists p. auto.
    + cbn. intros i p. destruct (i =? q_next s) eqn:X; intros Y; [apply Nat.eqb_eq in X; lia|].
      pose proof (F _ _ Y). lia.
  - destruct (q_live s i) as [p|] eqn:L; [|discriminate].
    destruct (negb _); [injection R as _ <-; exact W|]. destruct n as [|a n]; [injection R as _ <-; exact W|].
    destruct (compare_token _ _); injection R as _ <-; [exact W|].
    apply (live_rename s i p); [exact W|exact L|]. intros X. exfalso. exact (H _ _ eq_refl X).
  - destruct (q_live s i) as [p|] eqn:L; [|discriminate].
    assert (G : sound_parts (set_live i (Some (mkPart (k_name p) q)) s)) by (apply (live_rename s i p); auto).
    destruct q; try (injection R as _ <-; exact W); destruct (part_open _ _); injection R as _ <-; assumption.
  - destruct (q_live s i) as [p|] eqn:L; [|discriminate].
    destruct (find_key _ _) eqn:E; injection R as _ <-; [exact W|]. split; [|split; [|exact F]].
    + cbn. rewrite map_app. apply nodup_snoc; [exact D|]. intros X. apply in_map_iff in X.
      destruct X as [[k j] [X Y]]. cbn in X. subst k. exact (find_key_none _ _ _ E Y).
    + cbn. intros k j I. apply in_app_iff in I. destruct I as [I|[I|[]]]; [auto|].
      injection I as <- <-. exists p. auto.
  - destruct (q_live s i) as [p|] eqn:L; [|discriminate].
    destruct (part_mine _ _); [|injection R as _ <-; exact W].
    destruct (find_key _ _) as [j|] eqn:E; [|injection R as _ <-; exact W].
    destruct (q_live s j) as [p'|] eqn:L'; [|discriminate]. injection R as _ <-. split; [|split].
    + cbn. apply nodup_erase. exact D.
    + cbn. intros k x I. apply in_erase in I. destruct I as [I K]. destruct (N _ _ I) as [y [Y Z]].
      destruct (x =? j) eqn:X; [|exists y; auto]. apply Nat.eqb_eq in X. subst x. exfalso. apply K.
      exact (sound_one _ _ _ _ W I (find_key_in _ _ _ E)).
    + cbn. intros x y. destruct (x =? j); [discriminate|]. apply F.
Qed.

Lemma names_first_tail c cs s b s' : names_first (c :: cs) s -> part_step c s = Some (b, s') -> names_first cs s'.
Proof.
  intros H R a i n t E s'' X. apply (H (c :: a) i n t); [cbn; rewrite E; reflexivity|].
  cbn. rewrite R. exact X.
Qed.

Lemma run_sound cs : forall s s', sound_parts s -> names_first cs s -> part_run cs s = Some s' -> sound_parts s'.
Proof.
  induction cs as [|c cs IH]; cbn; intros s s' W H R; [congruence|].
  destruct (part_step c s) as [[b t]|] eqn:E; [|discriminate].
  apply (IH t s'); [|exact (names_first_tail _ _ _ _ _ H E)|exact R].
  apply (step_sound c s b t W); [|exact E]. intros i n X. subst c.
  exact (H [] i n cs eq_refl s eq_refl).
Qed.

Lemma start_sound c : sound_parts (no_parts c).
Proof. split; [constructor|split]; cbn; [tauto|discriminate]. Qed.

Lemma mine_iff c p : part_mine c p = true <-> deletable c p.
Proof.
  unfold deletable. destruct p, c; cbn; split; intros H; try reflexivity; try discriminate; try tauto;
  destruct H as [H|[H|[[H H']|[H H']]]]; discriminate.
Qed.

Lemma parts_found c cs s : names_first cs (no_parts c) -> part_run cs (no_parts c) = Some s ->
  forall n i, find_key n (q_map s) = Some i <-> holds_part s i /\ exists p, q_live s i = Some p /\ k_name p = n.
Proof.
  intros H R n i. pose proof (run_sound _ _ _ (start_sound c) H R) as [D [N _]]. split.
  - intros E. apply find_key_in in E. split; [exists n; exact E|exact (N _ _ E)].
  - intros [[k I] [p [L E]]]. apply in_find_key; [exact D|]. destruct (N _ _ I) as [p' [L' E']].
    replace n with k by congruence. exact I.
Qed.

Lemma parts_deleted c cs s i p : names_first cs (no_parts c) -> part_run cs (no_parts c) = Some s ->
  holds_part s i -> q_live s i = Some p ->
  (deletable (q_cad s) (k_place p) -> exists s', part_step (DelPart i) s = Some (true, s') /\ without_part s i s') /\
  (~ deletable (q_cad s) (k_place p) -> part_step (DelPart i) s = Some (false, s)).
Proof.
  intros H R [k I] L. pose proof (run_sound _ _ _ (start_sound c) H R) as W. pose proof W as [D [N F]].
  destruct (N _ _ I) as [p' [L' E]]. assert (p' = p) by congruence. subst p'.
  cbn. rewrite L. split; intros M.
  - apply mine_iff in M. rewrite M, E, (in_find_key _ _ _ D I), L. eexists. split; [reflexivity|].
    split; [cbn; rewrite Nat.eqb_refl; reflexivity|]. split; [|split].
    + intros [k' X]. cbn in X. apply in_erase in X. destruct X as [X Y]. apply Y.
      exact (sound_one _ _ _ _ W X I).
    + intros j J. cbn. apply Nat.eqb_neq in J. rewrite J. reflexivity.
    + intros k' j J. cbn. rewrite in_erase. split; [tauto|]. intros X. split; [exact X|]. intros Y. subst k'.
      apply J. pose proof (in_find_key _ _ _ D X). pose proof (in_find_key _ _ _ D I). congruence.
  - destruct (part_mine _ _) eqn:X; [|reflexivity]. apply mine_iff in X. contradiction.
Qed.

Lemma delete_all_ok m : forall live, NoDup (map snd m) -> (forall k i, In (k, i) m -> live i <> None) ->
  exists live', delete_all m live = Some live' /\
    forall i, live' i = None <-> live i = None \/ exists k, In (k, i) m.
Proof.
  induction m as [|[k i] m IH]; cbn; intros live D H.
  - exists live. split; [reflexivity|]. intros i. split; [auto|]. intros [X|[k []]]; exact X.
  - inversion D as [|x l A B]; subst. destruct (live i) as [p|] eqn:E; [|exfalso; exact (H k i (or_introl eq_refl) E)].
    destruct (IH (fun j => if j =? i then None else live j) B) as [live' [R Q]].
    + intros k' j I. destruct (j =? i) eqn:X; [|exact (H k' j (or_intror I))].
      apply Nat.eqb_eq in X. subst j. exfalso. apply A. apply in_map_iff. exists (k', i). auto.
    + exists live'. split; [exact R|]. intros j. rewrite Q. destruct (j =? i) eqn:X.
      * apply Nat.eqb_eq in X. subst j. split; [intros _; right; exists k; auto|auto].
      * apply Nat.eqb_neq in X. split; intros [Y|[k' Y]]; auto; [right; exists k'; auto|].
        destruct Y as [Y|Y]; [congruence|right; exists k'; exact Y].
Qed.

Lemma sound_ids s : sound_parts s -> NoDup (map snd (q_map s)).
Proof.
  intros [D [N _]]. revert D N. generalize (q_map s) as m. intros m. induction m as [|[k i] m IH]; cbn; intros D N; [constructor|].
  inversion D as [|x l A B]; subst. constructor; [|apply IH; [exact B|intros; apply N; auto]].
  intros X. apply in_map_iff in X. destruct X as [[k' j] [E X]]. cbn in E. subst j.
  destruct (N k i (or_introl eq_refl)) as [p [P Q]]. destruct (N k' i (or_intror X)) as [p' [P' Q']].
  apply A. apply in_map_iff. exists (k', i). split; [cbn; congruence|exact X].
Qed.

Lemma parts_cleared c cs s : names_first cs (no_parts c) -> part_run cs (no_parts c) = Some s ->
  exists live, clear_parts s = Some live /\ forall i, live i = None <-> q_live s i = None \/ holds_part s i.
Proof.
  intros H R. pose proof (run_sound _ _ _ (start_sound c) H R) as W.
  apply delete_all_ok; [exact (sound_ids _ W)|]. intros k i I. destruct W as [_ [N _]].
  destruct (N _ _ I) as [p [P _]]. congruence.
Qed.

(** The component which is deleted is the one stored under the name, not the one given. *)
Lemma parts_other c cs s i j p q : names_first cs (no_parts c) -> part_run cs (no_parts c) = Some s ->
  holds_part s i -> q_live s i = Some q -> q_live s j = Some p -> k_name p = k_name q ->
  deletable (q_cad s) (k_place p) ->
  exists s', part_step (DelPart j) s = Some (true, s') /\ without_part s i s'.
Proof.
  intros H R I Q P E M. pose proof (run_sound _ _ _ (start_sound c) H R) as W. pose proof W as [D [N F]].
  pose proof (proj2 (parts_found _ _ _ H R (k_name p) i) (conj I (ex_intro _ q (conj Q (eq_sym E))))) as X.
  cbn. rewrite P. apply mine_iff in M. rewrite M, X, Q. eexists. split; [reflexivity|].
  apply find_key_in in X. split; [cbn; rewrite Nat.eqb_refl; reflexivity|]. split; [|split].
  - intros [k' Y]. cbn in Y. apply in_erase in Y. destruct Y as [Y Z]. apply Z. exact (sound_one _ _ _ _ W Y X).
  - intros x J. cbn. apply Nat.eqb_neq in J. rewrite J. reflexivity.
  - intros k' x J. cbn. rewrite in_erase. split; [tauto|]. intros Y. split; [exact Y|]. intros Z. subst k'.
    apply J. pose proof (in_find_key _ _ _ D X). pose proof (in_find_key _ _ _ D Y). congruence.
Qed.

(** A component which was never placed cannot be deleted. *)
Lemma parts_unplaced s i p : q_live s i = Some p -> k_place p = PInvalid -> part_step (DelPart i) s = Some (false, s).
Proof. intros L E. cbn. rewrite L, E. destruct (q_cad s); reflexivity. Qed.

Lemma open_iff c p : part_open c p = true <-> ~ reserved c p.
Proof.
  unfold reserved. destruct p, c; cbn; split; intros H; try reflexivity; try discriminate;
  try (intros [[X Y]|[X Y]]; discriminate); exfalso; apply H; tauto.
Qed.

Lemma set_only s i p : only_part s i p (set_live i (Some p) s).
Proof.
  split; [cbn; rewrite Nat.eqb_refl; reflexivity|]. split; [|split; reflexivity].
  intros j J. cbn. apply Nat.eqb_neq in J. rewrite J. reflexivity.
Qed.

Lemma panel_iff n : compare_token "PANEL" n = true <-> same_word "PANEL" n.
Proof. apply keyword_same. repeat (constructor; [intros X; vm_compute in X; destruct X as [X Y]; (apply X || apply Y); reflexivity|]). constructor. Qed.

Lemma part_named s i p n : q_live s i = Some p ->
  (~ reserved (q_cad s) (k_place p) /\ part_name n ->
     exists s', part_step (NamePart i n) s = Some (true, s') /\ only_part s i (mkPart n (k_place p)) s') /\
  (reserved (q_cad s) (k_place p) \/ ~ part_name n -> part_step (NamePart i n) s = Some (false, s)).
Proof.
  intros L. cbn [part_step]. rewrite L. split.
  - intros [A [B C]]. apply open_iff in A. rewrite A. destruct n as [|a n]; [contradiction|].
    assert (X : compare_token "PANEL" (a :: n) = false).
    { destruct (compare_token "PANEL" (a :: n)) eqn:E; [|reflexivity]. apply panel_iff in E. contradiction. }
    cbn [negb]. rewrite X. eexists. split; [reflexivity|]. apply set_only.
  - intros H. destruct (part_open (q_cad s) (k_place p)) eqn:A; [|reflexivity]. apply open_iff in A.
    destruct H as [H|H]; [contradiction|]. destruct n as [|a n]; [reflexivity|]. cbn [negb].
    destruct (compare_token "PANEL" (a :: n)) eqn:E; [reflexivity|]. exfalso. apply H. split; [discriminate|].
    intros X. apply panel_iff in X. congruence.
Qed.

Lemma part_put s i p q : q_live s i = Some p ->
  (~ reserved (q_cad s) (k_place p) /\ q <> PInvalid ->
     exists s', part_step (PlacePart i q) s = Some (true, s') /\ only_part s i (mkPart (k_name p) q) s') /\
  (reserved (q_cad s) (k_place p) \/ q = PInvalid -> part_step (PlacePart i q) s = Some (false, s)).
Proof.
  intros L. cbn [part_step]. rewrite L. split.
  - intros [A B]. apply open_iff in A. rewrite A. destruct q; try contradiction; (eexists; split; [reflexivity|apply set_only]).
  - intros [A|A]; [|rewrite A; reflexivity].
    destruct (part_open (q_cad s) (k_place p)) eqn:E; [apply open_iff in E; contradiction|]. destruct q; reflexivity.
Qed.

(** Without [SetPlacement] a component has no placement. *)
Lemma step_unplaced c s b s' i : (forall q, c <> PlacePart i q) -> part_step c s = Some (b, s') ->
  (forall p, q_live s i = Some p -> k_place p = PInvalid) -> forall p, q_live s' i = Some p -> k_place p = PInvalid.
Proof.
  intros H R N p. destruct c as [|j n|j q|j|j]; cbn in R.
  - injection R as _ <-. cbn. destruct (i =? q_next s); intros X; [injection X as <-; reflexivity|exact (N _ X)].
  - destruct (q_live s j) as [p'|] eqn:L; [|discriminate].
    assert (G : forall n', q_live (set_live j (Some (mkPart n' (k_place p'))) s) i = Some p -> k_place p = PInvalid).
    { intros n'. cbn. destruct (i =? j) eqn:X; intros Y; [|exact (N _ Y)]. apply Nat.eqb_eq in X. subst j.
      injection Y as <-. cbn. exact (N _ L). }
    destruct (negb _); [injection R as _ <-; apply N|]. destruct n as [|a n]; [injection R as _ <-; apply N|].
    destruct (compare_token _ _); injection R as _ <-; [apply N|apply G].
  - destruct (q_live s j) as [p'|] eqn:L; [|discriminate].
    assert (J : i =? j = false) by (apply Nat.eqb_neq; intros ->; exact (H q eq_refl)).
    destruct q; try (injection R as _ <-; apply N); destruct (part_open _ _); injection R as _ <-;
      try apply N; cbn; rewrite J; apply N.
  - destruct (q_live s j) as [p'|]; [|discriminate]. destruct (find_key _ _); injection R as _ <-; apply N.
  - destruct (q_live s j) as [p'|]; [|discriminate]. destruct (part_mine _ _); [|injection R as _ <-; apply N].
    destruct (find_key _ _) as [x|]; [|injection R as _ <-; apply N].
    destruct (q_live s x); [|discriminate]. injection R as _ <-. cbn. destruct (i =? x); [discriminate|apply N].
Qed.

Lemma run_unplaced cs : forall s s' i, (forall q, ~ In (PlacePart i q) cs) -> part_run cs s = Some s' ->
  (forall p, q_live s i = Some p -> k_place p = PInvalid) -> forall p, q_live s' i = Some p -> k_place p = PInvalid.
Proof.
  induction cs as [|c cs IH]; cbn; intros s s' i H R N; [injection R as <-; exact N|].
  destruct (part_step c s) as [[b t]|] eqn:E; [|discriminate].
  apply (IH t s' i); [intros q X; exact (H q (or_intror X))|exact R|].
  apply (step_unplaced c s b t i); [intros q X; exact (H q (or_introl X))|exact E|exact N].
Qed.

Lemma never_placed c cs s i p : part_run cs (no_parts c) = Some s -> (forall q, ~ In (PlacePart i q) cs) ->
  q_live s i = Some p -> part_step (DelPart i) s = Some (false, s).
Proof.
  intros R H L. apply (parts_unplaced s i p L). apply (run_unplaced cs (no_parts c) s i H R); [|exact L].
  cbn. discriminate.
Qed.

Lemma parts_added c cs s i p : names_first cs (no_parts c) -> part_run cs (no_parts c) = Some s -> q_live s i = Some p ->
  ((exists j q, holds_part s j /\ q_live s j = Some q /\ k_name q = k_name p) -> part_step (AddPart i) s = Some (false, s)) /\
  (~ (exists j q, holds_part s j /\ q_live s j = Some q /\ k_name q = k_name p) ->
   exists s', part_step (AddPart i) s = Some (true, s') /\ (forall j, q_live s' j = q_live s j) /\ q_cad s' = q_cad s /\
     forall k j, In (k, j) (q_map s') <-> In (k, j) (q_map s) \/ (k = k_name p /\ j = i)).
Proof.
  intros H R L. pose proof (parts_found c cs s H R) as F. cbn. rewrite L. split.
  - intros [j [q [A [B E]]]]. rewrite (proj2 (F (k_name p) j)); [reflexivity|]. split; [exact A|]. exists q. auto.
  - intros N. destruct (find_key (k_name p) (q_map s)) as [j|] eqn:E.
    + exfalso. apply N. apply F in E. destruct E as [A [q [B C]]]. exists j, q. auto.
    + eexists. split; [reflexivity|]. split; [reflexivity|]. split; [reflexivity|]. intros k j. cbn. rewrite in_app_iff. cbn.
      split; (intros [X|X]; [left; exact X|right]).
      * destruct X as [X|[]]. split; congruence.
      * destruct X as [-> ->]. auto.
Qed.
