(** The claims about the export of models. *)

From Coq Require Import QArith List Bool ZArith Lia ZifyBool ZifyNat.
From Verif Require Import Base IoModel EntModel PayloadModel UnitModel UnitSpec UnitProps2.
From Verif Require Import GraphModel GraphSpec GraphFacts GraphProps GraphProps2 GraphCull GraphCheck GraphMore ExportModel ExportSpec ExportFacts ExportProps ExportProps2.
Import ListNotations.
Open Scope Z_scope.

Lemma beside_claim g h : GraphSpec.reached g -> GraphSpec.reached h -> typeless_nulls g -> typeless_nulls h ->
  side_by_side (beside g h) (map (fun i => i + g_next g)%nat (g_ents h)).
Proof.
  intros R R' N N'. pose proof (reached_inv _ R) as I. pose proof (reached_inv _ R') as I'.
  apply beside_ok; auto using inv_consistent; [apply (g_fresh _ _ (proj1 I))|apply (g_fresh _ _ (proj1 I'))].
Qed.

(** Every entity which is not of the contents keeps its pointers and referrers. *)
Lemma left_out {D} now (s : source D) (t : target) l x n : fits_in s t -> contents (ta_graph t) (so_ids s) l -> l <> [] ->
  In x (so_ids s) -> ~ In x l -> look (ta_graph t) x = Some n ->
  exists h p name s' items ws, Export now false s t = Some (Packed h p name s' items ws) /\
    In x (g_ents h) /\ look h x = Some (w_own true n) /\ ~ points h p x.
Proof.
  intros M C N I O E. destruct (export_graph now s t l M C N) as (h & p & name & s' & items & ws & q & rest & X & F & _ & P & _ & _ & _ & _ & _ & _ & H & Lk & G & Pk & _).
  exists h, p, name, s', items, ws. split; [exact X|].
  assert (Np : x <> p). { intros ->. apply F. now exists n. }
  assert (Lx : look h x = Some (w_own true n)).
  { rewrite (Lk x Np), E. cbn [option_map]. unfold after_move. rewrite (proj2 (mem_notin _ _) O), (proj2 (mem_in _ _) I). reflexivity. }
  split; [|split; [exact Lx|]].
  - rewrite G. apply in_or_app. right. right. apply in_or_app. right. eapply picked_all; eauto.
  - intros (q' & Eq & Hq). rewrite P in Eq. injection Eq as <-. apply H in Hq. contradiction.
Qed.

Lemma data_claim {D} now (s : source D) (t : target) a b : fits_in s t -> so_ids s <> [] -> Forall supported (m_ents (so_mdl s)) ->
  scale_ok (ta_scale t) -> unit_length (m_unit (so_mdl s)) = Some a -> unit_length (ta_unit t) = Some b ->
  exists r sc items ws, Export now false s t = Some r /\ handed r (ta_unit t) sc items ws /\ (sc == ta_scale t)%Q /\
    all_rescaled (ta_scale t * a) (m_scale (so_mdl s) * b) (m_ents (so_mdl s)) items /\
    Forall2 (weighs (so_grad s) (ta_grad t)) (so_weights s) ws /\ Forall (in_range (ta_grad t)) ws.
Proof.
  intros M N F T A B. destruct (export_data now s t M N) as (r & m & vs & E & Em & W & R & H).
  destruct (convert_right (so_mdl s) t a b (mg_sound _ _ _ _ _ _ _ M) F (mg_scale _ _ _ _ _ _ _ M) T A B) as (m' & Em' & U & Sc & Al).
  rewrite Em in Em'. injection Em' as <-. exists r, (m_scale m), (m_ents m), vs. rewrite U in H. auto 10.
Qed.

Lemma weights_claim mine theirs w v : 1 <= mine -> 1 <= theirs -> weighs mine theirs w v ->
  (mine = theirs -> v = w) /\ (theirs < mine -> 0 < w -> v = 1) /\ (forall k, theirs = k * mine -> v = k * w) /\
  (forall w' v', weighs mine theirs w' v' -> w <= w' -> v <= v').
Proof.
  intros A B W. split; [intros <-; now apply (weighs_same mine)|]. split; [intros H P; eapply weighs_coarser; eauto; lia|]. split.
  - intros k ->. destruct W as [[-> ->]|[P ->]].
    + lia.
    + rewrite Z.div_mul by lia. assert (0 < k) by nia. nia.
  - intros w' v' W' L. assert (Q : 0 <= theirs / mine) by (apply Z.div_pos; lia).
    destruct W as [[-> ->]|[P ->]], W' as [[-> ->]|[P' ->]]; nia.
Qed.

(** ** What goes wrong without being told *)

Lemma same_model {D} now (s : source D) (t : target) : fits_in s t -> so_ids s <> [] -> convert (so_mdl s) t = Some (so_mdl s) ->
  exists r ws, Export now false s t = Some r /\
    handed r (m_unit (so_mdl s)) (m_scale (so_mdl s)) (m_ents (so_mdl s)) ws.
Proof.
  intros M N C. destruct (export_data now s t M N) as (r & m & vs & E & Em & _ & _ & H). rewrite C in Em. injection Em as <-. eauto.
Qed.
Lemma custom_claim {D} now (s : source D) (t : target) : fits_in s t -> so_ids s <> [] ->
  (m_unit (so_mdl s) <> ta_unit t /\ (m_unit (so_mdl s) = 3 \/ ta_unit t = 3) /\ (m_scale (so_mdl s) == ta_scale t)%Q) \/
  (m_unit (so_mdl s) = ta_unit t /\ ~ scale_ok (ta_scale t) /\ ~ (m_scale (so_mdl s) == ta_scale t)%Q) ->
  exists r ws, Export now false s t = Some r /\
    handed r (m_unit (so_mdl s)) (m_scale (so_mdl s)) (m_ents (so_mdl s)) ws.
Proof.
  intros M N [(A & B & C)|(A & B & C)]; apply same_model; auto; [now apply convert_custom|now apply convert_bad_scale].
Qed.
Lemma half_claim {D} now (s : source D) (t : target) a b l1 it l2 : fits_in s t -> so_ids s <> [] -> (m_scale (so_mdl s) == ta_scale t)%Q ->
  m_unit (so_mdl s) <> ta_unit t -> unit_length (m_unit (so_mdl s)) = Some a -> unit_length (ta_unit t) = Some b ->
  m_ents (so_mdl s) = l1 ++ it :: l2 -> Forall supported l1 -> ~ supported it ->
  exists r sc l1' ws, Export now false s t = Some r /\ handed r (m_unit (so_mdl s)) sc (l1' ++ it :: l2) ws /\ length l1' = length l1 /\ ~ (a == b)%Q /\
    forall i x x', nth_error l1 i = Some x -> nth_error l1' i = Some x' -> item_rescaled (m_ents (so_mdl s)) a b i x x'.
Proof.
  intros M N Sc U UA UB E F NS. destruct (export_data now s t M N) as (r & m & vs & X & Em & _ & _ & H).
  destruct (convert_half (so_mdl s) t a b l1 it l2 Sc U UA UB (mg_sound _ _ _ _ _ _ _ M) E F NS) as (m' & l1' & Em' & U' & E' & L & AB & R).
  rewrite Em in Em'. injection Em' as <-. exists r, (m_scale m), l1', vs. split; [exact X|]. rewrite U', E' in H. auto.
Qed.
Lemma no_gradations {D} now self (s : source D) (t : target) : so_ids s <> [] -> so_grad s = 0 -> Export now self s t = None.
Proof.
  intros N Z0. unfold Export, rate. rewrite Z0. cbn [Z.eqb]. destruct (so_ids s); [contradiction|]. destruct (convert _ _); reflexivity.
Qed.

(** ** Names *)

Lemma directory_claim now b d1 d2 c : d1 <> [] -> ~ In "."%char d2 -> ~ In "."%char c ->
  package_name now b (d1 ++ "."%char :: d2 ++ "/"%char :: c) = d1.
Proof.
  intros N A B. assert (F : d1 ++ "."%char :: d2 ++ "/"%char :: c <> []) by (destruct d1; discriminate).
  eapply without_fun; [apply package_name_ok; exact F|]. left. exists (d2 ++ "/"%char :: c). split; [reflexivity|]. split; [|exact N].
  intros I. apply in_app_or in I. destruct I as [I|[I|I]]; [contradiction|discriminate|contradiction].
Qed.
Lemma name_claim {D} now (s : source D) (t : target) l k : fits_in s t -> contents (ta_graph t) (so_ids s) l -> l <> [] ->
  picked (on_top (ta_graph t)) (so_ids s) k ->
  exists h p name s' items ws, Export now false s t = Some (Packed h p name s' items ws) /\
    (forall base, without_extension (so_file s) base -> so_file s <> [] -> name = base) /\
    (forall d1 d2 c, so_file s = d1 ++ "."%char :: d2 ++ "/"%char :: c -> d1 <> [] -> ~ In "."%char d2 -> ~ In "."%char c -> name = d1) /\
    (so_file s = [] -> name = if Nat.ltb 1 (length k) then GetNewAssemblyName now else GetNewPartName now).
Proof.
  intros M C N K. destruct (export_name now s t l k M C N K) as (h & p & name & s' & items & ws & E & A & B).
  exists h, p, name, s', items, ws. split; [exact E|]. split; [|split; [|exact B]].
  - intros base W F. eapply without_fun; eauto.
  - intros d1 d2 c F N1 N2 N3. assert (F' : so_file s <> []) by (rewrite F; destruct d1; discriminate).
    specialize (A F'). rewrite F in A. eapply without_fun; [exact A|]. left. exists (d2 ++ "/"%char :: c). split; [reflexivity|]. split; [|exact N1].
    intros I. apply in_app_or in I. destruct I as [I|[I|I]]; [contradiction|discriminate|contradiction].
Qed.

(** ** Nesting *)

Lemma nesting_claim g p : reached g -> no_network g -> live g p ->
  (forall k, deepest g p k -> depth_level (S k) g p = Some (Z.of_nat k)) /\
  (forall fuel d, depth_level fuel g p = Some d -> 0 <= d /\ deepest g p (Z.to_nat d)) /\
  (within g p p -> forall fuel, depth_level fuel g p = None).
Proof.
  intros R N L. pose proof (inv_consistent _ (reached_inv _ R)) as C. destruct (depth_claim g p N C L) as [A B].
  split; [exact A|]. split; [intros f d; now apply depth_ok|]. intros W. apply B. now apply circle_endless.
Qed.

Lemma self_claim {D} now (s : source D) g l : reached g -> typeless_nulls g -> (forall i n, In i (g_ents g) -> look g i = Some n -> n_own n = true) ->
  so_ids s = g_ents g -> 1 <= so_grad s <= 2147483647 -> Forall (in_range (so_grad s)) (so_weights s) ->
  contents g (g_ents g) l -> l <> [] ->
  exists h p n name s' items ws, Export now true s (mkTarget g (m_unit (so_mdl s)) (m_scale (so_mdl s)) (so_grad s)) = Some (Packed h p name s' items ws) /\
    so_ids s' = [] /\ g_ents h = [] /\ look h p = Some n /\ n_type n = 308 /\ n_items n = l /\ forall i, live g i -> live h i.
Proof.
  intros R T O Ei G W C N. pose proof (reached_inv _ R) as I.
  destruct (export_self g (inv_consistent _ I) (g_fresh _ _ (proj1 I)) T O now s l Ei G W C N) as (h & n & name & s' & items & ws & E & _ & A & B & L & Ty & It & K).
  exists h, (g_next g), n, name, s', items, ws. auto 10.
Qed.

(** ** For the concrete cases *)

Lemma contents_case g src a : side_by_side g src -> sort_all g src = Some a ->
  contents g src (match ss a, tp a with [], [] => br a | [], l => l | l, _ => l end) /\ picked (on_top g) src (ss a).
Proof. intros S0 E. destruct (members_ok g src S0) as (a' & E' & K & C). rewrite E in E'. injection E' as <-. auto. Qed.
Definition made (l : list op) : graph := match runs l empty_graph with Some g => g | None => empty_graph end.
Definition type_okb (_ : nat) (n : node) : bool := (negb (n_null n) || (n_type n =? 0)) && negb (n_type n =? 320).
Lemma made_case l : tidy_runb l empty_graph = true -> (match runs l empty_graph with Some _ => true | None => false end) = true ->
  every (made l) type_okb = true -> reached (made l) /\ typeless_nulls (made l) /\ no_network (made l).
Proof.
  intros T R E. assert (X : reached (made l)).
  { apply tidy_case in T. unfold made. destruct (runs l empty_graph) as [g|] eqn:Q; [|discriminate]. eapply reached_hist; [exact T|exact Q]. }
  split; [exact X|]. pose proof (every_ok _ _ (proj1 (reached_inv _ X)) E) as K. unfold type_okb in K.
  split; intros i n L; specialize (K i n L); cbv beta in K; intros; destruct (n_null n), (n_type n =? 0) eqn:A, (n_type n =? 320) eqn:B; cbn in K; try discriminate; lia.
Qed.
