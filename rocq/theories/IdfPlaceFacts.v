(** Proofs about the components of a board. *)

From Coq Require Import Lia Lqa.
From Verif Require Import Base Num IoModel IdfText IdfPlace Spec NumFacts RealFacts IdfSpec IdfFacts IdfNum IdfRound IdfLine IdfPlaceSpec.
Open Scope Z_scope.

(** ** The order of names *)

Lemma code_inj a b : code a = code b -> a = b.
Proof. unfold code. intros H. apply N2Z.inj in H. rewrite <- (ascii_N_embedding a), <- (ascii_N_embedding b). congruence. Qed.

Lemma ltb_before a : forall b, str_ltb a b = true <-> comes_before a b.
Proof.
  induction a as [|x a IH]; intros [|y b]; cbn [str_ltb].
  - split; [discriminate|]. intros (p & a' & b' & A & B & H). destruct p; [|discriminate]. cbn in *. subst. destruct H.
  - split; [|reflexivity]. intros _. exists [], [], (y :: b). cbn. auto.
  - split; [discriminate|]. intros (p & a' & b' & A & B & H). destruct p; [|discriminate]. cbn in *. subst. destruct H.
  - rewrite orb_true_iff, andb_true_iff, Z.ltb_lt, Z.eqb_eq, IH. split.
    + intros [H|[E (p & a' & b' & -> & -> & H)]].
      * exists [], (x :: a), (y :: b). cbn. auto.
      * apply code_inj in E. subst y. exists (x :: p), a', b'. cbn. auto.
    + intros ([|z p] & a' & b' & A & B & H).
      * cbn in *. subst. auto.
      * cbn in *. injection A as -> ->. injection B as -> ->. right. split; [reflexivity|].
        exists p, a', b'. auto.
Qed.

Lemma ltb_irrefl a : str_ltb a a = false.
Proof. induction a as [|x a IH]; [reflexivity|]. cbn [str_ltb]. rewrite Z.ltb_irrefl, Z.eqb_refl, IH. reflexivity. Qed.

Lemma ltb_trans a : forall b c, str_ltb a b = true -> str_ltb b c = true -> str_ltb a c = true.
Proof.
  induction a as [|x a IH]; intros [|y b] [|z c]; cbn [str_ltb]; try discriminate; auto.
  rewrite !orb_true_iff, !andb_true_iff, !Z.ltb_lt, !Z.eqb_eq.
  intros [H|[H1 H2]] [K|[K1 K2]]; [left; lia|left; lia|left; lia|right]. split; [lia|]. eauto.
Qed.

Lemma ltb_total a : forall b, str_eqb a b = false -> str_ltb a b = false -> str_ltb b a = true.
Proof.
  induction a as [|x a IH]; intros [|y b] E L.
  - discriminate.
  - discriminate.
  - reflexivity.
  - cbn [str_ltb] in *. apply orb_false_iff in L as [L1 L2]. apply Z.ltb_ge in L1.
    destruct (Z.eq_dec (code x) (code y)) as [C|C].
    + rewrite C in *. rewrite Z.eqb_refl, Z.ltb_irrefl in *. cbn in L2 |- *. apply IH; [|exact L2].
      apply code_inj in C. subst y. destruct (str_eqb a b) eqn:X; [|reflexivity].
      apply str_eqb_eq in X. subst. rewrite (proj2 (str_eqb_eq _ _) eq_refl) in E. discriminate.
    + replace (code y <? code x) with true by (symmetry; apply Z.ltb_lt; lia). reflexivity.
Qed.

Lemma before_irrefl a : ~ comes_before a a.
Proof. intros H. apply ltb_before in H. rewrite ltb_irrefl in H. discriminate. Qed.

Lemma before_trans a b c : comes_before a b -> comes_before b c -> comes_before a c.
Proof. rewrite <- !ltb_before. apply ltb_trans. Qed.

Lemma eqb_cases a b : (str_eqb a b = true /\ a = b) \/ (str_eqb a b = false /\ a <> b).
Proof.
  destruct (str_eqb a b) eqn:E; [left|right]; split; auto.
  - apply str_eqb_eq. exact E.
  - intros ->. rewrite (proj2 (str_eqb_eq _ _) eq_refl) in E. discriminate.
Qed.

Lemma eqb_same a : str_eqb a a = true. Proof. apply str_eqb_eq. reflexivity. Qed.

(** ** Maps *)

Section Map.
Context {A : Type}.
Implicit Types m : list (str * A).

Lemma find_put_same k v m : find k (put k v m) = Some v.
Proof.
  induction m as [|[k' v'] m IH]; cbn [put find]; [rewrite eqb_same; reflexivity|].
  destruct (eqb_cases k k') as [[-> ->]|[E N]]; cbn [find]; [rewrite eqb_same; reflexivity|].
  rewrite E. destruct (str_ltb k k'); cbn [find]; [rewrite eqb_same; reflexivity|]. rewrite E. exact IH.
Qed.

Lemma find_put_other k k' v m : k' <> k -> find k' (put k v m) = find k' m.
Proof.
  intros N. assert (X : str_eqb k' k = false) by (destruct (eqb_cases k' k) as [[_ C]|[-> _]]; [contradiction|reflexivity]).
  induction m as [|[k1 v1] m IH]; cbn [put find]; [rewrite X; reflexivity|].
  destruct (eqb_cases k k1) as [[-> ->]|[-> NK]]; cbn [find]; [rewrite X; reflexivity|].
  destruct (str_ltb k k1); cbn [find]; [rewrite X; reflexivity|]. rewrite IH. reflexivity.
Qed.

Lemma in_put x k v m : In x (map fst (put k v m)) <-> x = k \/ In x (map fst m).
Proof.
  induction m as [|[k1 v1] m IH]; cbn [put map fst In]; [intuition|].
  destruct (eqb_cases k k1) as [[-> ->]|[-> NK]]; cbn [map fst In]; [intuition|].
  destruct (str_ltb k k1); cbn [map fst In]; [intuition|]. rewrite IH. intuition.
Qed.

Lemma put_order k v m : in_order (map fst m) -> in_order (map fst (put k v m)).
Proof.
  induction m as [|[k1 v1] m IH]; cbn [put map fst]; intros O; [repeat constructor|].
  inversion O as [|? ? F O']; subst.
  destruct (eqb_cases k k1) as [[-> ->]|[E NK]]; cbn [map fst]; [constructor; auto|].
  rewrite E. destruct (str_ltb k k1) eqn:L; cbn [map fst].
  - apply ltb_before in L. constructor; [|exact O]. constructor; [exact L|].
    revert F. apply Forall_impl. intros x. apply before_trans. exact L.
  - constructor; [|auto]. apply Forall_forall. intros x I. apply in_put in I as [->|I].
    + apply ltb_before. apply ltb_total; assumption.
    + rewrite Forall_forall in F. auto.
Qed.

Lemma order_nodup l : in_order l -> NoDup l.
Proof.
  induction 1 as [|k l F O IH]; constructor; auto. intros I. rewrite Forall_forall in F.
  apply (before_irrefl k). auto.
Qed.

Lemma find_in k v m : find k m = Some v -> In (k, v) m.
Proof.
  induction m as [|[k1 v1] m IH]; cbn [find]; [discriminate|].
  destruct (eqb_cases k k1) as [[-> ->]|[-> _]]; [intros H; injection H as ->; left; reflexivity|right; auto].
Qed.

Lemma find_none k m : find k m = None <-> ~ In k (map fst m).
Proof.
  induction m as [|[k1 v1] m IH]; cbn [find map fst In]; [intuition|].
  destruct (eqb_cases k k1) as [[-> ->]|[-> N]].
  - split; [discriminate|]. intros H. exfalso. auto.
  - rewrite IH. intuition.
Qed.

Lemma in_find k v m : NoDup (map fst m) -> In (k, v) m -> find k m = Some v.
Proof.
  induction m as [|[k1 v1] m IH]; cbn [find map fst]; intros D I; [destruct I|].
  inversion D as [|? ? NI D']; subst. destruct I as [I|I].
  - injection I as -> ->. rewrite eqb_same. reflexivity.
  - destruct (eqb_cases k k1) as [[_ ->]|[-> _]]; [|auto]. exfalso. apply NI. apply (in_map fst) in I. exact I.
Qed.

Lemma in_put_iff k v k' v' m : find k m = None -> NoDup (map fst m) ->
  In (k', v') (put k v m) <-> (k' = k /\ v' = v) \/ In (k', v') m.
Proof.
  intros F D. induction m as [|[k1 v1] m IH]; cbn [put find] in *.
  - cbn. split; [intros [H|[]]; injection H as -> ->; auto|]. intros [[-> ->]|[]]. auto.
  - destruct (eqb_cases k k1) as [[E ->]|[E N]]; [rewrite E in F; discriminate|]. rewrite E in *.
    inversion D; subst. destruct (str_ltb k k1); cbn [In].
    + split; [intros [H|H]; [injection H as -> ->; auto|auto]|]. intros [[-> ->]|H]; auto.
    + rewrite IH by assumption. intuition.
Qed.

Lemma put_nodup k v m : find k m = None -> NoDup (map fst m) -> NoDup (map fst (put k v m)).
Proof.
  intros F D. induction m as [|[k1 v1] m IH]; cbn [put find map fst] in *; [repeat constructor; auto|].
  destruct (eqb_cases k k1) as [[E ->]|[E N]]; [rewrite E in F; discriminate|]. rewrite E in *.
  inversion D as [|? ? NI D']; subst. destruct (str_ltb k k1); cbn [map fst].
  - constructor; [|constructor; auto]. intros [I|I]; [congruence|]. apply find_none in F. contradiction.
  - constructor; [|auto]. rewrite in_put. intros [I|I]; [congruence|contradiction].
Qed.
End Map.

(** ** The library *)

Lemma library_put outs o : library outs -> find (uid_of o) outs = None -> (geom o <> [] \/ prt o <> []) ->
  library (put (uid_of o) o outs).
Proof.
  intros (D & L) F N. split; [apply put_nodup; assumption|].
  intros k v I. apply in_put_iff in I; auto. destruct I as [[-> ->]|I]; [|auto]. split; [reflexivity|exact N].
Qed.

Lemma underscore_not_listed outs : library outs -> find ["_"%char] outs = None.
Proof.
  intros (D & L). destruct (find ["_"%char] outs) as [o|] eqn:E; [|reflexivity].
  apply find_in in E. apply L in E as (E & N). exfalso.
  destruct (geom o) as [|g gs] eqn:G, (prt o) as [|p ps] eqn:P; cbn in E; try discriminate.
  - destruct N; congruence.
  - injection E as _ E. destruct gs; discriminate.
  - injection E as _ E. destruct gs; discriminate.
Qed.

(** What [outline_for] gives, and how the list grows. *)
Lemma outline_gets nosub n outs cur o cur' :
  library outs -> library cur -> incl outs cur -> (nosub = true -> cur = outs) ->
  outline_for nosub n cur = (o, cur') ->
  gets nosub outs n o /\ library cur' /\ incl outs cur' /\ (nosub = true -> cur' = outs).
Proof.
  intros LO LC I S. unfold outline_for.
  assert (IN : forall v, find (uid_of n) cur = Some v -> In (key_of n) (map fst outs) -> In (key_of n, v) outs).
  { intros v F K. apply in_map_iff in K as ([k w] & E & K). cbn in E. subst k.
    pose proof (in_find _ _ _ (proj1 LC) (I _ K)) as X. fold (uid_of n) in X. change (key_of n) with (uid_of n) in X.
    rewrite F in X. injection X as ->. exact K. }
  destruct (find (uid_of n) cur) as [v|] eqn:F.
  - intros H. injection H as <- <-. split; [|auto]. destruct nosub; cbn [gets].
    + rewrite (S eq_refl) in F. apply find_in in F. exact F.
    + exists v. split; [reflexivity|]. split; [apply IN; reflexivity|].
      pose proof (find_in _ _ _ F) as K. destruct (proj2 LC _ _ K) as (E & NE).
      split; [intros _; symmetry; exact E|].
      intros G P. exfalso. unfold uid_of in F. rewrite G, P in F. cbn [app] in F.
      rewrite (underscore_not_listed cur LC) in F. discriminate.
  - destruct nosub.
    + intros H. injection H as <- <-. split; [|auto]. cbn. rewrite (S eq_refl) in F. apply find_none in F. exact F.
    + set (n' := match geom n with [] => match prt n with [] => mkNames (S2 "NOGEOM") (S2 "NOPART") | _ => n end | _ => n end).
      assert (NN : geom n' <> [] \/ prt n' <> []).
      { unfold n'. destruct (geom n) as [|g gs] eqn:G; [destruct (prt n) as [|p ps] eqn:P|]; [left; discriminate|right; congruence|left; congruence]. }
      assert (KN : (geom n <> [] \/ prt n <> []) -> n' = n).
      { unfold n'. destruct (geom n) as [|g gs]; [destruct (prt n) as [|p ps]|]; auto. intros [H|H]; congruence. }
      assert (KE : geom n = [] -> prt n = [] -> key_of n' = S2 "NOGEOM_NOPART") by (unfold n'; intros -> ->; reflexivity).
      assert (NI : ~ In (key_of n) (map fst outs)).
      { intros K. apply in_map_iff in K as ([k w] & E & K). cbn in E. subst k. apply I in K.
        apply find_none in F. apply F. apply (in_map fst) in K. exact K. }
      destruct (find (uid_of n') cur) as [w|] eqn:F'; intros H; injection H as <- <-.
      * split; [|split; [exact LC|split; [exact I|discriminate]]]. exists w. split; [reflexivity|]. split; [tauto|].
        pose proof (proj2 LC _ _ (find_in _ _ _ F')) as (E & _). split.
        -- intros Q. rewrite (KN Q) in F'. congruence.
        -- intros G P. rewrite <- (KE G P). symmetry. exact E.
      * split; [|split; [apply library_put; assumption|split; [|discriminate]]].
        -- exists n'. split; [reflexivity|]. split; [tauto|]. split; [|exact KE]. intros Q. rewrite (KN Q). reflexivity.
        -- intros [k v] K. apply in_put_iff; [exact F'|exact (proj1 LC)|]. right. apply I. exact K.
Qed.

(** ** The relations as functions *)

Definition pickf {A} (k : str) (l : list (str * A)) : list A := map snd (filter (fun x => str_eqb (fst x) k) l).

Lemma pickf_pick {A} k (l : list (str * A)) : pick k l (pickf k l).
Proof.
  unfold pickf. induction l as [|[k' a] l IH]; cbn [filter fst map]; [constructor|].
  destruct (eqb_cases k' k) as [[-> ->]|[-> N]]; cbn [map snd]; constructor; auto.
Qed.

Lemma pick_fun {A} k (l : list (str * A)) p : pick k l p -> p = pickf k l.
Proof.
  unfold pickf. induction 1 as [|a l p P IH|k' a l p N P IH]; cbn [filter fst]; [reflexivity| |].
  - rewrite eqb_same. cbn [map snd]. congruence.
  - destruct (eqb_cases k' k) as [[_ C]|[-> _]]; [contradiction|exact IH].
Qed.

Lemma pickf_app {A} k (l m : list (str * A)) : pickf k (l ++ m) = pickf k l ++ pickf k m.
Proof. unfold pickf. rewrite filter_app, map_app. reflexivity. Qed.

Lemma pickf_in {A} k (l : list (str * A)) a : In a (pickf k l) <-> In (k, a) l.
Proof.
  unfold pickf. rewrite in_map_iff. split.
  - intros ([k' a'] & E & I). cbn in E. subst. apply filter_In in I as [I E]. cbn in E. apply str_eqb_eq in E. subst. exact I.
  - intros I. exists (k, a). split; [reflexivity|]. apply filter_In. split; [exact I|apply eqb_same].
Qed.

Definition boardb (d : drill) : bool := compare_token "BOARD" (ref_name (dr_ref d)) || compare_token "PANEL" (ref_name (dr_ref d)).

Lemma boardb_iff d : boardb d = true <-> on_board d.
Proof.
  unfold boardb, on_board. destruct (dr_ref d) as [| | |s]; cbn [ref_name]; try (vm_compute; intuition; discriminate).
  rewrite orb_true_iff. rewrite (keyword_same "BOARD" s (capitals "BOARD" eq_refl)), (keyword_same "PANEL" s (capitals "PANEL" eq_refl)). reflexivity.
Qed.

Lemma owner_ref d : boardb d = false -> ref_name (dr_ref d) = owner_name d.
Proof. unfold boardb, owner_name. destruct (dr_ref d); [discriminate|reflexivity|discriminate|reflexivity]. Qed.

Fixpoint holesf (k : str) (es : list event) : list drill :=
  match es with
  | [] => []
  | Put _ :: es' => holesf k es'
  | Hole d :: es' => if negb (boardb d) && str_eqb (owner_name d) k then d :: holesf k es' else holesf k es'
  end.

Lemma holesf_of k es : holes_of k es (holesf k es).
Proof.
  induction es as [|[d|r] es IH]; cbn [holesf]; [constructor| |constructor; exact IH].
  destruct (boardb d) eqn:B; cbn [negb andb].
  - constructor; [|exact IH]. left. apply boardb_iff. exact B.
  - assert (NB : ~ on_board d) by (rewrite <- boardb_iff; congruence).
    destruct (eqb_cases (owner_name d) k) as [[-> E]|[-> E]]; constructor; auto.
Qed.

Lemma holesf_app k es es' : holesf k (es ++ es') = holesf k es ++ holesf k es'.
Proof.
  induction es as [|[d|r] es IH]; cbn [holesf app]; [reflexivity| |exact IH].
  destruct (negb (boardb d) && str_eqb (owner_name d) k); rewrite IH; reflexivity.
Qed.

Lemma holesf_in k es d : In d (holesf k es) <-> In (Hole d) es /\ ~ on_board d /\ owner_name d = k.
Proof.
  induction es as [|[d'|r] es IH]; cbn [holesf In].
  - intuition.
  - destruct (boardb d') eqn:B; cbn [negb andb].
    + rewrite IH. split; [intuition|]. intros ([H|H] & N & E); [|auto]. injection H as ->. apply boardb_iff in B. contradiction.
    + assert (NB : ~ on_board d') by (rewrite <- boardb_iff; congruence).
      destruct (eqb_cases (owner_name d') k) as [[-> E]|[-> E]]; cbn [In]; rewrite IH.
      * split; [intros [->|H]; [auto|intuition]|]. intros ([H|H] & N & F); [injection H as ->; auto|auto].
      * split; [intuition|]. intros ([H|H] & N & F); [injection H as ->; contradiction|auto].
  - rewrite IH. split; [intuition|]. intros ([H|H] & N & F); [discriminate|auto].
Qed.

Fixpoint boardf (es : list event) : list drill :=
  match es with
  | [] => []
  | Put _ :: es' => boardf es'
  | Hole d :: es' => if boardb d then d :: boardf es' else boardf es'
  end.

Lemma boardf_of es : board_holes es (boardf es).
Proof.
  induction es as [|[d|r] es IH]; cbn [boardf]; [constructor| |constructor; exact IH].
  destruct (boardb d) eqn:B; constructor; auto; rewrite <- boardb_iff; congruence.
Qed.

Lemma boardf_app es es' : boardf (es ++ es') = boardf es ++ boardf es'.
Proof.
  induction es as [|[d|r] es IH]; cbn [boardf app]; [reflexivity| |exact IH].
  destruct (boardb d); rewrite IH; reflexivity.
Qed.

Fixpoint unnamed (es : list event) : Z :=
  match es with
  | [] => 0
  | Put r :: es' => (match r_ref r with None => 1 | Some _ => 0 end) + unnamed es'
  | Hole _ :: es' => unnamed es'
  end.

Lemma unnamed_app es es' : unnamed (es ++ es') = unnamed es + unnamed es'.
Proof. induction es as [|[d|r] es IH]; cbn [unnamed app]; lia. Qed.

Lemma filed_app es : forall n es', filed n (es ++ es') = filed n es ++ filed (n + unnamed es) es'.
Proof.
  induction es as [|[d|r] es IH]; intros n es'; cbn [filed app unnamed]; [rewrite Z.add_0_r; reflexivity|apply IH|].
  destruct (r_ref r); rewrite IH; cbn [app]; [rewrite Z.add_0_l; reflexivity|]. rewrite Z.add_assoc. reflexivity.
Qed.

Lemma run_app nosub es : forall es' b, run nosub (es ++ es') b =
  match run nosub es b with Some b' => run nosub es' b' | None => None end.
Proof.
  induction es as [|e es IH]; intros es' b; cbn [run app]; [reflexivity|].
  destruct (step nosub e b); [apply IH|reflexivity].
Qed.

(** ** The board after a file *)

Definition comp_inv (nosub : bool) (outs : list (str * names)) (es : list event) (b : brd) (k : str) : Prop :=
  match find k (b_comps b) with
  | None => pickf k (filed 0 es) = [] /\ holesf k es = []
  | Some c => (pickf k (filed 0 es) <> [] \/ holesf k es <> []) /\ c_holes c = holesf k es /\ starts c /\
      Forall2 (shows nosub outs c) (pickf k (filed 0 es)) (c_pieces c)
  end.

Definition inv (nosub : bool) (outs : list (str * names)) (es : list event) (b : brd) : Prop :=
  in_order (map fst (b_comps b)) /\ b_next b = unnamed es /\
  library (b_outs b) /\ incl outs (b_outs b) /\ (nosub = true -> b_outs b = outs) /\
  b_holes b = boardf es /\ (forall k, comp_inv nosub outs es b k) /\ agree (filed 0 es).

Lemma side_eqb_eq a b : side_eqb a b = true <-> a = b.
Proof. destruct a, b; cbn; intuition discriminate. Qed.
Lemma placing_eqb_eq a b : placing_eqb a b = true <-> a = b.
Proof. destruct a, b; cbn; intuition discriminate. Qed.

Lemma agree_snoc l k r : agree l ->
  (forall r', In (k, r') l -> r_side r' = r_side r /\ r_how r' = r_how r) -> agree (l ++ [(k, r)]).
Proof.
  intros A H k' a b I J. rewrite in_app_iff in I, J. destruct I as [I|[I|[]]], J as [J|[J|[]]].
  - eauto.
  - injection J as -> ->. auto.
  - injection I as -> ->. destruct (H b J). auto.
  - injection I as -> <-. injection J as <-. auto.
Qed.

Lemma Forall2_snoc' {A B} (P : A -> B -> Prop) l m a b : Forall2 P l m -> P a b -> Forall2 P (l ++ [a]) (m ++ [b]).
Proof. intros F H. apply Forall2_app; auto. Qed.

Lemma Forall2_weaken {A B} (P P' : A -> B -> Prop) l m : (forall a b, P a b -> P' a b) -> Forall2 P l m -> Forall2 P' l m.
Proof. intros H. induction 1; constructor; auto. Qed.

Lemma Forall2_in_l {A B} (P : A -> B -> Prop) l m a : Forall2 P l m -> In a l -> exists b, In b m /\ P a b.
Proof.
  induction 1 as [|x y l m H F IH]; intros I; [destruct I|].
  destruct I as [->|I]; [exists y; split; [left; reflexivity|exact H]|]. destruct (IH I) as (b & J & K). exists b. split; [right; exact J|exact K].
Qed.

Lemma shows_ext nosub outs c c' r k : c_pos c' = c_pos c -> c_how c' = c_how c -> shows nosub outs c r k -> shows nosub outs c' r k.
Proof. intros E F (p & H). exists p. rewrite E, F. exact H. Qed.

Lemma place_inv nosub outs es b r : library outs -> inv nosub outs es b ->
  match place nosub r b with
  | Some b' => inv nosub outs (es ++ [Put r]) b'
  | None => ~ agree (filed 0 (es ++ [Put r]))
  end.
Proof.
  intros LO (O & N & LC & IC & SC & BH & C & AG). unfold place.
  set (name := match r_ref r with Some s => s | None => new_name (b_next b) end).
  set (next := match r_ref r with Some _ => b_next b | None => b_next b + 1 end).
  replace (match r_ref r with Some s => (s, b_next b) | None => (new_name (b_next b), b_next b + 1) end) with (name, next)
    by (unfold name, next; destruct (r_ref r); reflexivity).
  destruct (outline_for nosub (r_names r) (b_outs b)) as [o cur] eqn:OF.
  destruct (outline_gets nosub (r_names r) outs _ _ _ LO LC IC SC OF) as (GO & LC' & IC' & SC').
  assert (FA : filed 0 (es ++ [Put r]) = filed 0 es ++ [(name, r)]).
  { rewrite filed_app. cbn [filed]. unfold name. rewrite N. destruct (r_ref r); reflexivity. }
  assert (NX : next = unnamed (es ++ [Put r])).
  { rewrite unnamed_app. cbn [unnamed]. unfold next. rewrite N. destruct (r_ref r); lia. }
  assert (PK : forall k, pickf k (filed 0 (es ++ [Put r])) = pickf k (filed 0 es) ++ (if str_eqb name k then [r] else [])).
  { intros k. rewrite FA, pickf_app. f_equal. unfold pickf. cbn [filter fst]. destruct (str_eqb name k); reflexivity. }
  assert (HK : forall k, holesf k (es ++ [Put r]) = holesf k es) by (intros k; rewrite holesf_app; cbn; apply app_nil_r).
  assert (BK : boardf (es ++ [Put r]) = boardf es) by (rewrite boardf_app; cbn; apply app_nil_r).
  assert (DONE : forall c, c_holes c = holesf name es -> starts c ->
            Forall2 (shows nosub outs c) (pickf name (filed 0 es) ++ [r]) (c_pieces c) ->
            (forall r', In (name, r') (filed 0 es) -> r_side r' = r_side r /\ r_how r' = r_how r) ->
            inv nosub outs (es ++ [Put r]) (mkBrd (put name c (b_comps b)) next cur (b_holes b))).
  { intros c CH ST FC AR. unfold inv. cbn [b_comps b_next b_outs b_holes].
    split; [apply put_order; exact O|]. split; [exact NX|]. split; [exact LC'|]. split; [exact IC'|]. split; [exact SC'|].
    split; [rewrite BK; exact BH|]. split; [|rewrite FA; apply agree_snoc; assumption].
    intros k. unfold comp_inv. cbn [b_comps]. rewrite PK, HK.
    destruct (eqb_cases name k) as [[E <-]|[E NE]]; rewrite E.
    - rewrite find_put_same. split; [left; intros X; apply app_eq_nil in X as [_ X]; discriminate|]. auto.
    - rewrite find_put_other by congruence. rewrite app_nil_r. exact (C k). }
  pose proof (C name) as CN. unfold comp_inv in CN.
  destruct (find name (b_comps b)) as [c|] eqn:FN.
  - destruct CN as (_ & CH & ST & FC). destruct (c_pos c) as [p|] eqn:CP.
    + assert (NE : exists r0 k0 l0 m0, pickf name (filed 0 es) = r0 :: l0 /\ c_pieces c = k0 :: m0 /\ shows nosub outs c r0 k0).
      { unfold starts in ST. destruct (c_pieces c) as [|k0 m0] eqn:P; [congruence|]. inversion FC; subst. eauto 10. }
      destruct NE as (r0 & k0 & l0 & m0 & E1 & E2 & (p0 & P0 & H0 & S0 & _)).
      assert (I0 : In (name, r0) (filed 0 es)) by (apply pickf_in; rewrite E1; left; reflexivity).
      assert (p0 = p) by congruence. subst p0. rewrite H0.
      destruct (side_eqb (r_side r) (o_side p)) eqn:SE; cbn [negb].
      2: { intros AG'. assert (X : r_side r0 = r_side r).
           { apply (AG' name r0 r); rewrite FA, in_app_iff; cbn; auto. }
           rewrite <- X, <- S0, (proj2 (side_eqb_eq _ _) eq_refl) in SE. discriminate. }
      apply side_eqb_eq in SE.
      destruct (placing_eqb (r_how r) (r_how r0)) eqn:PE; cbn [negb].
      2: { intros AG'. assert (X : r_how r0 = r_how r).
           { apply (AG' name r0 r); rewrite FA, in_app_iff; cbn; auto. }
           rewrite <- X, (proj2 (placing_eqb_eq _ _) eq_refl) in PE. discriminate. }
      apply placing_eqb_eq in PE.
      apply DONE; cbn [c_holes c_pieces].
      * exact CH.
      * unfold starts in *. cbn [c_pieces]. rewrite E2 in *. exact ST.
      * apply Forall2_snoc'.
        -- revert FC. apply Forall2_weaken. intros a b'. apply shows_ext; cbn; auto.
        -- exists p. cbn [c_pos c_how o_side o_x o_y o_a k_x k_y k_a k_z k_out]. split; [auto|]. split; [congruence|]. split; [congruence|].
           split; [ring|]. split; [ring|]. split; [ring|]. auto.
      * intros r' I'. destruct (AG name r' r0 I' I0) as (A1 & A2). split; congruence.
    + assert (P : c_pieces c = []).
      { inversion FC as [|? ? ? ? (p & Q & _) ?]; subst; [reflexivity|congruence]. }
      assert (E : pickf name (filed 0 es) = []) by (rewrite P in FC; inversion FC; reflexivity).
      apply DONE; cbn [c_holes c_pieces].
      * exact CH.
      * unfold starts. cbn [c_pieces]. rewrite P. cbn. repeat split; reflexivity.
      * rewrite P, E. apply Forall2_cons; [|constructor]. eexists. split; [reflexivity|]. cbn [c_pos c_how o_side o_x o_y o_a k_x k_y k_a k_z k_out]. split; [reflexivity|]. split; [reflexivity|].
        split; [ring|]. split; [ring|]. split; [ring|]. auto.
      * intros r' I'. apply pickf_in in I'. rewrite E in I'. destruct I'.
  - destruct CN as (E & H). apply DONE; cbn [c_holes c_pieces].
    + auto.
    + unfold starts. cbn. repeat split; reflexivity.
    + rewrite E. apply Forall2_cons; [|constructor]. eexists. split; [reflexivity|]. cbn [c_pos c_how o_side o_x o_y o_a k_x k_y k_a k_z k_out]. split; [reflexivity|]. split; [reflexivity|].
      split; [ring|]. split; [ring|]. split; [ring|]. auto.
    + intros r' I'. apply pickf_in in I'. rewrite E in I'. destruct I'.
Qed.

Lemma hole_inv nosub outs es b d : inv nosub outs es b -> inv nosub outs (es ++ [Hole d]) (add_hole d b).
Proof.
  intros (O & N & LC & IC & SC & BH & C & AG). unfold add_hole. fold (boardb d).
  assert (FA : filed 0 (es ++ [Hole d]) = filed 0 es) by (rewrite filed_app; cbn; apply app_nil_r).
  assert (NX : unnamed (es ++ [Hole d]) = unnamed es) by (rewrite unnamed_app; cbn; lia).
  destruct (boardb d) eqn:B.
  - unfold inv. cbn [b_comps b_next b_outs b_holes]. rewrite FA, NX, boardf_app. cbn [boardf]. rewrite B, BH.
    split; [exact O|]. split; [exact N|]. split; [exact LC|]. split; [exact IC|]. split; [exact SC|]. split; [reflexivity|]. split; [|exact AG].
    intros k. specialize (C k). unfold comp_inv in *. cbn [b_comps].
    rewrite FA, holesf_app. cbn [holesf]. rewrite B. cbn [negb andb]. rewrite app_nil_r. exact C.
  - rewrite (owner_ref d B). set (k0 := owner_name d).
    unfold inv. cbn [b_comps b_next b_outs b_holes]. rewrite FA, NX, boardf_app. cbn [boardf]. rewrite B, BH, app_nil_r.
    split; [apply put_order; exact O|]. split; [exact N|]. split; [exact LC|]. split; [exact IC|]. split; [exact SC|]. split; [reflexivity|]. split; [|exact AG].
    intros k. pose proof (C k) as CK. unfold comp_inv in *. cbn [b_comps].
    rewrite FA, holesf_app. cbn [holesf]. rewrite B. cbn [negb andb]. fold k0.
    destruct (eqb_cases k0 k) as [[E <-]|[E NE]]; rewrite E.
    + rewrite find_put_same. split; [right; intros X; apply app_eq_nil in X as [_ X]; discriminate|].
      destruct (find k0 (b_comps b)) as [c|]; cbn [c_pos c_how c_pieces c_holes].
      * destruct CK as (_ & CH & ST & FC). split; [rewrite CH; reflexivity|]. split; [exact ST|].
        revert FC. apply Forall2_weaken. intros x y. apply shows_ext; reflexivity.
      * destruct CK as (E1 & E2). rewrite E1, E2. split; [reflexivity|]. split; [reflexivity|constructor].
    + rewrite find_put_other by congruence. rewrite app_nil_r. exact CK.
Qed.

Lemma agree_pre l m : agree (l ++ m) -> agree l.
Proof. intros A k r r' I J. apply (A k); rewrite in_app_iff; auto. Qed.

Lemma run_inv nosub outs es : library outs ->
  match run nosub es (new_board outs) with
  | Some b => inv nosub outs es b
  | None => ~ agree (filed 0 es)
  end.
Proof.
  intros L. induction es as [|e es IH] using rev_ind.
  - cbn. unfold inv, new_board. cbn. split; [constructor|]. split; [reflexivity|]. split; [exact L|]. split; [apply incl_refl|].
    split; [reflexivity|]. split; [reflexivity|]. split; [intros k; split; reflexivity|]. intros k r r' [].
  - rewrite run_app. destruct (run nosub es (new_board outs)) as [b|].
    + cbn [run]. destruct e as [d|r]; cbn [step].
      * apply hole_inv. exact IH.
      * pose proof (place_inv nosub outs es b r L IH) as P. destruct (place nosub r b); exact P.
    + intros A. apply IH. rewrite filed_app in A. eapply agree_pre. exact A.
Qed.

(** A file is accepted exactly if its records agree. *)
Lemma run_agree nosub outs es : library outs -> (run nosub es (new_board outs) <> None <-> agree (filed 0 es)).
Proof.
  intros L. pose proof (run_inv nosub outs es L) as H. destruct (run nosub es (new_board outs)) as [b|].
  - split; [intros _; apply H|discriminate].
  - split; [congruence|contradiction].
Qed.

Lemma mentioned_iff k es : mentioned k es <-> pickf k (filed 0 es) <> [] \/ holesf k es <> [].
Proof.
  unfold mentioned. split; intros [H|H].
  - destruct H as (r & I). apply pickf_in in I. left. intros E. rewrite E in I. destruct I.
  - destruct H as (d & I). apply (holesf_in k es d) in I. right. intros E. rewrite E in I. destruct I.
  - left. destruct (pickf k (filed 0 es)) as [|r l] eqn:E; [congruence|]. exists r. apply pickf_in. rewrite E. left. reflexivity.
  - right. destruct (holesf k es) as [|d l] eqn:E; [congruence|]. exists d. apply (holesf_in k es d). rewrite E. left. reflexivity.
Qed.

(** And the board then says what the file does. *)
Lemma run_board nosub outs es b : library outs -> run nosub es (new_board outs) = Some b -> board_of nosub outs es b.
Proof.
  intros L R. pose proof (run_inv nosub outs es L) as H. rewrite R in H.
  destruct H as (O & N & LC & IC & SC & BH & C & AG). split; [exact O|]. split; [|split].
  - intros k. rewrite mentioned_iff. pose proof (C k) as CK. unfold comp_inv in CK.
    destruct (find k (b_comps b)) as [c|] eqn:F.
    + split; [intros _; apply CK|]. intros _. apply find_in in F. apply (in_map fst) in F. exact F.
    + split; [intros I; apply find_none in F; contradiction|]. destruct CK as (-> & ->). intros [X|X]; congruence.
  - intros k c I. pose proof (C k) as CK. unfold comp_inv in CK.
    rewrite (in_find _ _ _ (order_nodup _ O) I) in CK. destruct CK as (_ & CH & ST & FC).
    split; [rewrite CH; apply holesf_of|]. split; [exact ST|]. exists (pickf k (filed 0 es)). split; [apply pickf_pick|exact FC].
  - rewrite BH. apply boardf_of.
Qed.

(** ** Instances *)

Definition bodies (built : str -> bool) (l : list prec) : list prec := filter (fun r => built (key_of (r_names r))) l.

Lemma bodies_with built l : with_body built l (bodies built l).
Proof.
  unfold bodies. induction l as [|r l IH]; cbn [filter]; [constructor|].
  destruct (built (key_of (r_names r))) eqn:E; constructor; auto.
Qed.

Lemma with_bodies built l p : with_body built l p -> p = bodies built l.
Proof.
  unfold bodies. induction 1 as [|r l p B W IH|r l p B W IH]; cbn [filter]; [reflexivity| |]; rewrite B; congruence.
Qed.

Lemma piece_insts_shows built nosub outs c k : library outs -> forall rs ks,
  Forall2 (shows nosub outs c) rs ks ->
  match piece_insts built k (c_pos c) ks with
  | None => exists p, In p ks /\ k_out p = None
  | Some l => (forall p, In p ks -> k_out p <> None) /\
      ((nosub = false -> forall r, In r rs -> geom (r_names r) <> [] \/ prt (r_names r) <> []) ->
       Forall2 (made_of k) (bodies built rs) l)
  end.
Proof.
  intros L rs ks F. induction F as [|r q rs ks S F IH]; cbn [piece_insts].
  { split; [intros p []|]. intros _. constructor. }
  destruct S as (p & CP & CH & SD & EX & EY & EA & EZ & G).
  destruct (k_out q) as [o|] eqn:KO; [|exists q; split; [left; reflexivity|exact KO]].
  rewrite CP in *. destruct (piece_insts built k (Some p) ks) as [l|].
  2: { destruct IH as (p' & I & E). exists p'. split; [right; exact I|exact E]. }
  destruct IH as (IN & IH).
  assert (KEY : (nosub = false -> geom (r_names r) <> [] \/ prt (r_names r) <> []) -> uid_of o = key_of (r_names r)).
  { intros Q. destruct nosub; cbn [gets] in G.
    - cbn in G. destruct (proj2 L _ _ G) as (E & _). symmetry. exact E.
    - destruct G as (o' & E & _ & K & _). injection E as <-. exact (K (Q eq_refl)). }
  assert (IN' : forall x, In x (q :: ks) -> k_out x <> None).
  { intros x [<-|I]; [congruence|auto]. }
  assert (MD : (nosub = false -> geom (r_names r) <> [] \/ prt (r_names r) <> []) ->
    made_of k r (mkInst (uid_of o) k (k_x q + o_x p) (k_y q + o_y p) (k_z q) (k_a q + o_a p) (side_eqb (o_side p) Bottom))).
  { intros Q. unfold made_of. cbn [i_uid i_label i_x i_y i_z i_a i_bottom]. split; [apply KEY; exact Q|]. split; [reflexivity|].
    split; [rewrite Qplus_comm; exact EX|]. split; [rewrite Qplus_comm; exact EY|]. split; [exact EZ|].
    split; [rewrite Qplus_comm; exact EA|]. rewrite SD. destruct (r_side r); cbn; split; congruence. }
  destruct (built (uid_of o)) eqn:BU; (split; [exact IN'|]); intros Q.
  - unfold bodies. cbn [filter].
    assert (QR : nosub = false -> geom (r_names r) <> [] \/ prt (r_names r) <> []) by (intros E; apply Q; [exact E|left; reflexivity]).
    rewrite <- (KEY QR), BU. constructor; [apply MD; exact QR|]. apply IH. intros E r' I. apply Q; [exact E|right; exact I].
  - unfold bodies. cbn [filter].
    assert (QR : nosub = false -> geom (r_names r) <> [] \/ prt (r_names r) <> []) by (intros E; apply Q; [exact E|left; reflexivity]).
    rewrite <- (KEY QR), BU. apply IH. intros E r' I. apply Q; [exact E|right; exact I].
Qed.

Definition of_label (k : str) (l : list inst) : list inst := filter (fun i => str_eqb (i_label i) k) l.

Lemma piece_label built k p ks l : piece_insts built k p ks = Some l -> Forall (fun i => i_label i = k) l.
Proof.
  revert l. induction ks as [|q ks IH]; intros l; cbn [piece_insts]; [intros H; injection H as <-; constructor|].
  destruct (k_out q) as [o|]; [|discriminate]. destruct (piece_insts built k p ks) as [l'|]; [|discriminate].
  destruct p as [p|]; cbv beta iota zeta.
  - destruct (built (uid_of o)); intros H; injection H as <-; auto.
  - destruct (built (uid_of o)); intros H; injection H as <-; auto.
Qed.

Lemma label_all k l : Forall (fun i => i_label i = k) l -> of_label k l = l.
Proof. induction 1 as [|i l E F IH]; [reflexivity|]. unfold of_label in *. cbn [filter]. rewrite E, eqb_same, IH. reflexivity. Qed.

Lemma label_none k k' l : k <> k' -> Forall (fun i => i_label i = k) l -> of_label k' l = [].
Proof.
  intros N. induction 1 as [|i l E F IH]; [reflexivity|]. unfold of_label in *. cbn [filter]. rewrite E.
  destruct (eqb_cases k k') as [[_ C]|[-> _]]; [contradiction|exact IH].
Qed.

Lemma instances_labels built cs : forall l, instances built cs = Some l ->
  forall i, In i l -> In (i_label i) (map fst cs).
Proof.
  induction cs as [|[n c] cs IH]; intros l; cbn [instances]; [intros H; injection H as <-; intros i []|].
  destruct (piece_insts built n (c_pos c) (c_pieces c)) as [a|] eqn:PA; [|discriminate].
  destruct (instances built cs) as [r|] eqn:R; [|discriminate]. intros H. injection H as <-. intros i I.
  apply in_app_iff in I as [I|I].
  - pose proof (piece_label _ _ _ _ _ PA) as F. rewrite Forall_forall in F. left. symmetry. auto.
  - right. eapply IH; eauto.
Qed.

Lemma instances_by_label built cs : NoDup (map fst cs) -> forall l, instances built cs = Some l ->
  forall k, match find k cs with
            | Some c => piece_insts built k (c_pos c) (c_pieces c) = Some (of_label k l)
            | None => of_label k l = []
            end.
Proof.
  induction cs as [|[n c] cs IH]; intros D l; cbn [instances].
  - intros H k. injection H as <-. reflexivity.
  - destruct (piece_insts built n (c_pos c) (c_pieces c)) as [a|] eqn:PA; [|discriminate].
    destruct (instances built cs) as [r|] eqn:R; [|discriminate]. intros H k. injection H as <-.
    inversion D as [|? ? NI D']; subst. cbn [find]. unfold of_label. rewrite filter_app.
    fold (of_label k a). fold (of_label k r). pose proof (piece_label _ _ _ _ _ PA) as F.
    destruct (eqb_cases k n) as [[-> ->]|[-> N]].
    + rewrite (label_all _ _ F). pose proof (IH D' r eq_refl n) as X. apply find_none in NI. rewrite NI in X. rewrite X, app_nil_r. exact PA.
    + rewrite (label_none n k a ltac:(congruence) F). exact (IH D' r eq_refl k).
Qed.

Lemma instances_some built cs : (forall n c, In (n, c) cs -> piece_insts built n (c_pos c) (c_pieces c) <> None) ->
  instances built cs <> None.
Proof.
  induction cs as [|[n c] cs IH]; intros H; cbn [instances]; [discriminate|].
  pose proof (H n c (or_introl eq_refl)) as A. destruct (piece_insts built n (c_pos c) (c_pieces c)); [|congruence].
  pose proof (IH (fun n c I => H n c (or_intror I))) as B. destruct (instances built cs); [discriminate|congruence].
Qed.

Lemma instances_none built cs n c : In (n, c) cs -> piece_insts built n (c_pos c) (c_pieces c) = None -> instances built cs = None.
Proof.
  induction cs as [|[n' c'] cs IH]; intros I E; cbn [instances]; [destruct I|].
  destruct I as [I|I].
  - injection I as -> ->. rewrite E. reflexivity.
  - rewrite (IH I E). destruct (piece_insts built n' (c_pos c') (c_pieces c')); reflexivity.
Qed.

Lemma pieces_defined built k p ks : (forall q, In q ks -> k_out q <> None) -> piece_insts built k p ks <> None.
Proof.
  induction ks as [|q ks IH]; intros H; cbn [piece_insts]; [discriminate|].
  destruct (k_out q) as [o|] eqn:E; [|exfalso; eapply H; [left; reflexivity|exact E]].
  pose proof (IH (fun q I => H q (or_intror I))) as X. destruct (piece_insts built k p ks); [|congruence].
  destruct p; cbv beta iota zeta; destruct (built (uid_of o)); discriminate.
Qed.

(** Following a NULL outline: exactly if substitutes are off and a part is not in the
    library. *)
Lemma instances_undefined nosub outs es b built : library outs -> run nosub es (new_board outs) = Some b ->
  (instances built (b_comps b) = None <->
   nosub = true /\ exists k r, In (k, r) (filed 0 es) /\ ~ In (key_of (r_names r)) (map fst outs)).
Proof.
  intros L R. pose proof (run_board nosub outs es b L R) as (O & M & C & _).
  assert (GN : forall r q c, shows nosub outs c r q -> (k_out q = None <-> nosub = true /\ ~ In (key_of (r_names r)) (map fst outs))).
  { intros r q c (p & _ & _ & _ & _ & _ & _ & _ & G). destruct nosub; cbn [gets] in G.
    - destruct (k_out q) as [o|]; cbn in G.
      + split; [discriminate|]. intros (_ & X). exfalso. apply X. apply (in_map fst) in G. exact G.
      + tauto.
    - destruct G as (o & -> & _). split; [discriminate|]. intros (X & _). discriminate. }
  split.
  - intros E.
    assert (X : exists n c, In (n, c) (b_comps b) /\ exists q, In q (c_pieces c) /\ k_out q = None).
    { revert E. generalize (b_comps b). intros cs. induction cs as [|[n c] cs IH]; cbn [instances]; [discriminate|].
      destruct (piece_insts built n (c_pos c) (c_pieces c)) as [a|] eqn:PA.
      - destruct (instances built cs); [discriminate|]. intros _. destruct (IH eq_refl) as (n' & c' & I & Q).
        exists n', c'. split; [right; exact I|exact Q].
      - intros _. exists n, c. split; [left; reflexivity|].
        destruct (existsb (fun q => match k_out q with None => true | Some _ => false end) (c_pieces c)) eqn:EX.
        + apply existsb_exists in EX as (q & I & K). exists q. split; [exact I|]. destruct (k_out q); [discriminate|reflexivity].
        + exfalso. eapply pieces_defined; [|exact PA]. intros q I K.
          assert (Y : existsb (fun q => match k_out q with None => true | Some _ => false end) (c_pieces c) = true).
          { apply existsb_exists. exists q. rewrite K. auto. }
          congruence. }
    destruct X as (n & c & I & q & IQ & KQ). destruct (C n c I) as (_ & _ & rs & PK & F).
    assert (Y : exists r, In r rs /\ shows nosub outs c r q).
    { clear - F IQ. induction F as [|r q' rs ks S F IH]; [destruct IQ|]. destruct IQ as [->|IQ].
      - exists r. split; [left; reflexivity|exact S].
      - destruct (IH IQ) as (r' & I & S'). exists r'. split; [right; exact I|exact S']. }
    destruct Y as (r & IR & S). apply (GN r q c S) in KQ as (E1 & E2). split; [exact E1|].
    exists n, r. split; [|exact E2]. apply pickf_in. rewrite <- (pick_fun _ _ _ PK). exact IR.
  - intros (E1 & k & r & I & NI).
    assert (MK : In k (map fst (b_comps b))) by (apply M; left; exists r; exact I).
    apply in_map_iff in MK as ([k' c] & EK & IC). cbn in EK. subst k'.
    destruct (C k c IC) as (_ & _ & rs & PK & F). pose proof (pick_fun _ _ _ PK) as ->.
    apply pickf_in in I. destruct (Forall2_in_l _ _ _ _ F I) as (q & IQ & S).
    apply (instances_none built _ k c IC).
    pose proof (piece_insts_shows built nosub outs c k L _ _ F) as P.
    destruct (piece_insts built k (c_pos c) (c_pieces c)) as [l|]; [|reflexivity].
    destruct P as (P & _). exfalso. apply (P q IQ). apply (GN r q c S). auto.
Qed.

(** Otherwise there is one instance for each record which has a body, in its place. *)
Lemma instances_made nosub outs es b built l : library outs -> run nosub es (new_board outs) = Some b ->
  (forall k r, In (k, r) (filed 0 es) -> geom (r_names r) <> [] \/ prt (r_names r) <> []) ->
  instances built (b_comps b) = Some l ->
  forall k rs, pick k (filed 0 es) rs -> exists rs', with_body built rs rs' /\
    Forall2 (made_of k) rs' (filter (fun i => str_eqb (i_label i) k) l).
Proof.
  intros L R NE E k rs PK. pose proof (run_board nosub outs es b L R) as (O & M & C & _).
  exists (bodies built rs). split; [apply bodies_with|].
  pose proof (instances_by_label built _ (order_nodup _ O) l E k) as X. fold (of_label k l).
  destruct (find k (b_comps b)) as [c|] eqn:F.
  - apply find_in in F. destruct (C k c F) as (_ & _ & rs' & PK' & FS).
    assert (rs' = rs) by (rewrite (pick_fun _ _ _ PK), (pick_fun _ _ _ PK'); reflexivity). subst rs'.
    pose proof (piece_insts_shows built nosub outs c k L _ _ FS) as P. rewrite X in P.
    apply P. intros _ r I. apply (NE k). apply pickf_in. rewrite <- (pick_fun _ _ _ PK). exact I.
  - rewrite X. assert (Z : rs = []).
    { rewrite (pick_fun _ _ _ PK). destruct (pickf k (filed 0 es)) as [|r l'] eqn:Q; [reflexivity|]. exfalso.
      apply find_none in F. apply F. apply M. left. exists r. apply pickf_in. rewrite Q. left. reflexivity. }
    rewrite Z. constructor.
Qed.

Lemma instances_label_known nosub outs es b built l : library outs -> run nosub es (new_board outs) = Some b ->
  instances built (b_comps b) = Some l -> forall i, In i l -> exists r, In (i_label i, r) (filed 0 es).
Proof.
  intros L R E i I. pose proof (run_board nosub outs es b L R) as (O & M & C & _).
  pose proof (instances_labels built _ l E i I) as K. apply in_map_iff in K as ([k c] & EK & IC). cbn in EK. subst k.
  pose proof (instances_by_label built _ (order_nodup _ O) l E (i_label i)) as X.
  rewrite (in_find _ _ _ (order_nodup _ O) IC) in X.
  destruct (C _ c IC) as (_ & _ & rs & PK & FS). destruct rs as [|r rs].
  - assert (P : c_pieces c = []) by (inversion FS; reflexivity). rewrite P in X. cbn [piece_insts] in X. injection X as X. exfalso.
    assert (Y : In i (of_label (i_label i) l)) by (apply filter_In; split; [exact I|apply eqb_same]). rewrite <- X in Y. destruct Y.
  - exists r. apply pickf_in. rewrite <- (pick_fun _ _ _ PK). left. reflexivity.
Qed.
