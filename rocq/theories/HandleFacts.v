(* Invariants of the handles. *)
From Coq Require Import List Bool ZArith Lia.
From Verif Require Import HandleModel HandleSpec.
Import ListNotations.
Open Scope Z_scope.

Lemma upd_len {A} (l : list A) i x : length (upd l i x) = length l.
Proof. revert i; induction l; intros [|i]; simpl; auto. Qed.

Lemma get_lt {A} (l : list (option A)) i x : get l i = Some x -> (i < length l)%nat.
Proof. unfold get. intros H. apply nth_error_Some. destruct (nth_error l i); congruence. Qed.

Lemma get_upd {A} (l : list (option A)) i x j :
  get (upd l i x) j = if Nat.eqb i j && Nat.ltb i (length l) then x else get l j.
Proof.
  revert i j; induction l as [|y l IH]; intros i j.
  - cbn. rewrite andb_false_r. reflexivity.
  - destruct i as [|i], j as [|j]; try reflexivity. cbn [upd]. unfold get at 1. cbn [nth_error]. fold (get (upd l i x) j).
    rewrite IH. reflexivity.
Qed.

Lemma get_same {A} (l : list (option A)) i x : (i < length l)%nat -> get (upd l i x) i = x.
Proof. intros H. rewrite get_upd, Nat.eqb_refl. now destruct (Nat.ltb_spec i (length l)); [|lia]. Qed.
Lemma get_other {A} (l : list (option A)) i x j : i <> j -> get (upd l i x) j = get l j.
Proof. intros H. rewrite get_upd. now destruct (Nat.eqb_spec i j). Qed.
Lemma upd_id {A} (l : list (option A)) i x : get l i = Some x -> upd l i (Some x) = l.
Proof.
  revert i; induction l as [|y l IH]; intros [|i] H; cbn in *; try discriminate; try reflexivity.
  - unfold get in H. cbn in H. now subst.
  - f_equal. now apply IH.
Qed.
Lemma get_app {A} (l k : list (option A)) i : (i < length l)%nat -> get (l ++ k) i = get l i.
Proof. intros H. unfold get. now rewrite nth_error_app1. Qed.
Lemma get_app2 {A} (l k : list (option A)) i : (length l <= i)%nat -> get (l ++ k) i = get k (i - length l).
Proof. intros H. unfold get. now rewrite nth_error_app2. Qed.
Lemma get_beyond {A} (l : list (option A)) i : (length l <= i)%nat -> get l i = None.
Proof. intros H. unfold get. now rewrite (proj2 (nth_error_None l i) H). Qed.

Lemma has_in x l : has x l = true <-> In x l.
Proof.
  induction l as [|y l IH]; cbn; [intuition discriminate|]. rewrite orb_true_iff, Nat.eqb_eq, IH. intuition.
Qed.
Lemma has_not x l : has x l = false <-> ~ In x l.
Proof. rewrite <- has_in. destruct (has x l); intuition discriminate. Qed.
Lemma rem1_in x y l : NoDup l -> In y (rem1 x l) <-> In y l /\ y <> x.
Proof.
  induction 1 as [|z l Hz _ IH]; cbn; [tauto|]. destruct (Nat.eqb_spec x z) as [<-|Hn].
  - split; [intros H; split; [now right|congruence]|intros [[->|H] Hy]; congruence].
  - cbn. rewrite IH. intuition congruence.
Qed.
Lemma rem1_nodup x l : NoDup l -> NoDup (rem1 x l).
Proof.
  induction 1 as [|z l Hz N IH]; cbn; [constructor|]. destruct (Nat.eqb x z); [assumption|].
  constructor; [|assumption]. rewrite rem1_in; tauto.
Qed.
Lemma rem1_absent x l : ~ In x l -> rem1 x l = l.
Proof. induction l as [|y l IH]; cbn; [reflexivity|]. intros H. destruct (Nat.eqb_spec x y); [subst; exfalso; auto|]. f_equal. auto. Qed.

(* the pointer member a cell belongs to, and what the cell links to *)
Definition target (s : st) (c : nat) : option nat :=
  match hnd s (Nat.div2 c) with Some x => if Nat.even c then h_obj x else h_par x | None => None end.
Definition link (s : st) (c : nat) : option nat := match cell s c with Some true => target s c | _ => None end.

Lemma even_valid h : Nat.even (valid_of h) = true. Proof. unfold valid_of. apply Nat.even_spec. now exists h. Qed.
Lemma even_parent h : Nat.even (parent_of h) = false.
Proof. unfold parent_of. rewrite Nat.add_1_r, Nat.even_succ. apply Bool.not_true_is_false. intros H. apply Nat.odd_spec in H. destruct H. lia. Qed.
Lemma div_valid h : Nat.div2 (valid_of h) = h. Proof. unfold valid_of. apply Nat.div2_double. Qed.
Lemma div_parent h : Nat.div2 (parent_of h) = h. Proof. unfold parent_of. rewrite Nat.add_1_r. apply Nat.div2_succ_double. Qed.
Lemma cell_cases c : c = valid_of (Nat.div2 c) \/ c = parent_of (Nat.div2 c).
Proof.
  unfold valid_of, parent_of. pose proof (Nat.div2_odd c) as H. destruct (Nat.odd c); cbn [Nat.b2n] in H; lia.
Qed.

Lemma attached_link s h : attached s h = link s (valid_of h).
Proof. unfold attached, link, target. rewrite div_valid, even_valid. destruct (hnd s h), (cell s (valid_of h)) as [[|]|]; reflexivity. Qed.
Lemma parent_link s h : parent s h = link s (parent_of h).
Proof. unfold parent, link, target. rewrite div_parent, even_parent. destruct (hnd s h), (cell s (parent_of h)) as [[|]|]; reflexivity. Qed.

(* cell c may be linked to an object of type t *)
Definition fits (s : st) (c : nat) (t : Z) : Prop :=
  exists y, hnd s (Nat.div2 c) = Some y /\ (if Nat.even c then t = h_type y else t = -1 /\ h_type y <> -1).

Record inv (s : st) : Prop := {
  i_len : length (cells s) = (2 * length (hands s))%nat;
  i_dead : forall c, hnd s (Nat.div2 c) = None <-> cell s c = None;
  i_flags : forall o x, obj s o = Some x -> NoDup (o_flags x) /\ forall c, In c (o_flags x) -> link s c = Some o;
  i_link : forall c, cell s c = Some true -> exists o x, target s c = Some o /\ obj s o = Some x /\ In c (o_flags x) /\ fits s c (o_type x) }.

(* K are the cells concerned, D the objects destroyed *)
Record frame (K D : nat -> Prop) (s s' : st) : Prop := {
  f_objs : (length (objs s) <= length (objs s'))%nat;
  f_hands : (length (hands s) <= length (hands s'))%nat;
  f_obj : forall o, (o < length (objs s))%nat ->
    (obj s o = None -> obj s' o = None) /\
    (forall x, obj s o = Some x -> (D o -> obj s' o = None) /\
       (~ D o -> exists x', obj s' o = Some x' /\ o_type x' = o_type x));
  f_link : forall c, ~ K c -> (c < length (cells s))%nat ->
    (cell s c = None <-> cell s' c = None) /\
    (link s c = None -> link s' c = None) /\
    (forall o, link s c = Some o -> (D o -> link s' c = None) /\ (~ D o -> link s' c = Some o));
  f_gone : forall h, (h < length (hands s))%nat -> hnd s h = None -> hnd s' h = None;
  f_type : forall h x, hnd s h = Some x -> forall x', hnd s' h = Some x' -> h_type x' = h_type x }.

(* the lists of stored entities stay *)
Definition ents (s : st) (m : nat) : list nat := match obj s m with Some x => o_ents x | None => [] end.
Definition stored_same (s s' : st) : Prop := forall m x', obj s' m = Some x' -> o_ents x' = ents s m.

Definition none : nat -> Prop := fun _ => False.

Lemma stored_refl s : stored_same s s.
Proof. intros o x' H. unfold ents. now rewrite H. Qed.
Lemma obj_lt s o x : obj s o = Some x -> (o < length (objs s))%nat.
Proof. apply get_lt. Qed.
Lemma cell_lt s c b : cell s c = Some b -> (c < length (cells s))%nat.
Proof. apply get_lt. Qed.
Lemma hnd_lt s h x : hnd s h = Some x -> (h < length (hands s))%nat.
Proof. apply get_lt. Qed.

Lemma link_live s c o : inv s -> link s c = Some o -> exists x, obj s o = Some x /\ In c (o_flags x) /\ fits s c (o_type x) /\ cell s c = Some true.
Proof.
  intros I H. unfold link in H. destruct (cell s c) as [[|]|] eqn:E; try discriminate.
  destruct (i_link s I c E) as (o' & x & T & O & F & Fi). rewrite T in H. injection H as <-. eauto.
Qed.

Lemma frame_refl s : frame none none s s.
Proof.
  split; auto.
  - intros o _. split; [auto|]. intros x E. split; [intros []|]. eauto.
  - intros c _ _. split; [tauto|]. split; [auto|]. intros o E. split; [intros []|auto].
  - intros h x E x' E'. congruence.
Qed.

Lemma frame_weaken (K K' D D' : nat -> Prop) s s' : (forall c, K c -> K' c) -> (forall o, D o <-> D' o) -> frame K D s s' -> frame K' D' s s'.
Proof.
  intros HK HD [F1 F2 F3 F4 F6 F5]. split; auto.
  - intros o Ho. destruct (F3 o Ho) as [A B]. split; [auto|]. intros x E. destruct (B x E) as [B1 B2]. split; [intros X; apply B1, HD, X|intros X; apply B2; intros Y; apply X, HD, Y].
  - intros c Hc Hl. destruct (F4 c (fun X => Hc (HK c X)) Hl) as (A & B & C). split; [auto|]. split; [auto|].
    intros o E. destruct (C o E) as [C1 C2]. split; [intros X; apply C1, HD, X|intros X; apply C2; intros Y; apply X, HD, Y].
Qed.

Lemma frame_trans (K1 K2 D1 D2 : nat -> Prop) a b c : inv a -> inv b -> inv c ->
  frame K1 D1 a b -> frame K2 D2 b c -> frame (fun x => K1 x \/ K2 x) (fun x => D1 x \/ D2 x) a c.
Proof.
  intros Ia Ib Ic [F1 F2 F3 F4 F6 F5] [G1 G2 G3 G4 G6 G5]. split; try lia.
  - intros o Ho. destruct (F3 o Ho) as [A B]. destruct (G3 o ltac:(lia)) as [A' B']. split; [auto|].
    intros x E. destruct (B x E) as [B1 B2]. destruct (obj b o) as [y|] eqn:Ey.
    + destruct (B' y eq_refl) as [B1' B2']. split.
      * intros [X|X]; [|auto]. specialize (B1 X). discriminate.
      * intros X. destruct B2 as (x' & E1 & T1); [tauto|]. injection E1 as <-. destruct B2' as (x' & E2 & T2); [tauto|]. exists x'. split; [assumption|congruence].
    + split; [auto|]. intros X. destruct B2 as (x' & E1 & _); [tauto|discriminate].
  - intros k Hk Hl. destruct (F4 k ltac:(tauto) Hl) as (A & B & C).
    assert (Hl' : (k < length (cells b))%nat) by (rewrite (i_len b Ib); rewrite (i_len a Ia) in Hl; lia).
    destruct (G4 k ltac:(tauto) Hl') as (A' & B' & C'). split; [tauto|]. split; [auto|].
    intros o E. destruct (C o E) as [C1 C2]. destruct (link b k) as [o'|] eqn:Eb.
    + split.
      * intros [X|X]; [specialize (C1 X); discriminate|].
        destruct (link_live a k o Ia E) as (x & Ox & _). destruct (F3 o (obj_lt _ _ _ Ox)) as [_ P]. destruct (P x Ox) as [P1 P2].
        assert (o' = o).
        { destruct (link_live b k o' Ib Eb) as (y & Oy & Fy & _).
          destruct (obj b o) eqn:Eo.
          - destruct (link b k) eqn:?; [|discriminate]. injection Eb as ->.
            assert (~ D1 o) by (intros Y; specialize (P1 Y); discriminate). specialize (C2 H). congruence.
          - exfalso. assert (Q : ~ ~ D1 o) by (intros Y; destruct (P2 Y) as (? & ? & _); discriminate).
            apply Q. intros Y. specialize (C1 Y). discriminate. }
        subst o'. now apply (C' o eq_refl).
      * intros X. assert (Y : ~ D1 o) by tauto. specialize (C2 Y). injection C2 as ->. apply (C' o eq_refl). tauto.
    + split; [auto|]. intros X. assert (Y : ~ D1 o) by tauto. specialize (C2 Y). discriminate.
  - intros h Hh E. apply G6; [lia|]. now apply F6.
  - intros h x E x' E'. destruct (hnd b h) as [y|] eqn:Ey; [rewrite (G5 h y Ey x' E'); eauto|].
    rewrite (G6 h) in E'; [discriminate| |assumption]. pose proof (hnd_lt _ _ _ E). lia.
Qed.

Lemma empty_inv : inv empty.
Proof.
  split; cbn.
  - reflexivity.
  - intros c. unfold hnd, cell, get. cbn. now destruct (Nat.div2 c), c.
  - intros o x H. unfold obj, get in H. cbn in H. now destruct o.
  - intros c H. unfold cell, get in H. cbn in H. now destruct c.
Qed.

Lemma put_ok s c b v : cell s c = Some v -> put c b s = Some (mkSt (upd (cells s) c (Some b)) (objs s) (hands s)).
Proof. intros H. unfold put. now rewrite H. Qed.
Lemma put_same s c b : cell s c = Some b -> put c b s = Some s.
Proof. intros H. rewrite (put_ok s c b b H). unfold cell in H. rewrite upd_id by assumption. now destruct s. Qed.

Lemma hand_cells s h x : inv s -> hnd s h = Some x -> (exists b, cell s (valid_of h) = Some b) /\ (exists b, cell s (parent_of h) = Some b).
Proof.
  intros I H. split; [destruct (cell s (valid_of h)) eqn:E|destruct (cell s (parent_of h)) eqn:E]; eauto;
    apply (i_dead s I) in E; rewrite ?div_valid, ?div_parent in E; congruence.
Qed.

(* a free cell gets another pointer *)
Definition retarget (c : nat) (t : option nat) (x : hand) : hand :=
  if Nat.even c then mkHand (h_type x) t (h_par x) else mkHand (h_type x) (h_obj x) t.

Lemma retarget_inv s c t x : inv s -> hnd s (Nat.div2 c) = Some x -> cell s c <> Some true ->
  let s' := set_hnd (Nat.div2 c) (Some (retarget c t x)) s in
  inv s' /\ frame none none s s' /\ stored_same s s' /\ target s' c = t /\ objs s' = objs s /\ cells s' = cells s.
Proof.
  intros I H Hc s'.
  assert (Hx : forall h, hnd s' h = if Nat.eqb (Nat.div2 c) h then Some (retarget c t x) else hnd s h).
  { intros h. unfold s', hnd, set_hnd. cbn. rewrite get_upd. pose proof (hnd_lt _ _ _ H).
    destruct (Nat.eqb_spec (Nat.div2 c) h); cbn [andb]; [|reflexivity]. now destruct (Nat.ltb_spec (Nat.div2 c) (length (hands s))); [|lia]. }
  assert (Ht : forall k, k <> c -> target s' k = target s k).
  { intros k Hk. unfold target. rewrite Hx. destruct (Nat.eqb_spec (Nat.div2 c) (Nat.div2 k)) as [E|E]; [|reflexivity].
    rewrite <- E, H. unfold retarget.
    destruct (cell_cases c) as [Ec|Ec], (cell_cases k) as [Ek|Ek]; rewrite Ek, Ec, ?even_valid, ?even_parent; cbn; try reflexivity; congruence. }
  assert (Hl : forall k, link s' k = link s k).
  { intros k. unfold link. change (cell s' k) with (cell s k). destruct (Nat.eq_dec k c) as [->|Hk].
    - destruct (cell s c) as [[|]|]; [congruence|reflexivity|reflexivity].
    - now rewrite Ht. }
  split; [split|split; [split|]].
  - unfold s', set_hnd. cbn. rewrite upd_len. apply (i_len s I).
  - intros k. rewrite Hx. change (cell s' k) with (cell s k). rewrite <- (i_dead s I k).
    destruct (Nat.eqb_spec (Nat.div2 c) (Nat.div2 k)) as [E|E]; [rewrite <- E, H; split; discriminate|reflexivity].
  - intros o y E. change (obj s' o) with (obj s o) in E. destruct (i_flags s I o y E) as [N L]. split; [exact N|]. intros k Hk. rewrite Hl. auto.
  - intros k Hk. change (cell s' k) with (cell s k) in Hk. destruct (i_link s I k Hk) as (o & y & T & O & F & Fi).
    exists o, y. split; [rewrite Ht; [assumption|congruence]|]. split; [assumption|]. split; [assumption|].
    destruct Fi as (z & Z1 & Z2). unfold fits. rewrite Hx. destruct (Nat.eqb_spec (Nat.div2 c) (Nat.div2 k)) as [E|E].
    + exists (retarget c t x). split; [reflexivity|].
      assert (z = x) by congruence. subst z. replace (h_type (retarget c t x)) with (h_type x) by (unfold retarget; now destruct (Nat.even c)). assumption.
    + exists z. auto.
  - apply le_n.
  - unfold s', set_hnd. cbn. now rewrite upd_len.
  - intros o _. split; [intros E; exact E|]. intros y E. split; [intros []|]. exists y. auto.
  - intros k _ _. split; [tauto|]. rewrite Hl. split; [auto|]. intros o E. split; [intros []|auto].
  - intros h Hh E. rewrite Hx. destruct (Nat.eqb_spec (Nat.div2 c) h); [congruence|assumption].
  - intros h y E y' E'. rewrite Hx in E'. destruct (Nat.eqb_spec (Nat.div2 c) h) as [<-|]; [|congruence].
    injection E' as <-. rewrite H in E. injection E as <-. unfold retarget. now destruct (Nat.even c).
  - split; [intros o y E; unfold ents; change (obj s o = Some y) in E; now rewrite E|]. split; [|split; reflexivity].
    unfold target. rewrite Hx, Nat.eqb_refl. unfold retarget. now destruct (Nat.even c).
Qed.

Lemma set_target_eq h t s x : hnd s h = Some x -> set_target h t s = Some (set_hnd (Nat.div2 (valid_of h)) (Some (retarget (valid_of h) t x)) s).
Proof. intros H. unfold set_target. rewrite H. cbn [bind]. unfold retarget. now rewrite div_valid, even_valid. Qed.
Lemma set_parent_eq h t s x : hnd s h = Some x -> set_parent h t s = Some (set_hnd (Nat.div2 (parent_of h)) (Some (retarget (parent_of h) t x)) s).
Proof. intros H. unfold set_parent. rewrite H. cbn [bind]. unfold retarget. now rewrite div_parent, even_parent. Qed.

(* a free cell which points to a fitting object is linked to it *)
Lemma attach_inv s c o x : inv s -> cell s c = Some false -> target s c = Some o -> obj s o = Some x -> fits s c (o_type x) ->
  exists s', AttachValidFlag o c s = Some s' /\ inv s' /\ frame (fun k => k = c) none s s' /\ stored_same s s' /\
    link s' c = Some o /\ hands s' = hands s /\ length (objs s') = length (objs s).
Proof.
  intros I C T O Fi. unfold AttachValidFlag. rewrite O. cbn [bind]. rewrite (put_ok s c true false C). cbn [bind].
  destruct (i_flags s I o x O) as [N L].
  assert (Hn : ~ In c (o_flags x)) by (intros Hc; apply L in Hc; unfold link in Hc; now rewrite C in Hc).
  rewrite (proj2 (has_not c (o_flags x)) Hn). cbn zeta.
  set (x1 := mkObj (o_type x) (o_flags x ++ [c]) (o_ents x)).
  set (s' := set_obj o (Some x1) (mkSt (upd (cells s) c (Some true)) (objs s) (hands s))).
  assert (Hc : forall k, cell s' k = if Nat.eqb c k then Some true else cell s k).
  { intros k. unfold s', set_obj, cell. cbn. rewrite get_upd. pose proof (cell_lt _ _ _ C).
    destruct (Nat.eqb_spec c k); cbn [andb]; [|reflexivity]. now destruct (Nat.ltb_spec c (length (cells s))); [|lia]. }
  assert (Ho : forall k, obj s' k = if Nat.eqb o k then Some x1 else obj s k).
  { intros k. unfold s', set_obj, obj. cbn. rewrite get_upd. pose proof (obj_lt _ _ _ O).
    destruct (Nat.eqb_spec o k); cbn [andb]; [|reflexivity]. now destruct (Nat.ltb_spec o (length (objs s))); [|lia]. }
  assert (Ht : forall k, target s' k = target s k) by reflexivity.
  assert (Hl : forall k, k <> c -> link s' k = link s k).
  { intros k Hk. unfold link. rewrite Hc, Ht. destruct (Nat.eqb_spec c k); [congruence|reflexivity]. }
  assert (Hlc : link s' c = Some o) by (unfold link; now rewrite Hc, Nat.eqb_refl, Ht).
  exists s'. split; [reflexivity|]. split; [split|split; [split|]].
  - unfold s', set_obj. cbn. rewrite upd_len. apply (i_len s I).
  - intros k. rewrite Hc. change (hnd s' (Nat.div2 k)) with (hnd s (Nat.div2 k)). rewrite (i_dead s I k).
    destruct (Nat.eqb_spec c k) as [<-|]; [rewrite C; split; discriminate|reflexivity].
  - intros o' y E. rewrite Ho in E. destruct (Nat.eqb_spec o o') as [<-|].
    + injection E as <-. unfold x1. cbn [o_flags]. split.
      * apply NoDup_rev in N. rewrite <- (rev_involutive (o_flags x ++ [c])).
        apply NoDup_rev. rewrite rev_app_distr. cbn. constructor; [now rewrite <- in_rev|exact N].
      * intros k Hk. apply in_app_iff in Hk. destruct Hk as [Hk|[<-|[]]]; [|assumption].
        rewrite Hl; [now apply L|congruence].
    + destruct (i_flags s I o' y E) as [N' L']. split; [assumption|]. intros k Hk. rewrite Hl; [now apply L'|].
      intros ->. specialize (L' c Hk). unfold link in L'. now rewrite C in L'.
  - intros k Hk. rewrite Hc in Hk. destruct (Nat.eqb_spec c k) as [Ek|Hn']; [subst k|].
    + exists o, x1. rewrite Ho, Nat.eqb_refl. split; [assumption|]. split; [reflexivity|]. split; [unfold x1; cbn; apply in_or_app; right; now left|exact Fi].
    + destruct (i_link s I k Hk) as (o' & y & T' & O' & F' & Fi'). exists o'. rewrite Ho. destruct (Nat.eqb_spec o o') as [<-|Hne].
      * assert (y = x) by congruence. subst y. exists x1. split; [assumption|]. split; [reflexivity|].
        split; [unfold x1; cbn; apply in_or_app; now left|exact Fi'].
      * exists y. auto.
  - unfold s', set_obj. cbn. now rewrite upd_len.
  - apply le_n.
  - intros k _. rewrite Ho. destruct (Nat.eqb_spec o k) as [<-|]; (split; [congruence|]); intros y E; (split; [intros []|]); intros _.
    + exists x1. split; [reflexivity|]. rewrite O in E. injection E as <-. reflexivity.
    + eauto.
  - intros k Hk _. rewrite Hc, Hl by auto. destruct (Nat.eqb_spec c k); [congruence|]. split; [tauto|]. split; [auto|]. intros o' E. split; [intros []|auto].
  - auto.
  - intros h y E y' E'. change (hnd s' h) with (hnd s h) in E'. congruence.
  - split; [|split; [assumption|split; [reflexivity|]]].
    + intros k y E. unfold ents. rewrite Ho in E. destruct (Nat.eqb_spec o k) as [<-|]; [|now rewrite E]. injection E as <-. now rewrite O.
    + unfold s', set_obj. cbn. now rewrite upd_len.
Qed.

(* a linked cell is freed *)
Lemma detach_inv s c o : inv s -> link s c = Some o ->
  exists s', DetachValidFlag o c s = Some s' /\ inv s' /\ frame (fun k => k = c) none s s' /\ stored_same s s' /\
    cell s' c = Some false /\ hands s' = hands s /\ length (objs s') = length (objs s).
Proof.
  intros I K. destruct (link_live s c o I K) as (x & O & F & Fi & C). unfold DetachValidFlag. rewrite O. cbn [bind].
  rewrite (proj2 (has_in c (o_flags x)) F). rewrite (put_ok s c false true C). cbn [bind].
  destruct (i_flags s I o x O) as [N L].
  set (x1 := mkObj (o_type x) (rem1 c (o_flags x)) (o_ents x)).
  set (s' := set_obj o (Some x1) (mkSt (upd (cells s) c (Some false)) (objs s) (hands s))).
  assert (Hc : forall k, cell s' k = if Nat.eqb c k then Some false else cell s k).
  { intros k. unfold s', set_obj, cell. cbn. rewrite get_upd. pose proof (cell_lt _ _ _ C).
    destruct (Nat.eqb_spec c k); cbn [andb]; [|reflexivity]. now destruct (Nat.ltb_spec c (length (cells s))); [|lia]. }
  assert (Ho : forall k, obj s' k = if Nat.eqb o k then Some x1 else obj s k).
  { intros k. unfold s', set_obj, obj. cbn. rewrite get_upd. pose proof (obj_lt _ _ _ O).
    destruct (Nat.eqb_spec o k); cbn [andb]; [|reflexivity]. now destruct (Nat.ltb_spec o (length (objs s))); [|lia]. }
  assert (Ht : forall k, target s' k = target s k) by reflexivity.
  assert (Hl : forall k, k <> c -> link s' k = link s k).
  { intros k Hk. unfold link. rewrite Hc, Ht. destruct (Nat.eqb_spec c k); [congruence|reflexivity]. }
  exists s'. split; [reflexivity|]. split; [split|split; [split|]].
  - unfold s', set_obj. cbn. rewrite upd_len. apply (i_len s I).
  - intros k. rewrite Hc. change (hnd s' (Nat.div2 k)) with (hnd s (Nat.div2 k)). rewrite (i_dead s I k).
    destruct (Nat.eqb_spec c k) as [<-|]; [rewrite C; split; discriminate|reflexivity].
  - intros o' y E. rewrite Ho in E. destruct (Nat.eqb_spec o o') as [<-|].
    + injection E as <-. unfold x1. cbn [o_flags]. split; [now apply rem1_nodup|].
      intros k Hk. apply rem1_in in Hk; [|assumption]. destruct Hk. rewrite Hl by assumption. now apply L.
    + destruct (i_flags s I o' y E) as [N' L']. split; [assumption|]. intros k Hk. rewrite Hl; [now apply L'|].
      intros ->. specialize (L' c Hk). congruence.
  - intros k Hk. rewrite Hc in Hk. destruct (Nat.eqb_spec c k) as [Ek|Hn']; [discriminate|].
    destruct (i_link s I k Hk) as (o' & y & T' & O' & F' & Fi'). exists o'. rewrite Ho. destruct (Nat.eqb_spec o o') as [<-|Hne].
    + assert (y = x) by congruence. subst y. exists x1. split; [assumption|]. split; [reflexivity|].
      split; [unfold x1; cbn; apply rem1_in; auto|exact Fi'].
    + exists y. auto.
  - unfold s', set_obj. cbn. now rewrite upd_len.
  - apply le_n.
  - intros k _. rewrite Ho. destruct (Nat.eqb_spec o k) as [<-|]; (split; [congruence|]); intros y E; (split; [intros []|]); intros _.
    + exists x1. split; [reflexivity|]. rewrite O in E. injection E as <-. reflexivity.
    + eauto.
  - intros k Hk _. rewrite Hc, Hl by auto. destruct (Nat.eqb_spec c k); [congruence|]. split; [tauto|]. split; [auto|]. intros o' E. split; [intros []|auto].
  - auto.
  - intros h y E y' E'. change (hnd s' h) with (hnd s h) in E'. congruence.
  - split; [|split; [|split; [reflexivity|]]].
    + intros k y E. unfold ents. rewrite Ho in E. destruct (Nat.eqb_spec o k) as [<-|]; [|now rewrite E]. injection E as <-. now rewrite O.
    + now rewrite Hc, Nat.eqb_refl.
    + unfold s', set_obj. cbn. now rewrite upd_len.
Qed.

Lemma put_all_ok l s : (forall c, In c l -> cell s c <> None) ->
  exists cs, put_all l s = Some (mkSt cs (objs s) (hands s)) /\ length cs = length (cells s) /\
    forall k, get cs k = if has k l then Some false else cell s k.
Proof.
  revert s; induction l as [|c l IH]; intros s H.
  - exists (cells s). cbn. split; [now destruct s|]. split; reflexivity.
  - cbn [put_all]. destruct (cell s c) as [b|] eqn:C; [|now elim (H c (or_introl eq_refl))].
    rewrite (put_ok s c false b C). cbn [bind]. set (s1 := mkSt (upd (cells s) c (Some false)) (objs s) (hands s)).
    assert (C1 : forall k, cell s1 k = if Nat.eqb c k then Some false else cell s k).
    { intros k. unfold s1, cell. cbn. rewrite get_upd. pose proof (cell_lt _ _ _ C).
      destruct (Nat.eqb_spec c k); cbn [andb]; [|reflexivity]. now destruct (Nat.ltb_spec c (length (cells s))); [|lia]. }
    destruct (IH s1) as (cs & P & Ln & G).
    { intros k Hk. rewrite C1. destruct (Nat.eqb c k); [discriminate|]. apply H. now right. }
    exists cs. split; [exact P|]. split; [rewrite Ln; unfold s1; cbn; apply upd_len|].
    intros k. rewrite G, C1. cbn [has]. rewrite (Nat.eqb_sym k c). destruct (has k l), (Nat.eqb c k); reflexivity.
Qed.

Lemma kill_inv s o x : inv s -> obj s o = Some x ->
  exists s', kill o s = Some s' /\ inv s' /\ frame none (fun k => k = o) s s' /\ stored_same s s' /\
    hands s' = hands s /\ length (objs s') = length (objs s) /\ (forall k, k <> o -> obj s' k = obj s k).
Proof.
  intros I O. unfold kill. rewrite O. cbn [bind]. destruct (i_flags s I o x O) as [N L].
  destruct (put_all_ok (o_flags x) s) as (cs & P & Ln & G).
  { intros c Hc. apply L in Hc. unfold link in Hc. destruct (cell s c); [discriminate|discriminate]. }
  rewrite P. cbn [bind]. set (s' := set_obj o None (mkSt cs (objs s) (hands s))).
  assert (Hc : forall k, cell s' k = if has k (o_flags x) then Some false else cell s k) by exact G.
  assert (Ho : forall k, obj s' k = if Nat.eqb o k then None else obj s k).
  { intros k. unfold s', set_obj, obj. cbn. rewrite get_upd. pose proof (obj_lt _ _ _ O).
    destruct (Nat.eqb_spec o k); cbn [andb]; [|reflexivity]. now destruct (Nat.ltb_spec o (length (objs s))); [|lia]. }
  assert (Hl : forall k, link s' k = if has k (o_flags x) then None else link s k).
  { intros k. unfold link. rewrite Hc. change (target s' k) with (target s k). now destruct (has k (o_flags x)). }
  assert (Hf : forall k, link s k = Some o <-> has k (o_flags x) = true).
  { intros k. rewrite has_in. split; [|apply L]. intros E. destruct (link_live s k o I E) as (y & Oy & Fy & _). congruence. }
  exists s'. split; [reflexivity|]. split; [split|split; [split|]].
  - unfold s'. cbn. rewrite Ln. apply (i_len s I).
  - intros k. rewrite Hc. change (hnd s' (Nat.div2 k)) with (hnd s (Nat.div2 k)). rewrite (i_dead s I k).
    destruct (has k (o_flags x)) eqn:E; [|reflexivity]. apply Hf in E. unfold link in E. destruct (cell s k); [split; discriminate|discriminate].
  - intros o' y E. rewrite Ho in E. destruct (Nat.eqb_spec o o'); [discriminate|]. destruct (i_flags s I o' y E) as [N' L'].
    split; [assumption|]. intros k Hk. rewrite Hl. specialize (L' k Hk). destruct (has k (o_flags x)) eqn:E2; [|assumption].
    apply Hf in E2. congruence.
  - intros k Hk. rewrite Hc in Hk. destruct (has k (o_flags x)) eqn:E; [discriminate|].
    destruct (i_link s I k Hk) as (o' & y & T' & O' & F' & Fi'). exists o', y. split; [assumption|]. rewrite Ho.
    destruct (Nat.eqb_spec o o') as [<-|]; [|auto]. assert (y = x) by congruence. subst y. apply has_in in F'. congruence.
  - unfold s', set_obj. cbn. now rewrite upd_len.
  - apply le_n.
  - intros k _. rewrite Ho. destruct (Nat.eqb_spec o k) as [<-|]; (split; [congruence|]); intros y E; (split; [congruence|]).
    + intros X. now elim X.
    + eauto.
  - intros k _ _. rewrite Hc, Hl. pose proof (Hf k) as Hk. destruct (has k (o_flags x)).
    + assert (E : link s k = Some o) by now apply Hk. split; [unfold link in E; destruct (cell s k); [split; discriminate|discriminate]|].
      split; [auto|]. intros o' E'. split; [auto|]. intros X. congruence.
    + split; [tauto|]. split; [auto|]. intros o' E'. split; [|auto]. intros ->. apply Hk in E'. discriminate.
  - auto.
  - intros h y E y' E'. change (hnd s' h) with (hnd s h) in E'. congruence.
  - split; [|split; [reflexivity|split]].
    + intros k y E. unfold ents. rewrite Ho in E. destruct (Nat.eqb_spec o k); [discriminate|now rewrite E].
    + unfold s', set_obj. cbn. now rewrite upd_len.
    + intros k Hk. rewrite Ho. now destruct (Nat.eqb_spec o k); [congruence|].
Qed.

Lemma make_obj t s k : obj (make t s) k = if Nat.eqb k (fresh s) then Some (mkObj t [] []) else obj s k.
Proof.
  unfold make, obj, fresh. cbn. destruct (Nat.eqb_spec k (length (objs s))) as [->|].
  - rewrite get_app2, Nat.sub_diag by lia. reflexivity.
  - destruct (Nat.lt_ge_cases k (length (objs s))); [now rewrite get_app|].
    rewrite !get_beyond; [reflexivity|lia|]. rewrite app_length. cbn. lia.
Qed.

Lemma make_inv s t : inv s -> inv (make t s) /\ frame none none s (make t s) /\ stored_same s (make t s).
Proof.
  intros I. assert (Ho := make_obj t s).
  assert (Hf : obj s (fresh s) = None) by (apply get_beyond, le_n).
  split; [split|split; [split|]].
  - apply (i_len s I).
  - apply (i_dead s I).
  - intros o y E. rewrite Ho in E. destruct (Nat.eqb o (fresh s)); [injection E as <-; split; [constructor|intros c []]|].
    apply (i_flags s I o y E).
  - intros k Hk. destruct (i_link s I k Hk) as (o' & y & T' & O' & F' & Fi'). exists o', y. split; [exact T'|]. rewrite Ho.
    destruct (Nat.eqb_spec o' (fresh s)) as [->|]; [congruence|]. auto.
  - unfold make. cbn. rewrite app_length. lia.
  - apply le_n.
  - intros k Hk. rewrite Ho. destruct (Nat.eqb_spec k (fresh s)) as [->|]; [unfold fresh in Hk; lia|]. split; [auto|]. intros y E. split; [intros []|]. eauto.
  - intros k _ _. split; [tauto|]. split; [auto|]. intros o E. split; [intros []|auto].
  - auto.
  - intros h y E y' E'. change (hnd (make t s) h) with (hnd s h) in E'. congruence.
  - intros k y E. unfold ents. rewrite Ho in E. destruct (Nat.eqb_spec k (fresh s)) as [->|]; [injection E as <-; now rewrite Hf|now rewrite E].
Qed.

Lemma blank_cell t s c : inv s -> cell (blank t s) c = if Nat.eqb (Nat.div2 c) (length (hands s)) then Some false else cell s c.
Proof.
  intros I. unfold blank, cell. cbn. pose proof (i_len s I) as L. pose proof (cell_cases c) as X. unfold valid_of, parent_of in X.
  destruct (Nat.eqb_spec (Nat.div2 c) (length (hands s))) as [E|E].
  - rewrite get_app2 by lia. destruct X as [X|X].
    + now replace (c - length (cells s))%nat with 0%nat by lia.
    + now replace (c - length (cells s))%nat with 1%nat by lia.
  - destruct (Nat.lt_ge_cases c (length (cells s))); [now rewrite get_app|].
    rewrite !get_beyond; [reflexivity|lia|]. rewrite app_length. cbn. lia.
Qed.
Lemma blank_hnd t s h : hnd (blank t s) h = if Nat.eqb h (length (hands s)) then Some (mkHand t None None) else hnd s h.
Proof.
  unfold blank, hnd. cbn. destruct (Nat.eqb_spec h (length (hands s))) as [->|].
  - rewrite get_app2, Nat.sub_diag by lia. reflexivity.
  - destruct (Nat.lt_ge_cases h (length (hands s))); [now rewrite get_app|].
    rewrite !get_beyond; [reflexivity|lia|]. rewrite app_length. cbn. lia.
Qed.

Lemma blank_inv s t : inv s -> inv (blank t s) /\ frame none none s (blank t s) /\ stored_same s (blank t s).
Proof.
  intros I. assert (Hh := blank_hnd t s). assert (Hc := blank_cell t s).
  assert (Hl : forall k, (k < length (cells s))%nat -> link (blank t s) k = link s k).
  { intros k Hk. unfold link, target. rewrite Hc, Hh by assumption. rewrite (i_len s I) in Hk.
    destruct (Nat.eqb_spec (Nat.div2 k) (length (hands s))); [|reflexivity].
    destruct (cell_cases k); unfold valid_of, parent_of in *; lia. }
  assert (Hd : forall h, (h < length (hands s))%nat -> Nat.eqb h (length (hands s)) = false) by (intros; apply Nat.eqb_neq; lia).
  split; [split|split; [split|]].
  - unfold blank. cbn. rewrite !app_length. cbn. rewrite (i_len s I). lia.
  - intros k. rewrite Hh, Hc by assumption. destruct (Nat.eqb (Nat.div2 k) (length (hands s))); [split; discriminate|apply (i_dead s I)].
  - intros o y E. destruct (i_flags s I o y E) as [N L]. split; [assumption|]. intros k Hk. specialize (L k Hk). rewrite Hl; [assumption|].
    unfold link in L. destruct (cell s k) eqn:C; [|discriminate]. now apply cell_lt in C.
  - intros k Hk. rewrite Hc in Hk by assumption. destruct (Nat.eqb (Nat.div2 k) (length (hands s))) eqn:E; [discriminate|].
    destruct (i_link s I k Hk) as (o' & y & T' & O' & F' & Fi'). exists o', y.
    split; [unfold target; now rewrite Hh, E|]. split; [assumption|]. split; [assumption|].
    unfold fits. now rewrite Hh, E.
  - apply le_n.
  - unfold blank. cbn. rewrite app_length. lia.
  - intros k _. split; [auto|]. intros y E. split; [intros []|]. eauto.
  - intros k _ Hk. rewrite Hl, Hc by assumption. rewrite Hd.
    + split; [tauto|]. split; [auto|]. intros o E. split; [intros []|auto].
    + rewrite (i_len s I) in Hk. destruct (cell_cases k); unfold valid_of, parent_of in *; lia.
  - intros h Lh E. now rewrite Hh, Hd.
  - intros h y E y' E'. rewrite Hh, Hd in E' by (now apply hnd_lt in E). congruence.
  - intros k y E. unfold ents. change (obj s k = Some y) in E. now rewrite E.
Qed.

Lemma ents_inv s m x l : inv s -> obj s m = Some x ->
  let s' := set_obj m (Some (mkObj (o_type x) (o_flags x) l)) s in
  inv s' /\ frame none none s s' /\ (forall k, obj s' k = if Nat.eqb m k then Some (mkObj (o_type x) (o_flags x) l) else obj s k).
Proof.
  intros I O s'.
  assert (Ho : forall k, obj s' k = if Nat.eqb m k then Some (mkObj (o_type x) (o_flags x) l) else obj s k).
  { intros k. unfold s', set_obj, obj. cbn. rewrite get_upd. pose proof (obj_lt _ _ _ O).
    destruct (Nat.eqb_spec m k); cbn [andb]; [|reflexivity]. now destruct (Nat.ltb_spec m (length (objs s))); [|lia]. }
  split; [split|split; [split|]].
  - apply (i_len s I).
  - apply (i_dead s I).
  - intros o y E. rewrite Ho in E. destruct (Nat.eqb_spec m o) as [<-|]; [injection E as <-; apply (i_flags s I m x O)|apply (i_flags s I o y E)].
  - intros k Hk. destruct (i_link s I k Hk) as (o' & y & T' & O' & F' & Fi'). exists o'. rewrite Ho.
    destruct (Nat.eqb_spec m o') as [<-|]; [|exists y; auto]. assert (y = x) by congruence. subst y. eexists. split; [exact T'|]. split; [reflexivity|]. auto.
  - unfold s', set_obj. cbn. now rewrite upd_len.
  - apply le_n.
  - intros k _. rewrite Ho. destruct (Nat.eqb_spec m k) as [<-|]; (split; [congruence|]); intros y E; (split; [intros []|]); intros _.
    + eexists. split; [reflexivity|]. rewrite O in E. injection E as <-. reflexivity.
    + eauto.
  - intros k _ _. split; [tauto|]. split; [auto|]. intros o E. split; [intros []|auto].
  - auto.
  - intros h y E y' E'. change (hnd s' h) with (hnd s h) in E'. congruence.
  - exact Ho.
Qed.

Definition release (h : nat) (s : st) : st :=
  mkSt (upd (upd (cells s) (valid_of h) None) (parent_of h) None) (objs s) (upd (hands s) h None).

Lemma release_inv s h x : inv s -> hnd s h = Some x -> cell s (valid_of h) = Some false -> cell s (parent_of h) = Some false ->
  inv (release h s) /\ frame (fun k => Nat.div2 k = h) none s (release h s) /\ stored_same s (release h s) /\ hnd (release h s) h = None.
Proof.
  intros I H C1 C2. set (s' := release h s).
  assert (Hh : forall k, hnd s' k = if Nat.eqb h k then None else hnd s k).
  { intros k. unfold s', release, hnd. cbn. rewrite get_upd. pose proof (hnd_lt _ _ _ H).
    destruct (Nat.eqb_spec h k); cbn [andb]; [|reflexivity]. now destruct (Nat.ltb_spec h (length (hands s))); [|lia]. }
  assert (Hc : forall k, cell s' k = if Nat.eqb h (Nat.div2 k) then None else cell s k).
  { intros k. unfold s', release, cell. cbn [cells]. rewrite !get_upd, upd_len. apply cell_lt in C1. apply cell_lt in C2.
    destruct (Nat.ltb_spec (valid_of h) (length (cells s))); [|lia]. destruct (Nat.ltb_spec (parent_of h) (length (cells s))); [|lia]. rewrite !andb_true_r.
    pose proof (cell_cases k) as Ek. unfold valid_of, parent_of in *.
    destruct (Nat.eqb_spec h (Nat.div2 k)), (Nat.eqb_spec (2 * h + 1) k), (Nat.eqb_spec (2 * h) k); try reflexivity; lia. }
  assert (Cf : forall k, Nat.div2 k = h -> cell s k = Some false) by (intros k Ek; destruct (cell_cases k) as [X|X]; rewrite X, Ek; assumption).
  assert (Hl : forall k, Nat.div2 k <> h -> link s' k = link s k).
  { intros k Hk. unfold link, target. rewrite Hc, Hh. destruct (Nat.eqb_spec h (Nat.div2 k)); [congruence|reflexivity]. }
  split; [split|split; [split|]].
  - unfold s', release. cbn. rewrite !upd_len. apply (i_len s I).
  - intros k. rewrite Hh, Hc. destruct (Nat.eqb h (Nat.div2 k)); [tauto|apply (i_dead s I)].
  - intros o y E. destruct (i_flags s I o y E) as [N L]. split; [assumption|]. intros k Hk. specialize (L k Hk). rewrite Hl; [assumption|].
    intros X. apply Cf in X. unfold link in L. rewrite X in L. discriminate.
  - intros k Hk. rewrite Hc in Hk. destruct (Nat.eqb_spec h (Nat.div2 k)) as [E|E]; [discriminate|].
    destruct (i_link s I k Hk) as (o' & y & T' & O' & F' & Fi'). exists o', y.
    split; [unfold target; rewrite Hh; destruct (Nat.eqb_spec h (Nat.div2 k)); [congruence|exact T']|]. split; [assumption|]. split; [assumption|].
    unfold fits. rewrite Hh. destruct (Nat.eqb_spec h (Nat.div2 k)); [congruence|exact Fi'].
  - apply le_n.
  - unfold s', release. cbn. now rewrite upd_len.
  - intros k _. split; [auto|]. intros y E. split; [intros []|]. eauto.
  - intros k Hk _. rewrite Hl, Hc by assumption. destruct (Nat.eqb_spec h (Nat.div2 k)); [congruence|].
    split; [tauto|]. split; [auto|]. intros o E. split; [intros []|auto].
  - intros k Lk E. rewrite Hh. now destruct (Nat.eqb h k).
  - intros k y E y' E'. rewrite Hh in E'. destruct (Nat.eqb h k); [discriminate|congruence].
  - split; [intros k y E; unfold ents; change (obj s k = Some y) in E; now rewrite E|]. rewrite Hh. now rewrite Nat.eqb_refl.
Qed.

Lemma stored_trans (K1 K2 D1 D2 : nat -> Prop) a b c : frame K1 D1 a b -> frame K2 D2 b c -> stored_same a b -> stored_same b c -> stored_same a c.
Proof.
  intros F G H1 H2 m x E. rewrite (H2 m x E). unfold ents at 1. destruct (obj b m) as [y|] eqn:Eb; [now apply H1|].
  unfold ents. destruct (obj a m) as [z|] eqn:Ea; [|reflexivity].
  destruct (f_obj _ _ _ _ G m) as [X _]; [pose proof (obj_lt _ _ _ Ea); pose proof (f_objs _ _ _ _ F); lia|]. rewrite (X Eb) in E. discriminate.
Qed.
