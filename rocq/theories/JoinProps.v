(** A model written and read, with its references and in its units. *)

From Coq Require Import QArith Lia ZifyBool ZifyNat.
From Verif Require Import Base Spec IoModel DeModel DeSpec PdFacts EntModel EntModel2 EntModel3 EntSpec PayloadModel GlobalModel GlobSpec FileModel
  RoundSpec RoundFile UnitModel UnitSpec UnitFacts.
From Verif Require Import GraphModel GraphFacts PlanSpec AssocModel AssocSpec AssocAll AssocProps JoinModel JoinSpec JoinFacts.
Open Scope Z_scope.

Lemma items_nth g : forall rs b i, nth_error (items_from g b rs) i = option_map (item_at g (b + i)) (nth_error rs i).
Proof.
  induction rs as [|r rs IH]; intros b [|i]; cbn [items_from nth_error option_map]; try reflexivity.
  - now rewrite Nat.add_0_r.
  - rewrite IH. now rewrite Nat.add_succ_r.
Qed.
Lemma items_length g : forall rs b, length (items_from g b rs) = length rs.
Proof. induction rs; intros b; cbn; [reflexivity|]. now rewrite IHrs. Qed.

Lemma set_up_items l g rs : rebuilt l g -> length rs = length l -> set_up l rs (items_from g 0 rs).
Proof.
  intros (_ & _ & R) L. split; [exact L|]. split; [now rewrite items_length|].
  intros i n r it En Er Ei. rewrite items_nth, Er in Ei. cbn [option_map] in Ei. injection Ei as <-. cbn [Nat.add].
  specialize (R i). rewrite En in R. unfold item_at. destruct (look g i) as [m|]; [|contradiction].
  destruct R as ((_ & _ & _ & _ & A & _) & _ & _ & _ & Rf & _). cbn [it_data it_trans it_parent]. split; [reflexivity|]. split; [now rewrite A|].
  destruct (n_refs m) as [|j js] eqn:E; cbn [hd_error].
  - intros (x & k & Ek & Hi). apply (proj2 (Rf x)). now exists k.
  - apply (proj1 (Rf j)). now left.
Qed.

Lemma rank_bound (rank : nat -> nat) : forall n, exists b, forall i, (i < n)%nat -> (rank i <= b)%nat.
Proof.
  induction n as [|n [b H]]; [exists 0%nat; lia|]. exists (Nat.max b (rank n)). intros i Hi.
  destruct (Nat.eq_dec i n) as [-> |]; [lia|]. specialize (H i). lia.
Qed.

Lemma set_up_sound l rs es : acyclic l -> set_up l rs es -> sound es.
Proof.
  intros [rank A] (Lr & Le & S) i Hi. rewrite Le in Hi. destruct (rank_bound rank (length l)) as [b B].
  remember (b - rank i)%nat as d eqn:Ed. revert i Hi Ed. induction d as [d IH] using (well_founded_induction lt_wf). intros i Hi Ed.
  destruct (nth_error l i) as [n|] eqn:En; [|apply nth_error_None in En; lia].
  destruct (nth_error rs i) as [r|] eqn:Er; [|apply nth_error_None in Er; lia].
  destruct (nth_error es i) as [it|] eqn:Ei; [|apply nth_error_None in Ei; lia].
  destruct (S i n r it En Er Ei) as (_ & _ & P). destruct (it_parent it) as [j|] eqn:Ej.
  - destruct P as (k & Ek & Hk). pose proof (A j k i Ek Hk) as Lt.
    assert (Hj : (j < length l)%nat) by (apply nth_error_Some; congruence). pose proof (B j Hj). pose proof (B i Hi).
    apply (climbs_up es i j); [unfold parent_at; now rewrite Ei|lia|]. apply (IH (b - rank j)%nat); [lia|exact Hj|reflexivity].
  - apply climbs_end. unfold parent_at. now rewrite Ei.
Qed.

Lemma convert_each_all es s : forall l i l', rescale_all es i s l = POk (true, l') -> convert_each es i s l = Some l'.
Proof.
  induction l as [|it l IH]; intros i l' H; cbn [rescale_all convert_each] in *; [congruence|].
  destruct (rescale_item es i s it) as [| |it']; try discriminate.
  destruct (rescale_all es (S i) s l) as [| |[b r']] eqn:E; cbn in H; try discriminate. injection H as -> <-. now rewrite (IH _ _ E).
Qed.

Lemma read_lengths u maxgrad : forall seq k es rs, all_read_as u maxgrad seq k es rs -> length rs = length es.
Proof. intros seq k es rs A. induction A; cbn; congruence. Qed.
Lemma read_data u maxgrad : forall seq k es rs, all_read_as u maxgrad seq k es rs -> Forall (fun r => n_data r <> None) rs.
Proof. intros seq k es rs A. induction A as [|seq k c e n es ns Hc Hr A IH]; constructor; [|exact IH]. destruct Hr as (_ & _ & (p & E & _) & _). congruence. Qed.

Lemma forall2_length {A B} (R : A -> B -> Prop) : forall l m, Forall2 R l m -> length l = length m.
Proof. intros l m F. induction F; cbn; congruence. Qed.

Lemma whole_round closed joins l d name ver now t over name2 : doc_ok d name ver now -> opened t over = true ->
  sound_plan l -> whole l -> acyclic l \/ applicationNote (d_glob d) = [] -> drawn closed joins l -> Forall2 (carries l) l (d_ents d) ->
  exists s st g' rs es es1 g, Write d name ver now t over = POk (true, Old s) /\
    Read closed joins [] 0 init_globals name2 (mkStream s false) = Loaded st (with_name g' name2) (map n_dir rs) es1 g /\
    start_read (d_start d) st /\ reads_back (with_name (d_glob d) name) ver now g' /\
    all_read_as (minResolution (d_glob d)) (maxLinewidthGrad g') 1 1 (d_ents d) rs /\
    rebuilt l g /\ set_up l rs es /\
    (if convert g' then all_rescaled (cf g') 1 es es1 else es1 = es).
Proof.
  intros DO OP SP WH AC DR CA.
  destruct (file_round d name ver now t over name2 DO OP) as (s & st & g' & rs & ng & np & W & R & ST & RB & AR).
  exists s, st, g', rs.
  assert (PL : Forall (fun e => d_plevel (e_dir e) = None) (d_ents d)).
  { destruct DO as (_ & _ & _ & EO). specialize (EO g' RB). eapply Forall_impl; [|exact EO]. intros e ((_ & X & _) & _). exact X. }
  assert (SY : Forall2 (says l) l (map wants_of rs)).
  { eapply all_says; [|exact CA|exact PL|exact AR]. intros n Hn. apply In_nth_error in Hn. destruct Hn as [i Hi]. exact (d_fits _ SP i n Hi). }
  assert (LE : length rs = length l) by (rewrite (read_lengths _ _ _ _ _ _ AR); symmetry; eapply forall2_length; exact CA).
  destruct (all_associate l _ SP SY closed joins DR) as (g & AS & RE).
  assert (CU : Cull g false = Some g).
  { apply Cull_none. intros e He. apply (rebuilt_ents l g RE) in He. destruct He as [n E]. split.
    - destruct (rebuilt_look l g RE e n E) as (m & Em & _). now exists m.
    - rewrite (rebuilt_orphan l g RE e n E). destruct (WH e n E) as [W1 W2]. intros [X|[X1 X2]]; [exact (W1 X)|exact (X1 (W2 X2))]. }
  pose proof (set_up_items l g rs RE LE) as SU.
  assert (SP' : Forall supported (items_from g 0 rs)).
  { apply Forall_forall. intros it Hi. apply In_nth_error in Hi. destruct Hi as [i Hi]. rewrite items_nth in Hi.
    destruct (nth_error rs i) as [r|] eqn:Er; [|discriminate]. cbn in Hi. injection Hi as <-.
    pose proof (read_data _ _ _ _ _ _ AR) as RD. rewrite Forall_forall in RD. specialize (RD r (nth_error_In _ _ Er)).
    unfold supported, item_at. destruct (look g i); exact RD. }
  assert (CF : ((cf g') * 1 == cf g')%Q) by ring.
  assert (CV : convert g' = true -> acyclic l).
  { intros X. destruct AC as [A|A]; [exact A|]. exfalso.
    destruct RB as (_ & _ & _ & _ & _ & _ & _ & _ & _ & _ & _ & _ & _ & _ & _ & _ & _ & _ & _ & _ & _ & _ & _ & r & s0 & w & m & _ & _ & _ & _ & _ & _ & H).
    cbn [with_name applicationNote] in H. rewrite A in H. destruct H as (_ & _ & _ & H). congruence. }
  assert (EX : exists es1, (if convert g' then all_rescaled (cf g') 1 (items_from g 0 rs) es1 else es1 = items_from g 0 rs) /\
    (if convert g' then convert_each (items_from g 0 rs) 0 (cf g') (items_from g 0 rs) else Some (items_from g 0 rs)) = Some es1).
  { destruct (convert g'); [|eexists; split; reflexivity].
    assert (SO : sound (items_from g 0 rs)) by (eapply set_up_sound; [now apply CV|exact SU]).
    destruct (rescale_all_total (cf g') (cf g') 1 _ CF SO SP') as (es' & RA & AL). exists es'. split; [exact AL|].
    exact (convert_each_all _ _ _ _ _ RA). }
  destruct EX as (es1 & E1 & E2). exists (items_from g 0 rs), es1, g.
  split; [exact W|]. split.
  { unfold Read. rewrite R. cbv zeta. rewrite AS. cbn [with_name convert cf]. rewrite E2, CU. reflexivity. }
  split; [exact ST|]. split; [exact RB|]. split; [exact AR|]. split; [exact RE|]. split; [exact SU|exact E1].
Qed.

(** *** Reading which does not end *)

Lemma users_parent l rs es i j : set_up l rs es -> sole_user l i j -> (i < length l)%nat -> parent_at es i = Some j.
Proof.
  intros (Lr & Le & S) (m & Em & Hm & U) Hi.
  destruct (nth_error l i) as [n|] eqn:En; [|apply nth_error_None in En; lia].
  destruct (nth_error rs i) as [r|] eqn:Er; [|apply nth_error_None in Er; lia].
  destruct (nth_error es i) as [it|] eqn:Ei; [|apply nth_error_None in Ei; lia].
  destruct (S i n r it En Er Ei) as (_ & _ & P). unfold parent_at. rewrite Ei. cbn. destruct (it_parent it) as [x|].
  - destruct P as (k & Ek & Hk). f_equal. eapply U; eassumption.
  - exfalso. apply P. now exists j, m.
Qed.

Lemma part_range l i j : sound_plan l -> sole_user l i j -> (i < length l)%nat.
Proof.
  intros SP (m & Em & Hm & _). destruct (d_range _ SP j m i Em Hm) as (x & Ex & _). apply nth_error_Some. congruence.
Qed.

(** The data are those of the plan. *)
Definition data_fit (l : list node) (rs : list rent) : Prop :=
  forall i n r, nth_error l i = Some n -> nth_error rs i = Some r ->
    exists p, n_data r = Some p /\ type_no p = GraphModel.n_type n /\ forall o, p = P142 o -> os_b o = num (nth 1 (n_slots n) None).

Lemma data_fits l u mg : forall ns es rs seq k, Forall2 (carries l) ns es -> all_read_as u mg seq k es rs ->
  forall i n r, nth_error ns i = Some n -> nth_error rs i = Some r ->
    exists p, n_data r = Some p /\ type_no p = GraphModel.n_type n /\ forall o, p = P142 o -> os_b o = num (nth 1 (n_slots n) None).
Proof.
  intros ns es rs seq k C. revert rs seq k. induction C as [|n e ns es C0 C IH]; intros rs seq k A i m r En Er.
  - destruct i; discriminate.
  - inversion A as [|? ? ? ? r0 ? rs' Hc Hr Ha]; subst. destruct i as [|i]; cbn in En, Er; [|eapply IH; eassumption].
    injection En as <-. injection Er as <-. destruct Hr as (T & _ & (p & Ep & DC) & _). exists p. split; [exact Ep|].
    destruct (c_class _ _ _ C0) as [_ Nt]. pose proof (c_data _ _ _ C0) as CD. rewrite Nt.
    destruct (e_data e); try (match goal with d : (Q * Q * Q)%type |- _ => destruct d as [[? ?] ?] end); destruct p; cbn [data_close] in DC; try contradiction;
      (split; [reflexivity|]); intros o' X; try discriminate X.
    injection X as <-. rewrite DC. cbn [os_b]. apply CD.
Qed.

Lemma endless_anc l rs es : set_up l rs es -> data_fit l rs -> sound_plan l ->
  forall fuel (f : nat -> nat), (forall k, sole_user l (f k) (f (S k)) /\ ~ type_at l (f (S k)) 142) ->
  ancestors fuel es (parent_at es (f 0%nat)) = None.
Proof.
  intros SU DF SP. induction fuel as [|fuel IH]; intros f F.
  - destruct (F 0%nat) as [U _]. rewrite (users_parent l rs es _ _ SU U (part_range _ _ _ SP U)). reflexivity.
  - destruct (F 0%nat) as [U T]. rewrite (users_parent l rs es _ _ SU U (part_range _ _ _ SP U)). cbn [ancestors].
    specialize (IH (fun k => f (S k)) (fun k => F (S k))). cbv beta in IH.
    pose proof SU as (Lr & Le & S). destruct U as (m & Em & _ & _).
    destruct (nth_error es (f 1%nat)) as [it|] eqn:Ei; [|reflexivity]. unfold parent_at in IH. rewrite Ei in IH. cbn [obind] in IH.
    destruct (nth_error rs (f 1%nat)) as [r|] eqn:Er.
    2:{ apply nth_error_None in Er. assert (f 1%nat < length l)%nat by (apply nth_error_Some; congruence). lia. }
    destruct (S _ m r it Em Er Ei) as (D & _ & _). destruct (DF _ m r Em Er) as (p & Ep & Tp & _). rewrite D, Ep, IH.
    destruct p; try reflexivity. exfalso. apply T. exists m. split; [exact Em|]. now rewrite <- Tp.
Qed.

Lemma convert_each_none es s : forall l b i it, nth_error l i = Some it -> rescale_item es (b + i) s it = PCrash -> convert_each es b s l = None.
Proof.
  induction l as [|x l IH]; intros b i it E H; [destruct i; discriminate|]. cbn [convert_each]. destruct i as [|i]; cbn in E.
  - injection E as ->. rewrite Nat.add_0_r in H. now rewrite H.
  - rewrite (IH (S b) i it E) by (now rewrite Nat.add_succ_l, <- Nat.add_succ_r). now destruct (rescale_item es b s x).
Qed.

Lemma unit_scale_dec s : unit_scale s \/ ~ unit_scale s.
Proof.
  unfold unit_scale. destruct (Qlt_le_dec s (9999998 # 10000000)) as [A|A]; [right; intros [B _]; exact (Qlt_not_le _ _ A B)|].
  destruct (Qlt_le_dec (1000001 # 1000000) s) as [C|C]; [right; intros [_ B]; exact (Qlt_not_le _ _ C B)|]. now left.
Qed.
Lemma converts g ver now g' : reads_back g ver now g' -> applicationNote g <> [] -> unitsFlag g <> 2 -> convert g' = true.
Proof.
  intros (_ & _ & _ & _ & _ & _ & _ & _ & _ & _ & _ & _ & _ & _ & _ & _ & _ & _ & _ & _ & _ & _ & _ & r & s & w & m & _ & _ & _ & _ & _ & _ & H) A U.
  destruct (applicationNote g); [contradiction|]. destruct H as (_ & H1 & H2). destruct (unit_scale_dec s) as [K|K].
  - apply (H1 K). exact U.
  - apply (H2 K).
Qed.

(** What Read does up to the conversion. *)
Lemma read_up_to closed joins l d name ver now t over name2 : doc_ok d name ver now -> opened t over = true ->
  sound_plan l -> drawn closed joins l -> Forall2 (carries l) l (d_ents d) ->
  exists s st g' rs g, Write d name ver now t over = POk (true, Old s) /\
    reads_back (with_name (d_glob d) name) ver now g' /\
    all_read_as (minResolution (d_glob d)) (maxLinewidthGrad g') 1 1 (d_ents d) rs /\ length rs = length l /\ rebuilt l g /\
    Read closed joins [] 0 init_globals name2 (mkStream s false) =
      let es := items_from g 0 rs in
      match (if convert g' then convert_each es 0 (cf g') es else Some es) with
      | None => Endless
      | Some es1 => match GraphModel.Cull g false with
                    | None => Undefined
                    | Some g2 => Loaded st (with_name g' name2) (map n_dir rs) es1 g2
                    end
      end.
Proof.
  intros DO OP SP DR CA.
  destruct (file_round d name ver now t over name2 DO OP) as (s & st & g' & rs & ng & np & W & R & ST & RB & AR).
  assert (PL : Forall (fun e => d_plevel (e_dir e) = None) (d_ents d)).
  { destruct DO as (_ & _ & _ & EO). specialize (EO g' RB). eapply Forall_impl; [|exact EO]. intros e ((_ & X & _) & _). exact X. }
  assert (SY : Forall2 (says l) l (map wants_of rs)).
  { eapply all_says; [|exact CA|exact PL|exact AR]. intros n Hn. apply In_nth_error in Hn. destruct Hn as [i Hi]. exact (d_fits _ SP i n Hi). }
  destruct (all_associate l _ SP SY closed joins DR) as (g & AS & RE).
  exists s, st, g', rs, g. split; [exact W|]. split; [exact RB|]. split; [exact AR|].
  split; [rewrite (read_lengths _ _ _ _ _ _ AR); symmetry; eapply forall2_length; exact CA|]. split; [exact RE|].
  unfold Read. rewrite R. cbv zeta. rewrite AS. reflexivity.
Qed.

Lemma endless_claim closed joins l d name ver now t over name2 i : doc_ok d name ver now -> opened t over = true ->
  sound_plan l -> drawn closed joins l -> Forall2 (carries l) l (d_ents d) ->
  applicationNote (d_glob d) <> [] -> unitsFlag (d_glob d) <> 2 -> type_at l i 126 -> circles l i ->
  exists s, Write d name ver now t over = POk (true, Old s) /\
    Read closed joins [] 0 init_globals name2 (mkStream s false) = Endless.
Proof.
  intros DO OP SP DR CA AN UF (n & En & Tn) (f & F0 & F).
  destruct (read_up_to closed joins l d name ver now t over name2 DO OP SP DR CA) as (s & st & g' & rs & g & W & RB & AR & LE & RE & R).
  exists s. split; [exact W|]. rewrite R. cbv zeta. rewrite (converts _ _ _ _ RB AN UF).
  pose proof (set_up_items l g rs RE LE) as SU. set (es := items_from g 0 rs) in *.
  assert (DF : data_fit l rs) by (exact (data_fits l _ _ l _ _ _ _ CA AR)).
  pose proof (endless_anc l rs es SU DF SP (length es) f F) as A. rewrite F0 in A.
  pose proof SU as (_ & Le & S). assert (Hi : (i < length l)%nat) by (apply nth_error_Some; congruence).
  destruct (nth_error rs i) as [r|] eqn:Er; [|apply nth_error_None in Er; lia].
  destruct (nth_error es i) as [it|] eqn:Ei; [|apply nth_error_None in Ei; lia].
  destruct (S i n r it En Er Ei) as (D & _ & _). destruct (DF i n r En Er) as (p & Ep & Tp & _). rewrite Tn in Tp.
  assert (X : rescale_item es i (cf g') it = PCrash).
  { unfold rescale_item. rewrite D, Ep. destruct p; try discriminate Tp. unfold is_flat. unfold parent_at in A. rewrite Ei in A. cbn [obind] in A. now rewrite A. }
  now rewrite (convert_each_none es (cf g') es 0 i it Ei X).
Qed.

(** *** Curves in the parameter space of a surface *)

Lemma fit_at l rs es j m : set_up l rs es -> data_fit l rs -> nth_error l j = Some m ->
  exists p, data_at es j = Some p /\ type_no p = GraphModel.n_type m /\ forall o, p = P142 o -> os_b o = num (nth 1 (n_slots m) None).
Proof.
  intros (Lr & Le & S) DF Em. assert (Hj : (j < length l)%nat) by (apply nth_error_Some; congruence).
  destruct (nth_error rs j) as [r|] eqn:Er; [|apply nth_error_None in Er; lia].
  destruct (nth_error es j) as [it|] eqn:Ei; [|apply nth_error_None in Ei; lia].
  destruct (S j m r it Em Er Ei) as (D & _ & _). destruct (DF j m r Em Er) as (p & Ep & Tp & B). exists p. unfold data_at. rewrite Ei. cbn [obind]. split; [congruence|auto].
Qed.

Lemma only_above l rs es b i : sound_plan l -> set_up l rs es -> data_fit l rs -> only_in l b i -> above es i b.
Proof.
  intros SP SU DF O. induction O as [|i j U T O IH]; [constructor|].
  apply (above_up es i j b); [eapply users_parent; [exact SU|exact U|exact (part_range _ _ _ SP U)]| |exact IH].
  intros [c Hc]. destruct U as (m & Em & _ & _). destruct (fit_at l rs es j m SU DF Em) as (p & Ep & Tp & _).
  apply T. exists m. split; [exact Em|]. rewrite Hc in Ep. injection Ep as <-. now rewrite <- Tp.
Qed.

Lemma in_parameters_ok l rs es i : sound_plan l -> set_up l rs es -> data_fit l rs -> drawn_in_parameters l i -> in_parameter_space es i.
Proof.
  intros SP SU DF (b & c & m & O & U & Em & T & S). pose proof (only_above l rs es b i SP SU DF O) as A.
  destruct (fit_at l rs es c m SU DF Em) as (p & Ep & Tp & B). rewrite T in Tp. destruct p; try discriminate Tp.
  exists b, c, o, b. split; [exact A|]. split; [eapply users_parent; [exact SU|exact U|exact (part_range _ _ _ SP U)]|]. split; [exact Ep|].
  split; [exact A|]. rewrite (B o eq_refl), S. reflexivity.
Qed.

Lemma lifted_points s : forall l l', Forall2 (fun x y => x * s == y * 1)%Q (flat_map depth l) (flat_map depth l') ->
  map (blot true) l = map (blot true) l' -> Forall2 (lifted s) l l'.
Proof.
  induction l as [|[[x y] z] l IH]; intros [|[[x' y'] z'] l'] F E; cbn in E; try discriminate; [constructor|].
  injection E as E1 E2 E3. cbn in F. inversion F as [|? ? ? ? F1 F2]; subst. constructor; [|now apply IH].
  cbn. split; [reflexivity|]. split; [reflexivity|]. rewrite F1. ring.
Qed.
Lemma stretched_points s : forall l l', Forall2 (fun x y => x * s == y * 1)%Q (flat_map coords l) (flat_map coords l') ->
  map (blot false) l = map (blot false) l' -> Forall2 (stretched s) l l'.
Proof.
  induction l as [|[[x y] z] l IH]; intros [|[[x' y'] z'] l'] F E; cbn in E; try discriminate; [constructor|].
  injection E as E3. cbn in F. inversion F as [|? ? ? ? F1 FF]; subst. inversion FF as [|? ? ? ? F2 FG]; subst. inversion FG as [|? ? ? ? F3 F4]; subst.
  constructor; [|now apply IH]. cbn. rewrite F1, F2, F3. repeat split; ring.
Qed.

Lemma parameter_claim l d u mg rs es es1 s i c dir it : sound_plan l -> Forall2 (carries l) l (d_ents d) ->
  all_read_as u mg 1 1 (d_ents d) rs -> set_up l rs es -> all_rescaled s 1 es es1 ->
  nth_error es i = Some it -> it_data it = Some (P126 c dir) ->
  exists it1 c1, nth_error es1 i = Some it1 /\ it_data it1 = Some (P126 c1 dir) /\
    n_props c1 = n_props c /\ n_knots c1 = n_knots c /\ n_wts c1 = n_wts c /\
    (drawn_in_parameters l i -> Forall2 (lifted s) (n_pts c) (n_pts c1)) /\
    (~ in_parameter_space es i -> Forall2 (stretched s) (n_pts c) (n_pts c1)).
Proof.
  intros SP CA AR SU [L A] Ei Di. assert (DF : data_fit l rs) by (exact (data_fits l _ _ l _ _ _ _ CA AR)).
  destruct (nth_error es1 i) as [it1|] eqn:E1.
  2:{ apply nth_error_None in E1. assert (i < length es)%nat by (apply nth_error_Some; congruence). lia. }
  destruct (A i it it1 Ei E1) as (_ & _ & p & p' & Ep & Ep' & H). rewrite Di in Ep. injection Ep as <-.
  assert (R : exists fl, rest fl (P126 c dir) = rest fl p') by (destruct H as [(_ & _ & _ & R)|(_ & _ & _ & R)]; eauto).
  destruct R as (fl & R). destruct p' as [| | | | | | |c1 d1| | | | | | | | | | | | | | | |]; cbn [rest] in R; try discriminate R.
  injection R as R1 R2 R3 R4 R5 R6 R7 R8 R9. subst d1. exists it1, c1. split; [reflexivity|]. split; [exact Ep'|].
  split; [now symmetry|]. split; [now symmetry|]. split; [now symmetry|]. split.
  - intros P. apply (in_parameters_ok l rs es i SP SU DF) in P. destruct H as [(_ & H & _ & R)|(N & _)]; [|contradiction].
    cbn [lengths] in H. cbn [rest] in R. injection R as _ _ _ _ _ R _ _. now apply lifted_points.
  - intros N. destruct H as [(P & _)|(_ & H & _ & R)]; [contradiction|].
    cbn [lengths] in H. cbn [rest] in R. injection R as _ _ _ _ _ R _ _. now apply stretched_points.
Qed.

Lemma others_scaled s (es es1 : list (item direction)) i it (p : payload direction) : all_rescaled s 1 es es1 -> nth_error es i = Some it -> it_data it = Some p ->
  (forall c d, p <> P126 c d) -> exists it1 p1, nth_error es1 i = Some it1 /\ it_data it1 = Some p1 /\ rescaled false s 1 p p1.
Proof.
  intros [L A] Ei Di N. destruct (nth_error es1 i) as [it1|] eqn:E1.
  2:{ apply nth_error_None in E1. assert (i < length es)%nat by (apply nth_error_Some; congruence). lia. }
  destruct (A i it it1 Ei E1) as (_ & _ & q & p1 & Ep & Ep1 & H). rewrite Di in Ep. injection Ep as <-. exists it1, p1. split; [reflexivity|]. split; [exact Ep1|].
  destruct H as [(_ & H)|(_ & H)]; [|exact H]. destruct H as (H1 & H2 & H3).
  destruct p; try (exfalso; eapply N; reflexivity); destruct p1; cbn [rest] in H3; try discriminate H3; (split; [exact H1|]; split; [exact H2|exact H3]).
Qed.
