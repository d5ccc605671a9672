(** Proofs about records of an IDF file which are written and read again. *)

From Coq Require Import Lia Lqa.
From Verif Require Import Base Num IoModel IdfText Spec NumFacts RealFacts IdfSpec IdfFacts IdfNum.
Open Scope Z_scope.

(** ** Fields which are written *)

Definition written (t : str) (f : field) : Prop := t = field_text f /\ field_ok f /\ ~ In nl t.

Lemma decimal_written k s m : decimal k s m -> written s (Bare s).
Proof.
  intros (sg & ip & fr & -> & N & D1 & D2 & L & SG).
  assert (A : Forall (fun c => isdig c \/ c = "-"%char \/ c = "."%char) (sg ++ ip ++ "."%char :: fr)).
  { apply Forall_app. split; [destruct SG as [[-> _]|[-> _]]; repeat constructor; tauto|].
    apply Forall_app. split; [revert D1; apply Forall_impl; tauto|].
    constructor; [tauto|]. revert D2; apply Forall_impl; tauto. }
  rewrite Forall_forall in A.
  split; [reflexivity|]. split; [split; [|split]|].
  - intros E. apply app_eq_nil in E as [_ E]. apply app_eq_nil in E as [E _]. congruence.
  - apply Forall_forall. intros c I H. specialize (A c I). unfold isspc, isdig in *.
    destruct A as [A|[->| ->]]; [lia|cbn in H; lia|cbn in H; lia].
  - intros r E. assert (I : In quote (sg ++ ip ++ "."%char :: fr)) by (rewrite E; left; reflexivity).
    specialize (A _ I). unfold isdig in A. destruct A as [A|[A|A]]; [cbn in A; lia|discriminate|discriminate].
  - intros I. specialize (A _ I). unfold isdig in A. destruct A as [A|[A|A]]; [cbn in A; lia|discriminate|discriminate].
Qed.

(** Where no field of this kind is a keyword. *)
Lemma decimal_not_end k s m key : decimal k s m -> compare_token (String "." key) s = true -> False.
Proof.
  intros (sg & ip & fr & -> & N & D1 & _ & _ & SG) H. unfold compare_token in H.
  apply str_eqb_eq in H. destruct ip as [|c ip]; [congruence|]. inversion D1; subst.
  destruct SG as [[-> _]|[-> _]]; cbn in H.
  - injection H as H _. unfold upper in H. unfold isdig in *.
    replace ((97 <=? code c) && (code c <=? 122)) with false in H by lia. subst c. cbn in *. lia.
  - discriminate.
Qed.

Lemma quoted_written s : ~ In quote s -> ~ In nl s -> written (quoted_text s) (Quoted s).
Proof.
  intros Q N. split; [reflexivity|]. split; [exact Q|]. unfold quoted_text. cbn [In].
  rewrite in_app_iff. intros [E|[I|[E|[]]]]; [discriminate|auto|discriminate].
Qed.

Lemma no_nul_c s : ~ In nul s -> c_text s = s.
Proof.
  intros N. unfold c_text. rewrite <- (app_nil_r s) at 1. rewrite upto_app; [reflexivity| |exact I].
  apply Forall_forall. intros c J. apply Ascii.eqb_neq. intros <-. auto.
Qed.

Lemma bare_by t : t <> [] -> forallb (fun c => negb (is_space c)) t = true ->
  match t with c :: _ => Ascii.eqb c quote = false | [] => True end -> written t (Bare t).
Proof.
  intros N F Q. rewrite forallb_forall in F.
  assert (S : Forall (fun c => ~ isspc c) t).
  { apply Forall_forall. intros c I. apply space_false. specialize (F c I). destruct (is_space c); [discriminate|reflexivity]. }
  split; [reflexivity|]. split; [split; [exact N|split; [exact S|]]|].
  - intros r ->. rewrite Ascii.eqb_refl in Q. discriminate.
  - intros I. rewrite Forall_forall in S. apply (S _ I). unfold isspc. cbn. lia.
Qed.

Ltac by_bare := apply bare_by; [discriminate|reflexivity|reflexivity].

Lemma plating_written b : written (c_text (plating_text b)) (Bare (plating_text b)).
Proof. destruct b; by_bare. Qed.

Lemma owner_written o : written (c_text (owner_text o)) (Bare (owner_text o)).
Proof. destruct o; by_bare. Qed.

Lemma capitals key : forallb (fun c => negb ((97 <=? code c) && (code c <=? 122))) (S2 key) = true ->
  Forall capital (S2 key).
Proof.
  rewrite forallb_forall, Forall_forall. intros H c I. specialize (H c I). unfold capital.
  apply negb_true_iff, andb_false_iff in H. rewrite !Z.leb_gt in H. lia.
Qed.

Lemma key_cases key s : forallb (fun c => negb ((97 <=? code c) && (code c <=? 122))) (S2 key) = true ->
  (compare_token key s = true /\ same_word key s) \/ (compare_token key s = false /\ ~ same_word key s).
Proof.
  intros C. pose proof (keyword_same key s (capitals key C)) as K.
  destruct (compare_token key s); [left|right]; (split; [reflexivity|]).
  - apply K. reflexivity.
  - intros H. apply K in H. discriminate.
Qed.

Lemma ref_named s : ref_back (Named s) (ref_of s).
Proof.
  unfold ref_of.
  destruct (key_cases "BOARD" s eq_refl) as [[-> A]|[-> A]]; [apply rb_as_board, A|].
  destruct (key_cases "NOREFDES" s eq_refl) as [[-> B]|[-> B]]; [apply rb_as_none, B|].
  destruct (key_cases "PANEL" s eq_refl) as [[-> C]|[-> C]]; [apply rb_as_panel, C|].
  apply rb_named; assumption.
Qed.

Lemma hole_named s : hole_back (Other s) (hole_of s).
Proof.
  unfold hole_of.
  destruct (key_cases "PIN" s eq_refl) as [[-> A]|[-> A]]; [apply hb_as_pin, A|].
  destruct (key_cases "VIA" s eq_refl) as [[-> B]|[-> B]]; [apply hb_as_via, B|].
  destruct (key_cases "MTG" s eq_refl) as [[-> C]|[-> C]]; [apply hb_as_mtg, C|].
  destruct (key_cases "TOOL" s eq_refl) as [[-> D]|[-> D]]; [apply hb_as_tool, D|].
  apply hb_other; assumption.
Qed.

Lemma quoted_c s : name_ok s -> c_text (quoted_text s) = quoted_text s.
Proof.
  intros (_ & _ & N). apply no_nul_c. unfold quoted_text. cbn [In]. rewrite in_app_iff.
  intros [E|[I|[E|[]]]]; [discriminate|auto|discriminate].
Qed.

Lemma ref_written r : ref_ok r -> exists f, written (c_text (ref_text r)) f /\ ref_back r (ref_of (value f)).
Proof.
  destruct r as [| | |s]; intros O; cbn [ref_text].
  - exists (Bare (S2 "BOARD")). split; [by_bare|constructor].
  - exists (Bare (S2 "NOREFDES")). split; [by_bare|constructor].
  - exists (Bare (S2 "PANEL")). split; [by_bare|constructor].
  - exists (Quoted s). rewrite quoted_c by exact O. destruct O as (Q & N & _).
    split; [apply quoted_written; assumption|apply ref_named].
Qed.

Lemma hole_written h : hole_ok h -> exists f, written (c_text (hole_text h)) f /\ hole_back h (hole_of (value f)).
Proof.
  destruct h as [| | | |s]; intros O; cbn [hole_text].
  - exists (Bare (S2 "PIN")). split; [by_bare|constructor].
  - exists (Bare (S2 "VIA")). split; [by_bare|constructor].
  - exists (Bare (S2 "MTG")). split; [by_bare|constructor].
  - exists (Bare (S2 "TOOL")). split; [by_bare|constructor].
  - exists (Quoted s). rewrite quoted_c by exact O. destruct O as (Q & N & _).
    split; [apply quoted_written; assumption|apply hole_named].
Qed.

(** ** Reading one field *)

Lemma sp_space : isspc sp. Proof. unfold isspc. cbn. lia. Qed.

Definition after (rest : str) : Prop := match rest with [] => True | c :: _ => c = sp end.

Lemma after_ends f rest : after rest -> ends f rest.
Proof. destruct f; cbn; [|auto]. destruct rest; cbn; [auto|]. intros ->. exact sp_space. Qed.

Definition blank1 (w : str) : Prop := w = [] \/ w = [sp].

Lemma blank1_space w : blank1 w -> Forall isspc w.
Proof. intros [->| ->]; repeat constructor. Qed.

Lemma word_at line st w t f rest : before line (w ++ t ++ rest) st -> blank1 w -> written t f -> after rest ->
  exists st', word line st = Some (value f, st') /\ before line rest st'.
Proof.
  intros B W (-> & O & _) A.
  destruct (get_field _ _ _ _ _ B (blank1_space _ W) O (after_ends f _ A)) as (G & B').
  eexists. unfold word. rewrite G. split; [reflexivity|exact B'].
Qed.

Lemma number_at line st w k m t rest q : before line (w ++ t ++ rest) st -> blank1 w -> decimal k t m ->
  stream_num t = Some q -> after rest ->
  exists st', number line st = Some (q, st') /\ before line rest st'.
Proof.
  intros B W D S A. destruct (decimal_written _ _ _ D) as (_ & O & _).
  destruct (get_field _ _ _ (Bare t) _ B (blank1_space _ W) O (after_ends _ _ A)) as (G & B').
  eexists. unfold number. rewrite G. cbn [sc_quoted in_quotes sc_tok value]. rewrite S. split; [reflexivity|exact B'].
Qed.

Lemma first_at line t f rest : line = t ++ rest -> written t f -> after rest ->
  exists st, get_string line (mkScan [] false 0) = (true, st) /\ sc_tok st = value f /\
    sc_quoted st = in_quotes f /\ before line rest st.
Proof.
  intros E (T & O & _) A.
  assert (B : before line ([] ++ field_text f ++ rest) (mkScan [] false 0)).
  { rewrite <- T. cbn [app]. rewrite <- E. apply before_start. }
  destruct (get_field _ _ _ f _ B (Forall_nil _) O (after_ends _ _ A)) as (G & B').
  eexists. split; [exact G|]. repeat split; apply B'.
Qed.

(** ** Numbers in units *)

Definition unit_num (u : unit_of) (k : nat) (q : Q) : str :=
  match u with MM => fixed k q | _ => fixed 1 (q / thou_to_mm)%Q end.

Definition unit_tol (u : unit_of) (k : nat) : Q :=
  match u with MM => ((1 # 2) / inject_Z (10 ^ Z.of_nat k))%Q | _ => 127 # 100000 end.

Lemma sized_thou q : sized q -> (Qabs (q / thou_to_mm) <= inject_Z (10 ^ 304))%Q.
Proof.
  unfold sized, Qdiv. intros H. rewrite Qabs_Qmult.
  change (Qabs (/ thou_to_mm)) with (10000 # 254)%Q.
  assert (X : (inject_Z (10 ^ 300) * (10000 # 254) <= inject_Z (10 ^ 304))%Q) by (vm_compute; discriminate).
  assert (Y : (Qabs q * (10000 # 254) <= inject_Z (10 ^ 300) * (10000 # 254))%Q)
    by (apply Qmult_le_compat_r; [exact H|discriminate]).
  eapply Qle_trans; eassumption.
Qed.

Lemma sized_mm q : sized q -> (Qabs q <= inject_Z (10 ^ 304))%Q.
Proof.
  unfold sized. intros H. eapply Qle_trans; [exact H|]. rewrite <- Zle_Qle. vm_compute. discriminate.
Qed.

Lemma unit_reads u v k q : u <> Tnm -> (0 < k)%nat -> sized q ->
  exists m k' q' r, decimal k' (unit_num u k q) m /\ stream_num (unit_num u k q) = Some q' /\
    to_mm u v q' = Some r /\ near (unit_tol u k) q r /\
    (q' == match u with MM => dec_value k (rounded k q) | _ => dec_value 1 (rounded 1 (q / thou_to_mm)) end)%Q.
Proof.
  intros U K S. destruct u; [| |congruence]; cbn [unit_num unit_tol].
  - destruct (fixed_reads k q K (sized_mm q S)) as (q' & R & E).
    exists (rounded k q), k, q', q'. split; [apply fixed_decimal, K|]. split; [exact R|].
    split; [reflexivity|]. split; [|exact E]. unfold near. rewrite E. apply dec_value_near.
  - destruct (fixed_reads 1 (q / thou_to_mm) ltac:(lia) (sized_thou q S)) as (q' & R & E).
    exists (rounded 1 (q / thou_to_mm)), 1%nat, q', (q' * thou_to_mm)%Q.
    split; [apply fixed_decimal; lia|]. split; [exact R|]. split; [reflexivity|]. split; [|exact E].
    unfold near. rewrite E.
    pose proof (dec_value_near 1 (q / thou_to_mm)) as N.
    set (d := dec_value 1 (rounded 1 (q / thou_to_mm))) in *. clearbody d.
    assert (X : (d * thou_to_mm - q == (d - q / thou_to_mm) * thou_to_mm)%Q).
    { field. discriminate. }
    rewrite X, Qabs_Qmult. change (Qabs thou_to_mm) with thou_to_mm.
    change ((1 # 2) / inject_Z (10 ^ Z.of_nat 1))%Q with (1 # 20)%Q in N.
    assert (Y : (Qabs (d - q / thou_to_mm) * thou_to_mm <= (1 # 20) * thou_to_mm)%Q)
      by (apply Qmult_le_compat_r; [exact N|discriminate]).
    eapply Qle_trans; [exact Y|]. discriminate.
Qed.

Lemma unit_tol_dia u : (unit_tol u 3 == tol_dia u)%Q. Proof. destruct u; reflexivity. Qed.
Lemma unit_tol_pos u : (unit_tol u 5 == tol_pos u)%Q. Proof. destruct u; reflexivity. Qed.

Lemma near_ext a b x y : (a == b)%Q -> near a x y -> near b x y.
Proof. unfold near. intros E H. rewrite <- E. exact H. Qed.

(** The least number of a kind is not lost. *)
Lemma dia_kept u q q' : u <> Tnm -> (least_dia u <= q)%Q ->
  (q' == match u with MM => dec_value 3 (rounded 3 q) | _ => dec_value 1 (rounded 1 (q / thou_to_mm)) end)%Q ->
  Qle_bool (min_dia u) q' = true.
Proof.
  intros U L E. apply Qle_bool_iff. rewrite E. clear E.
  assert (G : forall k r, (1 <= r * inject_Z (10 ^ Z.of_nat k))%Q -> 1 <= rounded k r).
  { intros k r H. pose proof (rounded_near k r) as N. apply Qabs_Qle_condition in N as [N _].
    assert (HH : (1 # 2 <= inject_Z (rounded k r))%Q) by lra.
    unfold Qle, inject_Z in HH. cbn in HH. lia. }
  destruct u; [| |congruence]; cbn [min_dia least_dia] in *.
  - assert (H : 1 <= rounded 3 q).
    { apply G. change (inject_Z (10 ^ Z.of_nat 3)) with 1000%Q. lra. }
    unfold dec_value. apply Qle_shift_div_l; [reflexivity|]. rewrite Zle_Qle in H.
    eapply Qle_trans; [|exact H]. discriminate.
  - assert (H : 1 <= rounded 1 (q / thou_to_mm)).
    { apply G. change (inject_Z (10 ^ Z.of_nat 1)) with 10%Q.
      assert (X : (q / thou_to_mm * 10 == q * (100000 # 254))%Q) by (unfold thou_to_mm; field). rewrite X. lra. }
    unfold dec_value. apply Qle_shift_div_l; [reflexivity|]. rewrite Zle_Qle in H.
    eapply Qle_trans; [|exact H]. discriminate.
Qed.

(** ** Holes *)

Definition drill_line (u : unit_of) (d : drill) : str :=
  unit_num u 3 (dr_dia d) ++ sp :: unit_num u 5 (dr_x d) ++ sp :: unit_num u 5 (dr_y d) ++ sp ::
  c_text (plating_text (dr_plated d)) ++ sp :: c_text (ref_text (dr_ref d)) ++ sp ::
  c_text (hole_text (dr_hole d)) ++ sp :: c_text (owner_text (dr_owner d)).

Lemma write_drill_line u d : write_drill u d = drill_line u d ++ [nl].
Proof.
  unfold write_drill, drill_line, unit_num. repeat (rewrite <- app_assoc; cbn [app]).
  destruct u; reflexivity.
Qed.

Lemma plating_back b : (if compare_token "PTH" (plating_text b) then Some true
  else if compare_token "NPTH" (plating_text b) then Some false else None) = Some b.
Proof. destruct b; reflexivity. Qed.

Lemma owner_back o : parse_owner (owner_text o) = Some o.
Proof. destruct o; reflexivity. Qed.

Lemma in_sp (c : ascii) a b : In c (a ++ sp :: b) -> In c a \/ c = sp \/ In c b.
Proof. rewrite in_app_iff. cbn. intros [H|[H|H]]; auto. Qed.

Lemma head_decimal k s m r : decimal k s m -> exists c t, s ++ r = c :: t /\ ~ isspc c /\ c <> hash.
Proof.
  intros (sg & ip & fr & -> & N & D1 & _ & _ & SG). destruct ip as [|c ip]; [congruence|]. inversion D1; subst.
  destruct SG as [[-> _]|[-> _]]; cbn.
  - eexists _, _. split; [reflexivity|]. unfold isdig, isspc in *. split; [lia|]. intros ->. cbn in *. lia.
  - eexists _, _. split; [reflexivity|]. split; [unfold isspc; cbn; lia|discriminate].
Qed.

Lemma app_last (a b : str) c r : b <> [] -> a ++ b = r ++ [c] -> exists r', b = r' ++ [c].
Proof.
  intros N E. destruct (exists_last N) as (b' & x & ->). rewrite app_assoc in E.
  apply app_inj_tail in E as (_ & ->). exists b'. reflexivity.
Qed.

Lemma field_last t f : written t f -> t <> [] /\ forall c r, t = r ++ [c] -> ~ isspc c.
Proof.
  intros (-> & O & _). destruct f as [s|s]; cbn [field_text].
  - destruct O as (N & F & _). split; [exact N|]. intros c r ->. rewrite Forall_forall in F.
    apply F. rewrite in_app_iff. right. left. reflexivity.
  - split; [discriminate|]. intros c r E. change (quote :: s ++ [quote]) with ((quote :: s) ++ [quote]) in E.
    apply app_inj_tail in E as (_ & <-). apply space_false. reflexivity.
Qed.

(** A line of fields, the first of them a number, is read as it is. *)
Lemma read_written_line first k m mid last f rest : decimal k first m -> written last f -> ~ In nl mid ->
  read_line (mkStream ((first ++ sp :: mid ++ sp :: last) ++ nl :: rest) false) =
    Some (first ++ sp :: mid ++ sp :: last, false, mkStream rest false).
Proof.
  intros D W M. destruct (head_decimal _ _ _ (sp :: mid ++ sp :: last) D) as (c & t & E & NS & NH).
  destruct (field_last _ _ W) as (NE & LA). apply read_line_plain.
  - rewrite E. discriminate.
  - intros I. destruct (decimal_written _ _ _ D) as (_ & _ & N1). destruct W as (_ & _ & N2).
    apply in_sp in I as [I|[I|I]]; [auto|discriminate|]. apply in_sp in I as [I|[I|I]]; [auto|discriminate|auto].
  - intros r H. rewrite E in H. injection H as -> _. congruence.
  - intros x r H. rewrite E in H. injection H as -> _. exact NS.
  - intros x r H.
    assert (H' : (first ++ sp :: mid ++ [sp]) ++ last = r ++ [x]).
    { rewrite <- H. repeat (rewrite <- app_assoc; cbn [app]). reflexivity. }
    destruct (app_last _ _ _ _ NE H') as (r' & R). exact (LA x r' R).
Qed.

Lemma drill_again u d rest : u <> Tnm -> drill_ok u d ->
  exists d', read_drill (mkStream (write_drill u d ++ rest) false) u V3 = Got d' (mkStream rest false) /\
    drill_back u d d' /\
    (drill_short u d -> drill_same d d').
Proof.
  intros U (LD & S1 & S2' & S3 & RO & HO).
  destruct (unit_reads u V3 3 (dr_dia d) U ltac:(lia) S1) as (m1 & k1 & q1 & r1 & D1 & N1 & T1 & C1 & E1).
  destruct (unit_reads u V3 5 (dr_x d) U ltac:(lia) S2') as (m2 & k2 & q2 & r2 & D2 & N2 & T2 & C2 & E2).
  destruct (unit_reads u V3 5 (dr_y d) U ltac:(lia) S3) as (m3 & k3 & q3 & r3 & D3 & N3 & T3 & C3 & E3).
  destruct (ref_written _ RO) as (fr & WR & BR). destruct (hole_written _ HO) as (fh & WH & BH).
  pose proof (plating_written (dr_plated d)) as WP. pose proof (owner_written (dr_owner d)) as WO.
  exists (mkDrill r1 r2 r3 (dr_plated d) (ref_of (value fr)) (hole_of (value fh)) (dr_owner d)).
  split; [|split].
  - rewrite write_drill_line, <- app_assoc. cbn [app].
    set (t1 := unit_num u 3 (dr_dia d)) in *. set (t2 := unit_num u 5 (dr_x d)) in *.
    set (t3 := unit_num u 5 (dr_y d)) in *. unfold drill_line. fold t1 t2 t3.
    set (t4 := c_text (plating_text (dr_plated d))) in *. set (t5 := c_text (ref_text (dr_ref d))) in *.
    set (t6 := c_text (hole_text (dr_hole d))) in *. set (t7 := c_text (owner_text (dr_owner d))) in *.
    set (line := t1 ++ sp :: t2 ++ sp :: t3 ++ sp :: t4 ++ sp :: t5 ++ sp :: t6 ++ sp :: t7).
    assert (RL : read_line (mkStream (line ++ nl :: rest) false) = Some (line, false, mkStream rest false)).
    { assert (EL : line = t1 ++ sp :: (t2 ++ sp :: t3 ++ sp :: t4 ++ sp :: t5 ++ sp :: t6) ++ sp :: t7).
      { unfold line. repeat (rewrite <- app_assoc; cbn [app]). reflexivity. }
      rewrite EL. apply (read_written_line _ k1 m1 _ _ (Bare (owner_text (dr_owner d)))); [exact D1|exact WO|].
      pose proof (decimal_written _ _ _ D2) as (_ & _ & X2). pose proof (decimal_written _ _ _ D3) as (_ & _ & X3).
      destruct WP as (_ & _ & X4), WR as (_ & _ & X5), WH as (_ & _ & X6).
      intros I. repeat (apply in_sp in I as [I|[I|I]]; [auto|discriminate|]). auto. }
    unfold read_drill. rewrite RL.
    destruct (first_at line t1 (Bare t1) _ eq_refl (decimal_written _ _ _ D1) eq_refl) as (st & G & TK & QT & B).
    rewrite G, QT, TK. cbn [in_quotes value].
    destruct (compare_token ".END_DRILLED_HOLES" t1) eqn:CE; [exfalso; exact (decimal_not_end _ _ _ _ D1 CE)|].
    rewrite N1. unfold drill_fields.
    rewrite (dia_kept u (dr_dia d) q1 U LD E1). cbn [negb].
    destruct (number_at line st [sp] k2 m2 t2 _ q2 B (or_intror eq_refl) D2 N2 eq_refl) as (st2 & G2 & B2). rewrite G2.
    destruct (number_at line st2 [sp] k3 m3 t3 _ q3 B2 (or_intror eq_refl) D3 N3 eq_refl) as (st3 & G3 & B3). rewrite G3.
    destruct (word_at line st3 [sp] t4 _ _ B3 (or_intror eq_refl) WP eq_refl) as (st4 & G4 & B4). rewrite G4.
    destruct (word_at line st4 [sp] t5 _ _ B4 (or_intror eq_refl) WR eq_refl) as (st5 & G5 & B5).
    destruct (word_at line st5 [sp] t6 _ _ B5 (or_intror eq_refl) WH eq_refl) as (st6 & G6 & B6).
    assert (B6' : before line ([sp] ++ t7 ++ []) st6) by (rewrite app_nil_r; exact B6).
    destruct (word_at line st6 [sp] t7 _ [] B6' (or_intror eq_refl) WO I) as (st7 & G7 & B7).
    cbn [value].
    replace (if compare_token "PTH" (plating_text (dr_plated d)) then Some (true, st4)
             else if compare_token "NPTH" (plating_text (dr_plated d)) then Some (false, st4) else None)
      with (Some (dr_plated d, st4)) by (destruct (dr_plated d); reflexivity).
    rewrite G5, G6, G7. cbn [value]. rewrite owner_back, T1, T2, T3. reflexivity.
  - unfold drill_back. cbn [dr_dia dr_x dr_y dr_plated dr_ref dr_hole dr_owner].
    split; [apply (near_ext _ _ _ _ (unit_tol_dia u) C1)|].
    split; [apply (near_ext _ _ _ _ (unit_tol_pos u) C2)|].
    split; [apply (near_ext _ _ _ _ (unit_tol_pos u) C3)|]. auto.
  - unfold drill_short, drill_same. cbn [dr_dia dr_x dr_y].
    assert (EX : forall k q n, (q * inject_Z (10 ^ Z.of_nat k) == inject_Z n)%Q -> (dec_value k (rounded k q) == q)%Q).
    { intros k q n H. rewrite (rounded_whole k q n H). unfold dec_value. rewrite <- H. field.
      intros Z. pose proof (p10_pos k) as P. rewrite Zlt_Qlt in P. rewrite Z in P. apply (Qlt_irrefl _ P). }
    destruct u; [| |congruence]; cbn [to_mm] in *.
    + injection T1 as <-. injection T2 as <-. injection T3 as <-.
      intros ((n1 & H1) & (n2 & H2) & (n3 & H3)).
      split; [|split]; symmetry.
      * rewrite E1. apply (EX 3%nat _ n1). exact H1.
      * rewrite E2. apply (EX 5%nat _ n2). exact H2.
      * rewrite E3. apply (EX 5%nat _ n3). exact H3.
    + injection T1 as <-. injection T2 as <-. injection T3 as <-.
      assert (TH : forall q n, (q / (254 # 100000) == inject_Z n)%Q ->
        (q == dec_value 1 (rounded 1 (q / thou_to_mm)) * thou_to_mm)%Q).
      { intros q n H. rewrite (EX 1%nat (q / thou_to_mm)%Q n).
        - field. discriminate.
        - rewrite <- H. change (inject_Z (10 ^ Z.of_nat 1)) with 10%Q. unfold thou_to_mm. field. }
      intros ((n1 & H1) & (n2 & H2) & (n3 & H3)).
      split; [|split].
      * rewrite E1. apply (TH _ n1). exact H1.
      * rewrite E2. apply (TH _ n2). exact H2.
      * rewrite E3. apply (TH _ n3). exact H3.
Qed.
