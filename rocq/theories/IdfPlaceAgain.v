(** Proofs: a section .PLACEMENT which is written and read again, and the holes of a board. *)

From Coq Require Import Lia Lqa Permutation.
From Verif Require Import Base Num IoModel IdfText IdfPlace Spec NumFacts RealFacts IdfSpec IdfFacts IdfNum IdfRound IdfLine IdfSect IdfPlaceSpec IdfPlaceFacts IdfPlaceText.
Open Scope Z_scope.

(** ** Lines of fields *)

Lemma laid_sp b fs l : laid_out b fs l -> laid_out b fs (sp :: l).
Proof.
  intros L. destruct L as [w W|w t W N|b w f fs rest W O E L].
  - apply (lo_end (sp :: w)). constructor; [exact sp_space|exact W].
  - apply (lo_torn (sp :: w) t); [constructor; [exact sp_space|exact W]|exact N].
  - apply (lo_field b (sp :: w) f fs rest); auto. constructor; [exact sp_space|exact W].
Qed.

Lemma laid_last t f : written t f -> laid_out false [f] t.
Proof.
  intros (-> & O & _). rewrite <- (app_nil_r (field_text f)). apply (lo_field false [] f [] []); auto.
  - destruct f; exact I.
  - apply (lo_end []). constructor.
Qed.

Lemma laid_next t f fs l : written t f -> laid_out false fs l -> laid_out false (f :: fs) (t ++ sp :: l).
Proof.
  intros (-> & O & _) L. apply (lo_field false [] f fs (sp :: l)); auto.
  - destruct f; cbn; [exact sp_space|exact I].
  - apply laid_sp. exact L.
Qed.

Lemma name_like s : (match s with [] => true | _ => str_eqb s (S2 "~") || ((8 <=? length s)%nat && compare_token "NOREFDES" (firstn 8 s)) end) = true
  <-> like_none s.
Proof.
  unfold like_none. destruct s as [|c s]; [intuition|]. set (t := c :: s).
  assert (NE : t <> []) by discriminate. rewrite orb_true_iff, andb_true_iff, str_eqb_eq, Nat.leb_le.
  rewrite (keyword_same "NOREFDES" _ (capitals "NOREFDES" eq_refl)). split.
  - intros [H|(L & H)]; [auto|]. right; right. exists (firstn 8 t), (skipn 8 t). split; [symmetry; apply firstn_skipn|exact H].
  - intros [H|[H|(a & b & E & H)]]; [contradiction|auto|]. right.
    assert (LA : length a = 8%nat).
    { unfold same_word in H. clear - H. assert (X : forall (l m : str), Forall2 same_letter l m -> length m = length l).
      { intros l m F. induction F; cbn; auto. } apply X in H. exact H. }
    rewrite E. rewrite firstn_app, LA, Nat.sub_diag, firstn_O, app_nil_r, <- LA, firstn_all. split; [rewrite app_length; lia|exact H].
Qed.

Lemma shown_none s : like_none s -> ref_shown s = S2 "NOREFDES".
Proof. intros H. unfold ref_shown. rewrite (proj2 (name_like s) H). reflexivity. Qed.

Lemma shown_self s : ~ like_none s -> ref_shown s = s.
Proof.
  intros H. unfold ref_shown. destruct (match s with [] => true | _ => _ end) eqn:E; [|reflexivity].
  apply name_like in E. contradiction.
Qed.

Lemma like_dec s : like_none s \/ ~ like_none s.
Proof.
  destruct (match s with [] => true | _ => str_eqb s (S2 "~") || ((8 <=? length s)%nat && compare_token "NOREFDES" (firstn 8 s)) end) eqn:E.
  - left. apply name_like. exact E.
  - right. rewrite <- name_like. congruence.
Qed.

Lemma ref_again s : plain_name s -> exists r, written (ref_shown s) (Bare (ref_shown s)) /\ ref_word r (ref_shown s) /\
  (like_none s -> r = None) /\ (~ like_none s -> r = Some s).
Proof.
  intros P. destruct (like_dec s) as [H|H].
  - exists None. rewrite (shown_none s H). split; [by_bare|]. split; [|tauto].
    cbn. apply (keyword_same "NOREFDES" (S2 "NOREFDES") (capitals "NOREFDES" eq_refl)). reflexivity.
  - destruct P as [P|(O & N & B & Q)]; [contradiction|]. exists (Some s). rewrite (shown_self s H).
    split; [split; [reflexivity|split; [exact O|exact N]]|]. split; [|tauto].
    cbn. split; [reflexivity|]. split; [apply O|]. split; [|auto].
    intros S. apply H. right; right. exists s, []. rewrite app_nil_r. auto.
Qed.

Lemma num_again u k q : (0 < k)%nat -> sized q ->
  exists q' m k', decimal k' (unit_num u k q) m /\ stream_num (unit_num u k q) = Some q' /\
    near (unit_tol u k) q (conv (named_unit u) q').
Proof.
  intros K S.
  assert (X : exists w, (w = MM \/ w = Thou) /\ unit_num u k q = unit_num w k q /\ unit_tol u k = unit_tol w k /\ named_unit u = w).
  { destruct u; [exists MM|exists Thou|exists Thou]; auto. }
  destruct X as (w & W & E1 & E2 & E3). rewrite E1, E2, E3.
  destruct (unit_reads w V3 k q ltac:(destruct W; subst; discriminate) K S) as (m & k' & q' & r & D & N & T & C & _).
  exists q', m, k'. split; [exact D|]. split; [exact N|]. destruct W as [-> | ->]; cbn in T; injection T as <-; exact C.
Qed.

Lemma near_eq t a b b' : (b == b')%Q -> near t a b -> near t a b'.
Proof. unfold near. intros E H. rewrite <- E. exact H. Qed.

Lemma side_written s : written (side_text s) (Bare (side_text s)).
Proof. destruct s; by_bare. Qed.
Lemma placing_written h : written (placing_text h) (Bare (placing_text h)).
Proof. destruct h; by_bare. Qed.

Lemma side_says s : side_word s (side_text s).
Proof. apply side_read. destruct s; reflexivity. Qed.
Lemma placing_says k h : placing_word V3 k h (placing_text h).
Proof. apply placing_read. destruct h; reflexivity. Qed.

Definition how_of (c : comp) : placing := match c_how c with Some h => h | None => Placed end.

Definition first_line (n : str) (o : names) : str := quoted_text (geom o) ++ sp :: quoted_text (prt o) ++ sp :: ref_shown n.
Definition second_line (u : unit_of) (p : pos) (c : comp) (k : piece) : str :=
  unit_num u 5 (written_x p k) ++ sp :: (unit_num u 5 (o_y p + k_y k) ++ sp :: unit_num u 3 (k_z k) ++ sp ::
  fixed 3 (written_a p k) ++ sp :: side_text (o_side p)) ++ sp :: placing_text (how_of c).

Lemma write_piece_lines u n c k p o : c_pos c = Some p -> k_out k = Some o -> (geom o <> [] \/ prt o <> []) ->
  write_piece u n c k = Some (first_line n o ++ nl :: second_line u p c k ++ [nl]).
Proof.
  intros P O N. unfold write_piece. rewrite O, P.
  unfold first_line, second_line, written_x, written_a, unit_num, how_of. destruct o as [g q]. cbn [geom prt] in *.
  destruct g as [|g gs]; [destruct q as [|q qs]; [destruct N; congruence|]|];
  destruct (o_side p); cbv beta iota zeta; f_equal; repeat (rewrite <- app_assoc; cbn [app]); destruct u; reflexivity.
Qed.

Lemma first_line_read n o rest : ~ In quote (geom o) -> ~ In nl (geom o) -> ~ In quote (prt o) -> ~ In nl (prt o) -> plain_name n ->
  read_line (mkStream (first_line n o ++ nl :: rest) false) = Some (first_line n o, false, mkStream rest false).
Proof.
  intros G1 G2 P1 P2 PN. destruct (ref_again n PN) as (r & W & _).
  destruct (quoted_written _ G1 G2) as (_ & _ & N1). destruct (quoted_written _ P1 P2) as (_ & _ & N2).
  destruct (field_last _ _ W) as (NE & LA). apply read_line_plain.
  - discriminate.
  - unfold first_line. intros I. destruct W as (_ & _ & N3). repeat (apply in_sp in I as [I|[I|I]]; [auto|discriminate|]). auto.
  - intros x. unfold first_line, quoted_text. cbn [app]. intros H. discriminate.
  - intros c x H. unfold first_line, quoted_text in H. cbn [app] in H. injection H as <- _. apply space_false. reflexivity.
  - intros c x H. unfold first_line in H.
    assert (H' : (quoted_text (geom o) ++ sp :: quoted_text (prt o) ++ [sp]) ++ ref_shown n = x ++ [c]).
    { rewrite <- H. repeat (rewrite <- app_assoc; cbn [app]). reflexivity. }
    destruct (app_last _ _ _ _ NE H') as (x' & X). exact (LA c x' X).
Qed.

(** One part. *)
Lemma part_again u n c k cd rest : part_ok u (n, c, k) ->
  exists t r, write_piece u n c k = Some t /\ t <> [] /\
    read_place (mkStream (t ++ rest) false) (named_unit u) V3 cd = Got r (mkStream rest false) /\ part_back u n c k r.
Proof.
  intros (PN & p & o & CP & KO & G1 & G2 & P1 & P2 & NE & S1 & S2' & S3 & S4).
  destruct (num_again u 5 _ ltac:(lia) S1) as (q1 & m1 & k1 & D1 & N1 & C1).
  destruct (num_again u 5 _ ltac:(lia) S2') as (q2 & m2 & k2 & D2 & N2 & C2).
  destruct (num_again u 3 _ ltac:(lia) S3) as (q3 & m3 & k3 & D3 & N3 & C3).
  destruct (num_again MM 3 _ ltac:(lia) S4) as (q4 & m4 & k4 & D4 & N4 & C4).
  cbn [named_unit conv unit_num unit_tol] in D4, N4, C4.
  destruct (ref_again n PN) as (rf & WR & RW & RA & RB).
  rewrite (write_piece_lines u n c k p o CP KO NE). eexists. 
  assert (LL : (first_line n o ++ nl :: second_line u p c k ++ [nl]) ++ rest =
               first_line n o ++ nl :: second_line u p c k ++ nl :: rest)
    by (repeat (rewrite <- app_assoc; cbn [app]); reflexivity).
  pose proof (first_line_read n o (second_line u p c k ++ nl :: rest) G1 G2 P1 P2 PN) as R1.
  assert (R2 : read_line (mkStream (second_line u p c k ++ nl :: rest) false) = Some (second_line u p c k, false, mkStream rest false)).
  { unfold second_line. apply (read_written_line _ k1 m1 _ _ (Bare (placing_text (how_of c)))); [exact D1|apply placing_written|].
    pose proof (decimal_written _ _ _ D2) as (_ & _ & X2). pose proof (decimal_written _ _ _ D3) as (_ & _ & X3).
    pose proof (decimal_written _ _ _ D4) as (_ & _ & X4). destruct (side_written (o_side p)) as (_ & _ & X5).
    intros I. repeat (apply in_sp in I as [I|[I|I]]; [auto|discriminate|]). auto. }
  assert (L1 : laid_out false [Quoted (geom o); Quoted (prt o); Bare (ref_shown n)] (first_line n o)).
  { unfold first_line. apply laid_next; [apply quoted_written; assumption|].
    apply laid_next; [apply quoted_written; assumption|]. apply laid_last. exact WR. }
  assert (L2 : laid_out false [Bare (unit_num u 5 (written_x p k)); Bare (unit_num u 5 (o_y p + k_y k)); Bare (unit_num u 3 (k_z k));
      Bare (fixed 3 (written_a p k)); Bare (side_text (o_side p)); Bare (placing_text (how_of c))] (second_line u p c k)).
  { unfold second_line. repeat (rewrite <- app_assoc; cbn [app]).
    apply laid_next; [apply (decimal_written _ _ _ D1)|]. apply laid_next; [apply (decimal_written _ _ _ D2)|].
    apply laid_next; [apply (decimal_written _ _ _ D3)|]. apply laid_next; [apply (decimal_written _ _ _ D4)|].
    apply laid_next; [apply side_written|]. apply laid_last. apply placing_written. }
  destruct (place_means _ (named_unit u) V3 cd _ _ _ _ _ _ _ _ R1 L1 R2 L2 eq_refl) as (_ & PM).
  set (r := mkPrec o rf (conv (named_unit u) q1) (conv (named_unit u) q2) (conv (named_unit u) q3) q4 (o_side p) (how_of c)).
  destruct (PM r) as (r' & RP & (E1 & E2 & E3 & E4 & E5 & E6 & E7 & E8)).
  - exists (Quoted (geom o)), (Quoted (prt o)), (Bare (ref_shown n)), []. split; [reflexivity|].
    split; [intros (X & _); discriminate|]. cbn. split; [destruct o; reflexivity|exact RW].
  - eapply spot_v3; cbn [value r_x r_y r_z r_a r_side r_how r]; [exact N1|exact N2|exact N3|exact N4|apply conv_unit|apply conv_unit|apply conv_unit|reflexivity|apply side_says|apply placing_says].
  - exists r'. split; [reflexivity|]. split; [discriminate|]. split; [rewrite LL; exact RP|].
    exists p. cbn [r r_names r_ref r_side r_how r_x r_y r_z r_a] in *. rewrite <- E1, <- E2, <- E3, <- E4.
    split; [exact CP|]. split; [exact KO|]. split; [exact RA|]. split; [exact RB|].
    split; [apply (near_eq _ _ _ _ E5); apply (near_ext _ _ _ _ (unit_tol_pos u) C1)|].
    split; [apply (near_eq _ _ _ _ E6); apply (near_ext _ _ _ _ (unit_tol_pos u) C2)|].
    split; [apply (near_eq _ _ _ _ E7); refine (near_ext _ _ _ _ _ C3); destruct u; reflexivity|].
    split; [apply (near_eq _ _ _ _ E8); exact C4|]. split; reflexivity.
Qed.

(** ** The section *)

Definition wr (u : unit_of) (x : str * comp * piece) : str :=
  let '(n, c, k) := x in match write_piece u n c k with Some t => t | None => [] end.

Definition back (u : unit_of) (x : str * comp * piece) (r : prec) : Prop := let '(n, c, k) := x in part_back u n c k r.

Lemma read_all_list2 {A B} (rd : stream -> got B) (w : A -> str) (ok : A -> Prop) (P : A -> B -> Prop) endt g :
  (forall a rest, ok a -> exists a', rd (mkStream (w a ++ rest) false) = Got a' (mkStream rest false) /\ P a a') ->
  rd (mkStream endt false) = Over g ->
  forall l fuel, Forall ok l -> (length l < fuel)%nat ->
  exists l', read_all rd fuel (mkStream (flat_map w l ++ endt) false) = Some (l', g) /\ Forall2 P l l'.
Proof.
  intros H E. induction l as [|a l IH]; intros fuel F K; destruct fuel as [|fuel]; try lia.
  - exists []. cbn. rewrite E. split; [reflexivity|constructor].
  - inversion F; subst. cbn [flat_map]. rewrite <- app_assoc.
    destruct (H a (flat_map w l ++ endt) H2) as (a' & R & B').
    destruct (IH fuel H3 ltac:(cbn in K; lia)) as (l' & R' & B'').
    exists (a' :: l'). cbn [read_all]. rewrite R, R'. split; [reflexivity|]. constructor; assumption.
Qed.

Lemma write_comps_flat u cs : Forall (fun x : str * comp * piece => let '(n, c, k) := x in write_piece u n c k <> None)
    (flat_map (fun nc => map (fun k => (fst nc, snd nc, k)) (c_pieces (snd nc))) cs) ->
  write_comps u cs = Some (flat_map (wr u) (flat_map (fun nc => map (fun k => (fst nc, snd nc, k)) (c_pieces (snd nc))) cs)).
Proof.
  induction cs as [|[n c] cs IH]; intros F; cbn [write_comps flat_map fst snd]; [reflexivity|].
  cbn [flat_map fst snd] in F. apply Forall_app in F as (F1 & F2). rewrite (IH F2).
  assert (X : write_pieces u n c (c_pieces c) = Some (flat_map (wr u) (map (fun k => (n, c, k)) (c_pieces c)))).
  { clear IH F2. induction (c_pieces c) as [|k ks IH]; [reflexivity|]. cbn [write_pieces map flat_map wr].
    inversion F1; subst. destruct (write_piece u n c k) as [t|]; [|congruence]. rewrite (IH H2). reflexivity. }
  rewrite X, flat_map_app. reflexivity.
Qed.

Lemma places_end u v k rest : read_place (mkStream ((S2 ".END_PLACEMENT" ++ [nl]) ++ rest) false) u v k = Over (mkStream rest false).
Proof.
  destruct (bare_by (S2 ".END_PLACEMENT") ltac:(discriminate) eq_refl eq_refl) as (T & O & N).
  assert (R : read_line (mkStream ((S2 ".END_PLACEMENT" ++ [nl]) ++ rest) false) = Some (S2 ".END_PLACEMENT", false, mkStream rest false)).
  { rewrite <- app_assoc. cbn [app]. apply (read_line_plain (S2 ".END_PLACEMENT") rest); [discriminate|exact N|discriminate| |].
    - intros c r E. destruct O as (_ & O & _). rewrite Forall_forall in O. apply O. rewrite E. left. reflexivity.
    - intros c r E. destruct O as (_ & O & _). rewrite Forall_forall in O. apply O. rewrite E, in_app_iff. right. left. reflexivity. }
  apply (place_over _ u v k _ _ _ _ R (laid_last _ _ (conj T (conj O N)))). split; [reflexivity|].
  exists (S2 ".END_PLACEMENT"), []. split; [reflexivity|].
  apply (keyword_same ".END_PLACEMENT" _ (capitals ".END_PLACEMENT" eq_refl)). reflexivity.
Qed.

Lemma places_again u b cd rest : Forall (part_ok u) (parts_of b) ->
  exists t l, write_placement u b = Some t /\
    read_places (mkStream (t ++ rest) false) (named_unit u) V3 cd = Some (l, mkStream rest false) /\
    Forall2 (back u) (parts_of b) l.
Proof.
  intros F. unfold write_placement, parts_of in *.
  set (ps := flat_map (fun nc => map (fun k => (fst nc, snd nc, k)) (c_pieces (snd nc))) (b_comps b)) in *.
  assert (W : write_comps u (b_comps b) = Some (flat_map (wr u) ps)).
  { apply write_comps_flat. fold ps. revert F. apply Forall_impl. intros [[n c] k] O.
    destruct (part_again u n c k cd [] O) as (t & r & E & _). congruence. }
  rewrite W.
  destruct (read_all_list2 (fun f => read_place f (named_unit u) V3 cd) (wr u) (part_ok u) (back u)
    ((S2 ".END_PLACEMENT" ++ [nl]) ++ rest) (mkStream rest false)) with (l := ps)
    (fuel := S (length ((flat_map (wr u) ps ++ S2 ".END_PLACEMENT" ++ [nl]) ++ rest))) as (l & R & B).
  - intros [[n c] k] r O. destruct (part_again u n c k cd r O) as (t & x & E & _ & R & B). exists x. cbn [wr back]. rewrite E. auto.
  - apply places_end.
  - exact F.
  - assert (X : (length ps <= length (flat_map (wr u) ps))%nat).
    { clear W. induction F as [|[[n c] k] l O F IH]; cbn [flat_map length]; [lia|]. rewrite app_length.
      destruct (part_again u n c k cd [] O) as (t & r & E & NE & _). cbn [wr]. rewrite E. destruct t; [congruence|]. cbn [length]. lia. }
    rewrite !app_length. lia.
  - eexists _, l. split; [reflexivity|]. split; [|exact B]. unfold read_places. cbn [s_rest].
    rewrite <- R. f_equal. rewrite <- !app_assoc. reflexivity.
Qed.

(** ** The board *)

Lemma in_dec_str (k : str) l : {In k l} + {~ In k l}.
Proof. apply in_dec. apply list_eq_dec. apply ascii_dec. Qed.

Lemma filed_named l : Forall (fun r => r_ref r <> None) l -> forall n,
  filed n (map Put l) = map (fun r => (match r_ref r with Some s => s | None => [] end, r)) l.
Proof. induction 1 as [|r l H F IH]; intros n; cbn [filed map]; [reflexivity|]. rewrite IH. destruct (r_ref r); [reflexivity|congruence]. Qed.

Definition name_of (x : str * comp * piece) : str := fst (fst x).

Lemma pick_back u ps l : Forall2 (back u) ps l -> Forall (fun x => ~ like_none (name_of x)) ps -> forall k,
  Forall2 (back u) (filter (fun x => str_eqb (name_of x) k) ps) (pickf k (filed 0 (map Put l))).
Proof.
  intros B N k.
  assert (R : Forall2 (fun x r => back u x r /\ r_ref r = Some (name_of x)) ps l).
  { revert N. induction B as [|[[n c] p] r ps l H B IH]; intros N; [constructor|]. inversion N as [|? ? N1 N2]; subst.
    constructor; [|auto]. split; [exact H|]. destruct H as (q & _ & _ & _ & X & _). apply X. exact N1. }
  rewrite filed_named.
  - unfold pickf. clear B N. induction R as [|x r ps l (H & E) R IH]; cbn [filter map fst]; [constructor|].
    rewrite E. destruct (str_eqb (name_of x) k); cbn [map snd]; [constructor|]; auto.
  - clear B N. induction R as [|x r ps l (H & E) R IH]; constructor; auto. congruence.
Qed.

Lemma parts_filter cs k c : NoDup (map fst cs) -> In (k, c) cs ->
  filter (fun x => str_eqb (name_of x) k) (flat_map (fun nc : str * comp => map (fun p => (fst nc, snd nc, p)) (c_pieces (snd nc))) cs) =
  map (fun p => (k, c, p)) (c_pieces c).
Proof.
  assert (ALL : forall n (c : comp) l, filter (fun x => str_eqb (name_of x) n) (map (fun p => (n, c, p)) l) = map (fun p : piece => (n, c, p)) l).
  { intros n c0 l. induction l as [|p l IH]; cbn [map filter name_of fst]; [reflexivity|]. rewrite eqb_same, IH. reflexivity. }
  assert (NON : forall n n' (c : comp) l, n' <> n -> filter (fun x => str_eqb (name_of x) n) (map (fun p : piece => (n', c, p)) l) = []).
  { intros n n' c0 l N. induction l as [|p l IH]; cbn [map filter name_of fst]; [reflexivity|].
    destruct (eqb_cases n' n) as [[_ X]|[-> _]]; [contradiction|exact IH]. }
  intros D I. induction cs as [|[n c'] cs IH]; [destruct I|]. cbn [map fst flat_map snd] in *. inversion D as [|? ? NI D']; subst.
  rewrite filter_app. destruct I as [I|I].
  - injection I as -> ->. rewrite ALL. rewrite <- (app_nil_r (map _ (c_pieces c))) at 2. f_equal. clear IH D D'.
    induction cs as [|[n1 c1] cs IH]; [reflexivity|]. cbn [flat_map fst snd map] in *. rewrite filter_app, NON.
    + apply IH. intros X. apply NI. right. exact X.
    + intros ->. apply NI. left. reflexivity.
  - rewrite NON; [apply IH; assumption|]. intros ->. apply NI. apply (in_map fst) in I. exact I.
Qed.

Lemma in_parts b n c k : In (n, c, k) (parts_of b) <-> In (n, c) (b_comps b) /\ In k (c_pieces c).
Proof.
  unfold parts_of. rewrite in_flat_map. split.
  - intros ([n' c'] & I & J). cbn in J. apply in_map_iff in J as (p & E & J). injection E as -> -> ->. auto.
  - intros (I & J). exists (n, c). split; [exact I|]. cbn. apply in_map_iff. exists k. auto.
Qed.

Lemma back_agree u b l : NoDup (map fst (b_comps b)) -> Forall2 (back u) (parts_of b) l ->
  Forall (fun x => ~ like_none (name_of x)) (parts_of b) -> agree (filed 0 (map Put l)).
Proof.
  intros D B N k r r' I J.
  assert (X : forall r, In (k, r) (filed 0 (map Put l)) -> exists c p, In (k, c) (b_comps b) /\ c_pos c = Some p /\ r_side r = o_side p /\ r_how r = how_of c).
  { intros x H. apply pickf_in in H. pose proof (pick_back u _ _ B N k) as F.
    assert (Y : exists y, In y (filter (fun x => str_eqb (name_of x) k) (parts_of b)) /\ back u y x).
    { clear - F H. induction F as [|y z m n P F IH]; [destruct H|]. destruct H as [->|H]; [exists y; split; [left; reflexivity|exact P]|].
      destruct (IH H) as (w & W & Q). exists w. split; [right; exact W|exact Q]. }
    destruct Y as ([[n c] p] & Y & Q). apply filter_In in Y as (Y & E). cbn in E. apply str_eqb_eq in E. subst n.
    apply in_parts in Y as (Y & _). destruct Q as (q & Q1 & _ & _ & _ & _ & _ & _ & _ & Q2 & Q3). exists c, q. auto. }
  destruct (X r I) as (c & p & I1 & P1 & S1 & H1). destruct (X r' J) as (c' & p' & I2 & P2 & S2 & H2).
  pose proof (in_find _ _ _ D I1) as F1. pose proof (in_find _ _ _ D I2) as F2. rewrite F1 in F2. injection F2 as <-.
  split; congruence.
Qed.

Lemma gets_listed nosub outs n o : library outs -> In (key_of n, n) outs -> gets nosub outs n o -> o = Some n.
Proof.
  intros (D & L) I G. assert (K : In (key_of n) (map fst outs)) by (apply (in_map fst) in I; exact I).
  destruct nosub; cbn [gets] in G.
  - destruct o as [o|]; cbn in G; [|contradiction]. f_equal.
    pose proof (in_find _ _ _ D I) as A. pose proof (in_find _ _ _ D G) as B. congruence.
  - destruct G as (o' & -> & G & _). f_equal. specialize (G K).
    pose proof (in_find _ _ _ D I) as A. pose proof (in_find _ _ _ D G) as B. congruence.
Qed.

(** A board whose components are named, lie on top or have no offsets, and have outlines
    from the library, is read again as it was. *)
Lemma board_again u nosub outs b cd rest : library outs -> in_order (map fst (b_comps b)) ->
  Forall (part_ok u) (parts_of b) ->
  (forall n c k, In (n, c, k) (parts_of b) -> ~ like_none n /\
     (forall o, k_out k = Some o -> In (key_of o, o) outs) /\
     (forall p, c_pos c = Some p -> o_side p = Top \/ ((k_x k == 0)%Q /\ (k_a k == 0)%Q))) ->
  exists t b', write_placement u b = Some t /\
    read_placement nosub (mkStream (t ++ rest) false) (named_unit u) V3 cd (new_board outs) = Some (b', mkStream rest false) /\
    (forall n, In n (map fst (b_comps b')) <-> exists c, In (n, c) (b_comps b) /\ c_pieces c <> []) /\
    (forall n c c', In (n, c) (b_comps b) -> In (n, c') (b_comps b') -> Forall2 (piece_back u c c') (c_pieces c) (c_pieces c')).
Proof.
  intros L O F H. destruct (places_again u b cd rest F) as (t & l & W & R & B).
  assert (N : Forall (fun x => ~ like_none (name_of x)) (parts_of b)).
  { apply Forall_forall. intros [[n c] k] I. apply (H n c k I). }
  pose proof (order_nodup _ O) as D.
  pose proof (back_agree u b l D B N) as AG.
  apply (proj2 (run_agree nosub outs (map Put l) L)) in AG.
  destruct (run nosub (map Put l) (new_board outs)) as [b'|] eqn:RN; [|congruence]. clear AG.
  exists t, b'. split; [exact W|]. split; [unfold read_placement; rewrite R, RN; reflexivity|].
  pose proof (run_board nosub outs _ b' L RN) as (O' & M' & C' & _).
  split.
  - intros n. rewrite M', mentioned_iff.
    assert (HO : holesf n (map Put l) = []) by (clear; induction l; [reflexivity|exact IHl]).
    rewrite HO. pose proof (pick_back u _ _ B N n) as P. split.
    + intros [Q|Q]; [|congruence]. inversion P as [E1 E2|x r xs rs X1 X2 E1 E2]; [congruence|].
      assert (I : In x (filter (fun x => str_eqb (name_of x) n) (parts_of b))) by (rewrite <- E1; left; reflexivity).
      apply filter_In in I as (I & E). destruct x as [[n' c] k]. cbn in E. apply str_eqb_eq in E. subst n'.
      apply in_parts in I as (I & J). exists c. split; [exact I|]. intros X. rewrite X in J. destruct J.
    + intros (c & I & J). left. unfold parts_of in P. rewrite (parts_filter _ n c D I) in P.
      destruct (c_pieces c) as [|k ks]; [congruence|]. inversion P. discriminate.
  - intros n c c' I I'. destruct (C' n c' I') as (_ & _ & rs & PK & FS). rewrite (pick_fun _ _ _ PK) in FS.
    pose proof (pick_back u _ _ B N n) as P. unfold parts_of in P. rewrite (parts_filter _ n c D I) in P.
    assert (HP : forall k, In k (c_pieces c) -> In (n, c, k) (parts_of b)) by (intros k J; apply in_parts; auto).
    revert P FS HP. generalize (pickf n (filed 0 (map Put l))). generalize (c_pieces c) (c_pieces c').
    intros ks ks' rs0 P. revert ks'. remember (map (fun p => (n, c, p)) ks) as xs eqn:EX. revert ks EX.
    induction P as [|x r xs rs0 Q P IH]; intros ks EX ks' FS HP.
    + destruct ks; [|discriminate]. inversion FS. constructor.
    + destruct ks as [|k ks]; [discriminate|]. cbn in EX. injection EX as -> EX.
      inversion FS as [|? k' ? ks1 S FS' Y1 Y2]; subst. constructor.
      * destruct Q as (p & P1 & P2 & _ & _ & P3 & P4 & P5 & P6 & P7 & P8).
        destruct S as (p' & Q1 & Q2 & Q3 & Q4 & Q5 & Q6 & Q7 & Q8).
        destruct (H n c k (HP k (or_introl eq_refl))) as (_ & HL & HS). specialize (HS p P1). specialize (HL _ P2).
        exists p, p'. split; [exact P1|]. split; [exact Q1|]. split; [congruence|]. split; [rewrite Q2, P8; reflexivity|].
        assert (EX : (written_x p k == o_x p + k_x k)%Q).
        { unfold written_x. destruct HS as [-> | (Z1 & Z2)]; [reflexivity|]. destruct (o_side p); [reflexivity|]. rewrite Z1. ring. }
        assert (EA : (written_a p k == o_a p + k_a k)%Q).
        { unfold written_a. destruct HS as [-> | (Z1 & Z2)]; [reflexivity|]. destruct (o_side p); [reflexivity|]. rewrite Z2. ring. }
        split; [unfold near in *; rewrite Q4, <- EX; exact P3|]. split; [unfold near in *; rewrite Q5; exact P4|].
        split; [rewrite Q7; exact P5|]. split; [unfold near in *; rewrite Q6, <- EA; exact P6|].
        rewrite P2. apply (gets_listed nosub outs); auto.
      * apply IH; [reflexivity|exact FS'|]. intros k0 J. apply HP. right. exact J.
Qed.

(** ** Holes *)


Lemma find_above k m : Forall (comes_before k) (map fst m) -> @find comp k m = None.
Proof.
  intros F. apply find_none. intros I. rewrite Forall_forall in F. apply (before_irrefl k). auto.
Qed.

Lemma put_holes k c d m : in_order (map fst m) ->
  c_holes c = match find k m with Some c0 => c_holes c0 | None => [] end ++ d ->
  Permutation (flat_map (fun c => c_holes (snd c)) (put k c m)) (flat_map (fun c => c_holes (snd c)) m ++ d).
Proof.
  induction m as [|[k1 c1] m IH]; intros O E; cbn [put find map fst] in *.
  - cbn. rewrite E, app_nil_r. reflexivity.
  - inversion O as [|? ? F O']; subst. destruct (eqb_cases k k1) as [[-> ->]|[X N]].
    + rewrite eqb_same in E. cbn [flat_map snd]. rewrite E, <- !app_assoc. apply Permutation_app_head. apply Permutation_app_comm.
    + rewrite X in *. destruct (str_ltb k k1) eqn:LT; cbn [flat_map snd].
      * assert (FN : find k m = None).
        { apply find_above. apply ltb_before in LT. revert F. apply Forall_impl. intros x. apply before_trans. exact LT. }
        rewrite FN in E. cbn [app] in E. rewrite E. apply Permutation_app_comm.
      * rewrite <- app_assoc. apply Permutation_app_head. apply IH; assumption.
Qed.

Lemma holes_kept nosub outs es b : library outs -> run nosub es (new_board outs) = Some b ->
  Permutation (holes_written b) (all_holes es).
Proof.
  intros L. revert b. induction es as [|e es IH] using rev_ind; intros b.
  - cbn. intros H. injection H as <-. reflexivity.
  - rewrite run_app. pose proof (run_inv nosub outs es L) as V. destruct (run nosub es (new_board outs)) as [b0|]; [|discriminate].
    destruct V as (O & _). specialize (IH b0 eq_refl). unfold all_holes in *. rewrite flat_map_app.
    cbn [run flat_map]. destruct e as [d|r]; cbn [step].
    + intros H. injection H as <-. unfold add_hole. destruct (_ || _); unfold holes_written; cbn [b_holes b_comps app].
      * rewrite <- app_assoc. cbn [app]. rewrite <- IH. unfold holes_written.
        transitivity (d :: b_holes b0 ++ flat_map (fun c => c_holes (snd c)) (b_comps b0)); [symmetry; apply Permutation_middle|].
        apply Permutation_cons_append.
      * rewrite <- IH. unfold holes_written. rewrite <- app_assoc. apply Permutation_app_head. apply (put_holes _ _ [d]); [exact O|].
        cbn [c_holes]. destruct (find (ref_name (dr_ref d)) (b_comps b0)); reflexivity.
    + unfold place. rewrite app_nil_r.
      destruct (match r_ref r with Some s => _ | None => _ end) as [name next].
      destruct (outline_for nosub (r_names r) (b_outs b0)) as [o cur].
      assert (P : forall c, c_holes c = match find name (b_comps b0) with Some c0 => c_holes c0 | None => [] end ->
         Some (mkBrd (put name c (b_comps b0)) next cur (b_holes b0)) = Some b ->
         Permutation (holes_written b) (flat_map (fun e => match e with Hole d => [d] | Put _ => [] end) es)).
      { intros c E H. injection H as <-. rewrite <- IH. unfold holes_written. cbn [b_holes b_comps]. apply Permutation_app_head.
        rewrite <- (app_nil_r (flat_map _ (b_comps b0))). apply put_holes; [exact O|]. rewrite app_nil_r. exact E. }
      destruct (find name (b_comps b0)) as [c|] eqn:FN; [|apply P; reflexivity].
      destruct (c_pos c) as [p|]; [|apply P; reflexivity].
      destruct (negb (side_eqb (r_side r) (o_side p))); [discriminate|].
      destruct (negb _); [discriminate|]. apply P; reflexivity.
Qed.

Lemma places_again' u b cd rest : Forall (part_ok u) (parts_of b) ->
  exists t l, write_placement u b = Some t /\
    read_places (mkStream (t ++ rest) false) (named_unit u) V3 cd = Some (l, mkStream rest false) /\
    Forall2 (fun x r => part_back u (fst (fst x)) (snd (fst x)) (snd x) r) (parts_of b) l.
Proof.
  intros F. destruct (places_again u b cd rest F) as (t & l & W & R & B). exists t, l. split; [exact W|]. split; [exact R|].
  revert B. apply Forall2_weaken. intros [[n c] k] r H. exact H.
Qed.
