(** Facts about the lines of the sections of an IDF board (IdfFile.v, IdfRecSpec.v). *)

From Verif Require Import Base Num IoModel IdfText IdfOutl IdfFile Spec IdfSpec IdfOutlSpec IdfFileSpec IdfRecSpec
  IdfFacts IdfNum IdfRound IdfSect IdfLine IdfOutlFacts IdfOutlSec IdfOutlText IdfFileHead IdfFileSect IdfFileOrder IdfFileOutl.
From Coq Require Import Lia.
Open Scope Z_scope.

(** ** The second line *)

Lemma layer_iff s l : parse_layer s = Some l <-> layer_said s l.
Proof.
  unfold parse_layer.
  assert (X : forall k k', same_word k s -> same_word k' s ->
    forallb (fun c => negb ((97 <=? code c) && (code c <=? 122))) (S2 k) = true ->
    forallb (fun c => negb ((97 <=? code c) && (code c <=? 122))) (S2 k') = true -> S2 k <> S2 k' -> False).
  { intros k k' A B C D N. exact (N (word_excl _ _ _ A B C D)). }
  destruct (key_cases "TOP" s eq_refl) as [(C & S1)|(C & S1)]; rewrite C; clear C.
  { split; [intros H; injection H as <-; exact S1|]. destruct l; cbn; intros H; try reflexivity; destruct (X _ _ S1 H eq_refl eq_refl); discriminate. }
  destruct (key_cases "BOTTOM" s eq_refl) as [(C & S2')|(C & S2')]; rewrite C; clear C.
  { split; [intros H; injection H as <-; exact S2'|]. destruct l; cbn; intros H; try tauto; destruct (X _ _ S2' H eq_refl eq_refl); discriminate. }
  destruct (key_cases "BOTH" s eq_refl) as [(C & S3)|(C & S3)]; rewrite C; clear C.
  { split; [intros H; injection H as <-; exact S3|]. destruct l; cbn; intros H; try tauto; destruct (X _ _ S3 H eq_refl eq_refl); discriminate. }
  destruct (key_cases "INNER" s eq_refl) as [(C & S4)|(C & S4)]; rewrite C; clear C.
  { split; [intros H; injection H as <-; exact S4|]. destruct l; cbn; intros H; try tauto; destruct (X _ _ S4 H eq_refl eq_refl); discriminate. }
  destruct (key_cases "ALL" s eq_refl) as [(C & S5)|(C & S5)]; rewrite C; clear C.
  { split; [intros H; injection H as <-; exact S5|]. destruct l; cbn; intros H; try tauto. }
  split; [discriminate|]. destruct l; cbn; tauto.
Qed.

Lemma length_iff u v s q : length_field u v s = Some q <-> measured u v s q.
Proof.
  unfold length_field, measured. destruct (stream_num s) as [x|].
  - split; [intros H; exists x; auto|intros (y & E & H); injection E as <-; exact H].
  - split; [discriminate|intros (y & E & _); discriminate].
Qed.

Lemma thick_iff y q : board_high y = q <-> thick y q.
Proof.
  unfold board_high, thick. destruct (Qle_bool y 0) eqn:L.
  - apply Qle_bool_iff in L. destruct (Qeq_bool y 0) eqn:E.
    + apply Qeq_bool_iff in E. split; [intros <-; auto|]. intros [(H & _)|[(H & _)|(_ & ->)]]; [| |reflexivity]; exfalso; rewrite E in H; revert H; apply Qlt_irrefl.
    + apply Qeq_bool_neq in E. assert (N : (y < 0)%Q) by (apply Qle_lteq in L as [L|L]; [exact L|contradiction]).
      split; [intros <-; auto|]. intros [(H & _)|[(_ & ->)|(H & _)]]; [|reflexivity|contradiction].
      exfalso. apply (Qlt_irrefl y). apply (Qlt_trans _ 0); assumption.
  - assert (N : (0 < y)%Q). { apply Qnot_le_lt. intros X. apply Qle_bool_iff in X. congruence. }
    split; [intros <-; auto|]. intros [(_ & ->)|[(H & _)|(H & _)]]; [reflexivity| |].
    + exfalso. apply (Qlt_irrefl y). apply (Qlt_trans _ 0); assumption.
    + exfalso. rewrite H in N. revert N. apply Qlt_irrefl.
Qed.

Lemma second_iff k u v line b fs id q l : k <> KViaKo -> laid_out b fs line ->
  (second_line k u v line = Some (id, q, l) <-> second_means k u v fs id q l).
Proof.
  intros NV L0. pose proof (before_start line [] false) as B0.
  pose proof (word_laid _ _ _ _ _ L0 B0) as G. pose proof (get_laid _ _ _ _ _ L0 B0) as G0.
  destruct k; try contradiction; unfold second_line; cbn iota; cbn [second_means].
  - (* board *)
    destruct fs as [|h fs]; [rewrite G; split; [discriminate|intros (_ & _ & h & m & y & E & _); discriminate]|].
    destruct G as (s1 & r1 & E1 & _). rewrite E1. split.
    + destruct (length_field u v (value h)) as [y|] eqn:LF; [|discriminate]. intros H.
      assert (T : board_high y = q) by congruence. split; [congruence|]. split; [congruence|].
      exists h, fs, y. split; [reflexivity|]. split; [apply length_iff, LF|apply thick_iff, T].
    + intros (-> & -> & h' & m & y & E & M & T). injection E as <- <-. apply length_iff in M. rewrite M. apply thick_iff in T. rewrite T. reflexivity.
  - (* other *)
    destruct fs as [|i fs]; [rewrite G; split; [discriminate|intros (i & h & m & E & _); discriminate]|].
    destruct G as (s1 & r1 & E1 & _ & B1 & L1). rewrite E1. clear G0.
    pose proof (word_laid _ _ _ _ _ L1 B1) as G. destruct fs as [|h fs]; [rewrite G; split; [discriminate|intros (i' & h & m & E & _); discriminate]|].
    destruct G as (s2 & r2 & E2 & _ & B2 & L2). rewrite E2.
    pose proof (word_laid _ _ _ _ _ L2 B2) as G.
    destruct (length_field u v (value h)) as [y|] eqn:LF.
    2: { split; [discriminate|]. intros (i' & h' & m & E & _ & M & _). injection E as <- <- <-. apply length_iff in M. congruence. }
    destruct v.
    + split.
      * intros H. exists i, h, fs. split; [reflexivity|]. split; [congruence|]. split; [apply length_iff; congruence|congruence].
      * intros (i' & h' & m & E & -> & M & ->). injection E as <- <- <-. apply length_iff in M. congruence.
    + destruct fs as [|s fs].
      { rewrite G. split; [discriminate|]. intros (i' & h' & m & E & _ & _ & s & m' & x & E' & _). injection E as <- <- <-. discriminate. }
      destruct G as (s3 & r3 & E3 & _). rewrite E3. split.
      * intros H. exists i, h, (s :: fs).
        destruct (parse_layer (value s)) as [x|] eqn:PL; [|discriminate]. apply layer_iff in PL.
        destruct x; try discriminate; (split; [reflexivity|]; split; [congruence|]; split; [apply length_iff; congruence|]).
        -- exists s, fs, LTop. split; [reflexivity|]. split; [exact PL|]. split; [auto|congruence].
        -- exists s, fs, LBottom. split; [reflexivity|]. split; [exact PL|]. split; [auto|congruence].
      * intros (i' & h' & m & E & -> & M & s' & m' & x & E' & SL & OR & ->). injection E as <- <- <-. injection E' as <- <-.
        apply length_iff in M. apply layer_iff in SL. rewrite SL. destruct OR as [-> | ->]; congruence.
  - (* route *)
    destruct fs as [|s fs].
    { destruct G0 as (st & G0 & _). rewrite G0. split; [discriminate|]. intros (_ & _ & s & m & x & E & _). discriminate. }
    destruct G0 as (st & r & -> & T & Q & _). rewrite T, Q. split.
    + destruct s as [s|s]; cbn [in_quotes value]; [|discriminate]. destruct (parse_layer s) as [x|] eqn:PL; [|discriminate]. apply layer_iff in PL.
      intros H. assert (OK : (v = V2 -> outer x) /\ id = [] /\ q = 0%Q /\ l = Some x).
      { unfold outer. destruct x, v; try discriminate; split; try (intros E; try discriminate E; tauto); split; try congruence; split; congruence. }
      destruct OK as (O & -> & -> & ->). split; [reflexivity|]. split; [reflexivity|]. exists s, fs, x. auto.
    + intros (-> & -> & s' & m & x & E & SL & O & ->). injection E as -> <-. cbn [in_quotes value]. apply layer_iff in SL. rewrite SL.
      destruct x, v; try reflexivity; destruct (O eq_refl) as [X|[X|X]]; discriminate.
  - (* place *)
    destruct fs as [|s fs]; [rewrite G; split; [discriminate|intros (_ & s & m & x & E & _); discriminate]|].
    destruct G as (s1 & r1 & E1 & _ & B1 & L1). rewrite E1. clear G0.
    pose proof (get_laid _ _ _ _ _ L1 B1) as G0. destruct fs as [|h fs].
    + destruct G0 as (st & -> & _). split.
      * destruct (parse_layer (value s)) as [x|] eqn:PL; [|discriminate]. apply layer_iff in PL. unfold outer.
        destruct x; try discriminate; intros H; (split; [congruence|]); eexists s, [], _; (split; [reflexivity|]; split; [exact PL|]; split; [tauto|]; split; [congruence|]; split; [reflexivity|congruence]).
      * intros (-> & s' & m & x & E & SL & O & -> & KP). injection E as <- <-. destruct KP as (_ & ->). apply layer_iff in SL. rewrite SL.
        destruct O as [->|[->| ->]]; reflexivity.
    + destruct G0 as (st & r & -> & T & _). rewrite T. split.
      * destruct (parse_layer (value s)) as [x|] eqn:PL; [|discriminate]. apply layer_iff in PL. unfold outer. intros H.
        assert (OK : (x = LTop \/ x = LBottom \/ x = LBoth) /\ id = [] /\ l = Some x /\
                     exists y, stream_num (value h) = Some y /\ (0 <= y)%Q /\ to_mm u v y = Some q).
        { destruct (stream_num (value h)) as [y|]; [|destruct x; discriminate]. destruct (Qle_bool 0 y) eqn:QL; [|destruct x; discriminate].
          apply Qle_bool_iff in QL. cbn [negb] in H. destruct (to_mm u v y) as [z|] eqn:TM; [|destruct x; discriminate].
          destruct x; try discriminate; (split; [tauto|]; split; [congruence|]; split; [congruence|]); exists y; (split; [reflexivity|]; split; [exact QL|congruence]). }
        destruct OK as (O & -> & -> & Y). split; [reflexivity|]. exists s, (h :: fs), x. auto 6.
      * intros (-> & s' & m & x & E & SL & O & -> & KP). injection E as <- <-. destruct KP as (y & SN & LE & TM). apply layer_iff in SL. rewrite SL, SN.
        apply Qle_bool_iff in LE. rewrite LE. cbn [negb]. rewrite TM. destruct O as [->|[->| ->]]; reflexivity.
  - (* route keepout *)
    destruct fs as [|s fs].
    { destruct G0 as (st & G0 & _). rewrite G0. split; [discriminate|]. intros (_ & _ & s & m & x & E & _). discriminate. }
    destruct G0 as (st & r & -> & T & Q & _). rewrite T, Q. split.
    + destruct s as [s|s]; cbn [in_quotes value]; [|discriminate]. destruct (parse_layer s) as [x|] eqn:PL; [|discriminate]. apply layer_iff in PL.
      intros H. assert (OK : (v = V2 -> outer x) /\ id = [] /\ q = 0%Q /\ l = Some x).
      { unfold outer. destruct x, v; try discriminate; split; try (intros E; try discriminate E; tauto); split; try congruence; split; congruence. }
      destruct OK as (O & -> & -> & ->). split; [reflexivity|]. split; [reflexivity|]. exists s, fs, x. auto.
    + intros (-> & -> & s' & m & x & E & SL & O & ->). injection E as -> <-. cbn [in_quotes value]. apply layer_iff in SL. rewrite SL.
      destruct x, v; try reflexivity; destruct (O eq_refl) as [X|[X|X]]; discriminate.
  - (* place keepout *)
    destruct fs as [|s fs]; [rewrite G; split; [discriminate|intros (_ & s & m & x & E & _); discriminate]|].
    destruct G as (s1 & r1 & E1 & _ & B1 & L1). rewrite E1. clear G0.
    pose proof (get_laid _ _ _ _ _ L1 B1) as G0. destruct fs as [|h fs].
    + destruct G0 as (st & -> & _). split.
      * destruct (parse_layer (value s)) as [x|]; [|discriminate]. destruct x; discriminate.
      * intros (-> & s' & m & x & E & SL & O & -> & KP). injection E as <- <-. destruct KP as (X & _). discriminate.
    + destruct G0 as (st & r & -> & T & _). rewrite T. split.
      * destruct (parse_layer (value s)) as [x|] eqn:PL; [|discriminate]. apply layer_iff in PL. unfold outer. intros H.
        assert (OK : (x = LTop \/ x = LBottom \/ x = LBoth) /\ id = [] /\ l = Some x /\
                     exists y, stream_num (value h) = Some y /\ (0 <= y)%Q /\ to_mm u v y = Some q).
        { destruct (stream_num (value h)) as [y|]; [|destruct x; discriminate]. destruct (Qle_bool 0 y) eqn:QL; [|destruct x; discriminate].
          apply Qle_bool_iff in QL. cbn [negb] in H. destruct (to_mm u v y) as [z|] eqn:TM; [|destruct x; discriminate].
          destruct x; try discriminate; (split; [tauto|]; split; [congruence|]; split; [congruence|]); exists y; (split; [reflexivity|]; split; [exact QL|congruence]). }
        destruct OK as (O & -> & -> & Y). split; [reflexivity|]. exists s, (h :: fs), x. auto 6.
      * intros (-> & s' & m & x & E & SL & O & -> & KP). injection E as <- <-. destruct KP as (y & SN & LE & TM). apply layer_iff in SL. rewrite SL, SN.
        apply Qle_bool_iff in LE. rewrite LE. cbn [negb]. rewrite TM. destruct O as [->|[->| ->]]; reflexivity.
  - (* region *)
    destruct fs as [|s fs]; [rewrite G; split; [discriminate|intros (_ & s & g & m & x & E & _); discriminate]|].
    destruct G as (s1 & r1 & E1 & _ & B1 & L1). rewrite E1. clear G0.
    pose proof (word_laid _ _ _ _ _ L1 B1) as G. destruct fs as [|g fs].
    { rewrite G. split; [|intros (_ & s' & g & m & x & E & _); discriminate]. destruct (parse_layer (value s)) as [x|]; [|discriminate]. destruct x; discriminate. }
    destruct G as (s2 & r2 & -> & _). split.
    + destruct (parse_layer (value s)) as [x|] eqn:PL; [|discriminate]. apply layer_iff in PL. unfold outer. intros H.
      assert (OK : (x = LTop \/ x = LBottom \/ x = LBoth) /\ id = value g /\ q = 0%Q /\ l = Some x).
      { destruct x; try discriminate; (split; [tauto|]; split; [congruence|]; split; congruence). }
      destruct OK as (O & -> & -> & ->). split; [reflexivity|]. exists s, g, fs, x. auto 6.
    + intros (-> & s' & g' & m & x & E & SL & O & -> & ->). injection E as <- <- <-. apply layer_iff in SL. rewrite SL.
      destruct O as [->|[->| ->]]; reflexivity.
Qed.

(** ** The whole section *)

Lemma record_read k u v f id q l f1 : second_of k u v f id q l f1 -> second_record k u v f = Some (id, q, l, f1).
Proof.
  intros [id' q' l' f1' line b fs NV NR O E L M| -> | -> -> | -> ->]; try reflexivity.
  pose proof (proj2 (second_iff k u v line b fs id' q' l' NV L) M) as S. unfold second_record.
  destruct k; try contradiction; try rewrite (opens_last _ _ _ O); try rewrite (opens_head _ _ _ O), (E ltac:(discriminate));
    destruct v; try rewrite S; try reflexivity; exfalso; apply NR; auto.
Qed.

Lemma owner_iff fs o : owner_said fs o <->
  (match fs with [] => Unowned | f :: _ => match parse_owner (value f) with Some o => o | None => Unowned end end) = o.
Proof.
  unfold owner_said. destruct fs as [|f fs].
  - split.
    + intros [(f & m & E & _)|(-> & _)]; [discriminate|reflexivity].
    + intros <-. right. split; [reflexivity|discriminate].
  - destruct (parse_owner (value f)) as [x|] eqn:P.
    + apply owner_read in P. split.
      * intros [(f' & m & E & O)|(_ & N)]; [|destruct (N f fs x eq_refl P)]. injection E as <- <-. apply owner_read in P, O. congruence.
      * intros <-. left. eauto.
    + split.
      * intros [(f' & m & E & O)|(-> & _)]; [|reflexivity]. injection E as <- <-. apply owner_read in O. congruence.
      * intros <-. right. split; [reflexivity|]. intros f' m y E O. injection E as <- <-. apply owner_read in O. congruence.
Qed.

Lemma end_key_plain k : forallb (fun c => negb ((97 <=? code c) && (code c <=? 122))) (S2 (end_key k)) = true.
Proof. destruct k; reflexivity. Qed.

Lemma ended_iff k e b fs : laid_out b fs e -> (ends_outline k e = true <-> ended k e fs).
Proof.
  intros L. pose proof (before_start e [] false) as B0. pose proof (word_laid _ _ _ _ _ L B0) as G.
  assert (W : forall s, compare_token (end_key k) s = true <-> same_word (end_key k) s) by (intros s; exact (keyword_same _ s (capitals _ (end_key_plain k)))).
  assert (P : match word e (mkScan [] false 0) with None => false | Some (t, _) => compare_token (end_key k) t end = true <->
              exists t more, fs = t :: more /\ same_word (end_key k) (value t)).
  { destruct fs as [|t fs]; [rewrite G; split; [discriminate|intros (t & m & E & _); discriminate]|]. destruct G as (s1 & r1 & -> & _). rewrite W. split.
    - intros H. eauto.
    - intros (t' & m & E & H). injection E as <- <-. exact H. }
  destruct k; cbn [ends_outline ended]; solve [apply W|exact P].
Qed.

Lemma outline_iff ccw k u v line b w fs f id q l f1 ls f2 e f3 b3 fs3 o ow g :
  laid_out b (Bare w :: fs) line -> same_word (key k) w -> owner_said fs ow -> second_of k u v f id q l f1 ->
  read_outlines ccw (match k with KBoard | KOther => false | _ => true end) false u v f1 = Some (ls, f2) ->
  opens f2 e f3 -> laid_out b3 fs3 e ->
  (read_outline ccw k u v line f = Some (o, g) <-> s_eof f3 = false /\ ended k e fs3 /\ g = f3 /\ o = mkOutl k ow id q l ls).
Proof.
  intros L W OW SO R O3 L3. unfold read_outline.
  destruct (get_laid _ _ _ _ _ L (before_start line [] false)) as (st & r & G & T & Q & B1 & L1). cbn [value in_quotes] in T, Q.
  rewrite G, Q, T, (proj2 (keyword_same (key k) w (capitals _ (key_plain k))) W). cbn [negb].
  assert (EO : (match word line st with
                | None => Unowned
                | Some (t, _) => match parse_owner t with Some o => o | None => Unowned end
                end) = ow).
  { apply owner_iff in OW. rewrite <- OW. pose proof (word_laid _ _ _ _ _ L1 B1) as GW. destruct fs; [rewrite GW; reflexivity|]. destruct GW as (? & ? & -> & _). reflexivity. }
  rewrite EO, (record_read _ _ _ _ _ _ _ _ SO). unfold single_of. rewrite R, (opens_head _ _ _ O3).
  destruct (s_eof f3); [split; [discriminate|intros (X & _); discriminate]|].
  pose proof (ended_iff k e b3 fs3 L3) as EI. destruct (ends_outline k e).
  - split; [intros H; injection H as <- <-; split; [reflexivity|]; split; [apply EI; reflexivity|auto]|]. intros (_ & _ & -> & ->). reflexivity.
  - split; [discriminate|]. intros (_ & X & _). apply EI in X. discriminate.
Qed.

(** Place outlines without a height cannot be written so that the file is read again. *)
Lemma bare_place ccw u line f side f1 b s o g : u <> Tnm -> opens f side f1 -> laid_out b [s] side ->
  read_outline ccw KPlace u V3 line f = Some (o, g) -> ol_loops o <> [] -> spoils u o.
Proof.
  intros NT O1 L1 RO NE. unfold read_outline in RO.
  destruct (get_string line (mkScan [] false 0)) as [[|] st]; [|discriminate]. destruct (sc_quoted st); [discriminate|].
  destruct (negb (compare_token (key KPlace) (sc_tok st))); [discriminate|].
  unfold second_record in RO. rewrite (opens_head _ _ _ O1) in RO. destruct (s_eof f1); [discriminate|].
  destruct (second_line KPlace u V3 side) as [[[id q] l]|] eqn:SL; [|discriminate].
  destruct (read_outlines ccw (single_of KPlace) false u V3 f1) as [[ls f2]|]; [|discriminate].
  destruct (head_line f2) as [[e f3]|]; [|discriminate]. destruct (ends_outline KPlace e); [|discriminate].
  injection RO as <- <-. cbn [ol_loops] in NE.
  apply (second_iff KPlace u V3 side b [s] id q l ltac:(discriminate) L1) in SL. cbn [second_means] in SL.
  destruct SL as (-> & s' & m & x & E & _ & _ & -> & H). injection E as <- <-. destruct H as (_ & ->).
  split; [exact NE|]. right. cbn [ol_kind ol_high]. split; [reflexivity|]. split; [vm_compute; discriminate|].
  destruct u; [| |contradiction]; vm_compute; discriminate.
Qed.

(** ** After the placement *)

Definition tail_of (raws : list str) (w : str) : stream := mkStream (with_newlines raws ++ w) false.

Lemma tail_line (raw : str) raws w : ~ In nl raw -> ends_line raw (tail_of (raw :: raws) w) (tail_of raws w).
Proof.
  intros N. split; [reflexivity|]. split; [exact N|]. left. exists (with_newlines raws ++ w). split; [|reflexivity].
  unfold tail_of, with_newlines. cbn [map concat s_rest]. rewrite <- !app_assoc. reflexivity.
Qed.

Lemma tail_length raws w : (length raws <= length (s_rest (tail_of raws w)))%nat.
Proof.
  unfold tail_of. cbn [s_rest]. rewrite app_length. induction raws as [|r raws IH]; [cbn; lia|].
  unfold with_newlines in *. cbn [map concat length]. rewrite !app_length. cbn [length]. lia.
Qed.

Lemma blank_trim (raw : str) : trimmed_of raw [] <-> blank raw.
Proof.
  unfold blank. split.
  - intros (a & b & -> & A & B & _). apply Forall_app. auto.
  - intros B. exists raw, []. split; [symmetry; apply app_nil_r|]. split; [exact B|]. split; [constructor|].
    split; [discriminate|]. intros c r E. destruct r; discriminate.
Qed.

Lemma line_enough (w : str) : ~ In nl w -> forall (raws : list str) k k', Forall (fun r : str => ~ In nl r) raws -> (length raws < k)%nat -> (length raws < k')%nat ->
  next_line k (tail_of raws w) = next_line k' (tail_of raws w).
Proof.
  intros NW. induction raws as [|raw raws IH]; intros k k' F A B; (destruct k as [|k]; [cbn in A; lia|]); (destruct k' as [|k']; [cbn in B; lia|]); cbn [next_line].
  - assert (EL : ends_line w (tail_of [] w) (mkStream [] true)) by (split; [reflexivity|]; split; [exact NW|right; split; reflexivity]).
    destruct (fetch_spec _ _ _ EL) as (l & [(_ & _ & G)|(r & _ & _ & G)]); rewrite G; [destruct l|]; reflexivity.
  - inversion F as [|? ? N F']; subst. cbn [length] in A, B.
    destruct (fetch_spec _ _ _ (tail_line raw raws w N)) as (l & [(_ & _ & G)|(r & _ & _ & G)]); rewrite G; [|reflexivity].
    destruct l; [|reflexivity]. change (s_eof (tail_of raws w)) with false. cbn iota. apply IH; [exact F'|lia|lia].
Qed.

Lemma tail_iff (w : str) : ~ In nl w -> forall (raws : list str) fuel, Forall (fun r : str => ~ In nl r) raws -> (length raws < fuel)%nat ->
  (trailing fuel (tail_of raws w) = false <-> bad_tail (raws ++ [w])).
Proof.
  intros NW. induction raws as [|raw raws IH]; intros fuel F A; (destruct fuel as [|n]; [cbn in A; lia|]).
  - cbn [trailing app].
    assert (EL : ends_line w (tail_of [] w) (mkStream [] true)) by (split; [reflexivity|]; split; [exact NW|right; split; reflexivity]).
    unfold read_line. cbn [next_line].
    destruct (fetch_spec _ _ _ EL) as (l & [(NH & T & G)|(r & -> & T & G)]); rewrite G; clear G.
    + destruct l as [|c l].
      * cbn [s_eof]. split; [discriminate|]. intros (a & raw & b & E & B & _). apply blank_trim in T.
        destruct a as [|x a]; [|destruct a; discriminate]. injection E as -> _. contradiction.
      * split; [intros _|reflexivity]. exists [], w, []. split; [reflexivity|]. split; [|auto]. intros B. apply blank_trim in B. pose proof (trimmed_unique _ _ _ T B). discriminate.
    + split.
      * destruct l; [discriminate|]. cbn [s_eof]. discriminate.
      * intros (a & raw & b & E & _ & N & _). destruct a as [|x a]; [|destruct a; discriminate]. injection E as <- _. destruct (N r eq_refl).
  - inversion F as [|? ? N F']; subst. cbn [length] in A.
    pose proof (tail_line raw raws w N) as EL.
    assert (RL : forall k, (length raws < k)%nat -> next_line k (tail_of raws w) = read_line (tail_of raws w)).
    { intros k B. unfold read_line. apply line_enough; auto. apply le_n_S, tail_length. }
    assert (LR : (length raws < length (s_rest (tail_of (raw :: raws) w)))%nat) by exact (tail_length (raw :: raws) w).
    destruct (fetch_spec _ _ _ EL) as (l & [(NH & T & G)|(r & ER & T & G)]).
    + destruct l as [|c l].
      * assert (E : read_line (tail_of (raw :: raws) w) = read_line (tail_of raws w)).
        { unfold read_line at 1. cbn [next_line]. rewrite G. change (s_eof (tail_of raws w)) with false. cbn iota. apply RL, LR. }
        assert (E' : trailing (S n) (tail_of (raw :: raws) w) = trailing (S n) (tail_of raws w)) by (cbn [trailing]; rewrite E; reflexivity).
        rewrite E', IH by (auto; lia). apply blank_trim in T. split.
        -- intros (a & x & b & EQ & B & H & FA). exists (raw :: a), x, b. split; [cbn [app]; rewrite EQ; reflexivity|]. auto.
        -- intros (a & x & b & EQ & B & H & FA). destruct a as [|y a]; [injection EQ as <- _; contradiction|]. injection EQ as <- EQ.
           inversion FA; subst. exists a, x, b. auto.
      * assert (E : read_line (tail_of (raw :: raws) w) = Some (c :: l, false, tail_of raws w)).
        { unfold read_line. cbn [next_line]. rewrite G. reflexivity. }
        cbn [trailing]. rewrite E. split; [intros _|reflexivity]. exists [], raw, (raws ++ [w]). split; [reflexivity|]. split; [|auto].
        intros B. apply blank_trim in B. pose proof (trimmed_unique _ _ _ T B). discriminate.
    + destruct l as [|c l].
      * assert (E : read_line (tail_of (raw :: raws) w) = None) by (unfold read_line; cbn [next_line]; rewrite G; reflexivity).
        cbn [trailing]. rewrite E. split; [discriminate|]. intros (a & x & b & EQ & B & H & FA). apply blank_trim in T.
        destruct a as [|y a]; [injection EQ as <- _; destruct (H r ER)|]. injection EQ as <- EQ. inversion FA as [|? ? X FA']; subst.
        destruct X as [X|(r' & X & X')].
        -- inversion X; subst. match goal with H : isspc hash |- _ => vm_compute in H; revert H end. intros HH. clear - HH. intuition discriminate.
        -- injection X as <-. contradiction.
      * assert (E : read_line (tail_of (raw :: raws) w) = Some (c :: l, true, tail_of raws w)) by (unfold read_line; cbn [next_line]; rewrite G; reflexivity).
        cbn [trailing]. rewrite E. change (s_eof (tail_of raws w)) with false. cbn iota. rewrite IH by (auto; lia).
        assert (CT : comment_with_text raw).
        { exists r. split; [exact ER|]. intros B. apply blank_trim in B. pose proof (trimmed_unique _ _ _ T B). discriminate. }
        split.
        -- intros (a & x & b & EQ & B & H & FA). exists (raw :: a), x, b. split; [cbn [app]; rewrite EQ; reflexivity|]. auto.
        -- intros (a & x & b & EQ & B & H & FA). destruct a as [|y a]; [injection EQ as <- _; destruct (H r ER)|]. injection EQ as <- EQ.
           inversion FA; subst. exists a, x, b. auto.
Qed.

Lemma file_tail ccw c text h name u f l (raws : list str) (w : str) : read_head (mkStream text false) = Some (h, name, u, f) ->
  read_sections ccw u (h_ver h) c (S (length text)) AtHeader [] f = Some (l, AtPlacement, Some (mkStream (with_newlines raws ++ w) false)) ->
  Forall (fun r : str => ~ In nl r) raws -> ~ In nl w ->
  (bad_tail (raws ++ [w]) -> read_file ccw c text = None) /\ (~ bad_tail (raws ++ [w]) -> read_file ccw c text = Some (h, name, u, l)).
Proof.
  intros H S F N. unfold read_file. rewrite H, S. fold (tail_of raws w).
  pose proof (tail_iff w N raws (Datatypes.S (length (s_rest (tail_of raws w)))) F ltac:(apply le_n_S, tail_length)) as T.
  split; intros B.
  - rewrite (proj2 T B). reflexivity.
  - destruct (trailing _ _); [reflexivity|]. destruct (B (proj1 T eq_refl)).
Qed.
