(** A board which is written is read again (IdfFile.v, IdfFileSpec.v). *)

From Verif Require Import Base Num IoModel IdfText IdfOutl IdfFile Spec IdfSpec IdfOutlSpec IdfFileSpec
  IdfFacts IdfNum IdfRound IdfSect IdfLine IdfOutlText IdfFileHead IdfFileSect IdfFileOrder IdfFileOutl.
From Verif Require IdfPlace IdfPlaceSpec IdfPlaceAgain.
From Coq Require Import Lia.
Open Scope Z_scope.

(** ** Lines *)

Lemma with_newlines_app a b : with_newlines (a ++ b) = with_newlines a ++ with_newlines b.
Proof. unfold with_newlines. rewrite map_app, concat_app. reflexivity. Qed.

Lemma newlines_len (bl : list str) : (length bl <= length (with_newlines bl))%nat.
Proof. unfold with_newlines. induction bl as [|x bl IH]; [cbn; lia|]. cbn [map concat length]. rewrite !app_length. cbn [length]. lia. Qed.

Lemma opens_blank bl t l f' : blank_lines bl -> opens (mkStream t false) l f' -> opens (mkStream (with_newlines bl ++ t) false) l f'.
Proof.
  intros B (bl' & raw & g & E & B' & G & EL & NH & T & NE). injection E as ->. exists (bl ++ bl'), raw, g.
  rewrite with_newlines_app, <- app_assoc. split; [reflexivity|]. split; [apply Forall_app; split; assumption|]. auto.
Qed.

Lemma next_opens f l f' : opens f l f' -> s_eof f' = false -> next_any (S (length (s_rest f))) f = Some (l, false, f').
Proof.
  intros (bl & raw & g & -> & B & G & EL & NH & T & NE) E. cbn [s_rest].
  assert (K : forall bl fuel, blank_lines bl -> (length bl < fuel)%nat -> next_any fuel (mkStream (with_newlines bl ++ s_rest g) false) = Some (l, false, f')).
  { clear bl B. induction bl as [|x bl IH]; intros fuel B L; (destruct fuel as [|k]; [cbn in L; lia|]).
    - cbn [with_newlines map concat app next_any]. destruct g as [r e]. cbn [s_eof s_rest] in *. subst e. rewrite (fetch_plain raw l _ _ EL NH T). destruct l; [congruence|]. cbn iota. rewrite E. reflexivity.
    - inversion B as [|? ? B1 B2]; subst. cbn [next_any].
      assert (EX : ends_line x (mkStream (with_newlines (x :: bl) ++ s_rest g) false) (mkStream (with_newlines bl ++ s_rest g) false)).
      { unfold with_newlines. cbn [map concat]. rewrite <- !app_assoc. cbn [app]. split; [reflexivity|]. split; [|left; eexists; split; reflexivity].
        intros I. destruct B1 as (B1 & B3). tauto. }
      destruct B1 as (B1 & B3). rewrite (fetch_plain x [] _ _ EX).
      + cbn [s_eof]. apply IH; [exact B2|]. cbn [length] in L. exact (proj2 (Nat.succ_lt_mono _ _) L).
      + intros r ->. inversion B1 as [|? ? X _]; subst. revert X. unfold isspc. cbn. lia.
      + exists x, []. rewrite app_nil_r. cbn. split; [reflexivity|]. split; [exact B1|]. split; [constructor|]. split; [intros c r X; discriminate|intros c r X; destruct r; discriminate]. }
  apply K; [exact B|]. rewrite app_length. apply le_n_S. eapply Nat.le_trans; [apply newlines_len|apply Nat.le_add_r].
Qed.

(** ** Sections one after the other *)

Lemma section_opens ccw u v c st ids f l f' b w fs h s st' g : opens f l f' -> s_eof f' = false ->
  laid_out b (Bare w :: fs) l -> heading_of w = Some h -> read_body ccw u v c st ids h l f' [] = Some (s, st', g) ->
  read_section ccw u v c st ids (S (length (s_rest f))) f start_scan [] = SecGot s st' g.
Proof.
  intros O E L H B. cbn [read_section]. rewrite (next_opens f l f' O E).
  destruct (get_laid _ _ _ _ _ L (before_start l [] false)) as (sc & r & G & T & Q & _). cbn [value in_quotes] in T, Q.
  change start_scan with (mkScan [] false 0). rewrite G, Q, T, H, B. reflexivity.
Qed.

Section Chain.
Variables (ccw : qloop -> bool) (u : unit_of) (c : IdfPlace.cad).

(** [t] is one section, after blank lines; after it are the blank lines [bl'] and [rest]. *)
Definition one (st : fstate) (t rest : str) (s : section) (st' : fstate) (bl' : list str) : Prop :=
  st <> AtPlacement /\ t <> [] /\ forall bl ids, blank_lines bl ->
    read_section ccw u V3 c st ids (S (length (with_newlines bl ++ t ++ rest))) (mkStream (with_newlines bl ++ t ++ rest) false) start_scan [] =
    SecGot s st' (mkStream (with_newlines bl' ++ rest) false).

(** Sections one after the other, and [left] after them. *)
Inductive chain (left : str) : fstate -> list str -> str -> list section -> fstate -> list str -> Prop :=
| ch_nil st bl : chain left st bl left [] st bl
| ch_cons st bl t s st' bl' more l st'' bl'' : blank_lines bl -> one st t more s st' bl' -> chain left st' bl' more l st'' bl'' ->
    chain left st bl (t ++ more) (s :: l) st'' bl''.

Lemma chain_reads left st bl t l st' bl' : chain left st bl t l st' bl' -> forall n ids, exists ids',
  read_sections ccw u V3 c (length l + n) st ids (mkStream (with_newlines bl ++ t) false) =
  match read_sections ccw u V3 c n st' ids' (mkStream (with_newlines bl' ++ left) false) with
  | None => None | Some (l2, st2, g) => Some (l ++ l2, st2, g) end.
Proof.
  induction 1 as [st bl|st bl t s st' bl' more l st'' bl'' B O C IH]; intros n ids.
  - exists ids. cbn [length Nat.add app]. destruct (read_sections ccw u V3 c n st ids _) as [[[a b] d]|]; reflexivity.
  - destruct O as (NP & _ & O). specialize (O bl ids B). destruct (IH n (other_id s ++ ids)) as (ids' & E). exists ids'.
    cbn [length Nat.add read_sections s_eof s_rest app]. rewrite O, E.
    destruct (read_sections ccw u V3 c n st'' ids' _) as [[[a b] d]|]; destruct st; congruence.
Qed.

Lemma chain_len left st bl t l st' bl' : chain left st bl t l st' bl' -> (length l <= length t)%nat.
Proof.
  induction 1 as [|st bl t s st' bl' more l st'' bl'' B (_ & N & _) C IH]; [cbn; lia|]. rewrite app_length. cbn [length].
  destruct t; [congruence|]. cbn [length]. lia.
Qed.

Lemma blank_one : blank_lines [[]].
Proof. apply Forall_cons; [|apply Forall_nil]. split; [constructor|intros []]. Qed.

Lemma outl_one st o : u <> Tnm -> outl_fits ccw u o -> (st = AtHeader /\ ol_kind o = KBoard \/ st = AtOutline /\ ol_kind o <> KBoard) ->
  exists t o', write_section ccw u o = Some t /\ outl_back ccw u o o' /\ forall rest, one st t rest (mkSec [] (COutline o')) AtOutline [[]].
Proof.
  intros U F SK. destruct (outl_again ccw u o U F) as (body & o' & W & B & R). exists (head_line_of o ++ nl :: body), o'.
  split; [exact W|]. split; [exact B|]. intros rest. split; [destruct SK as [(-> & _)|(-> & _)]; discriminate|]. split; [intros E; apply app_eq_nil in E as (_ & E); discriminate|]. intros bl ids BL.
  set (f := mkStream (with_newlines bl ++ (head_line_of o ++ nl :: body) ++ rest) false).
  assert (O : opens f (head_line_of o) (mkStream (body ++ rest) false)).
  { apply opens_blank; [exact BL|]. rewrite <- app_assoc. cbn [app]. apply (opens_spaced (Bare (S2 (key (ol_kind o)))) [Bare (owner_text (ol_owner o))]); [apply head_fields_of|]. destruct (ol_kind o); discriminate. }
  change (length (with_newlines bl ++ (head_line_of o ++ nl :: body) ++ rest)) with (length (s_rest f)).
  eapply (section_opens ccw u V3 c st ids f (head_line_of o) _ false (S2 (key (ol_kind o))) [Bare (owner_text (ol_owner o))] (HOutline (ol_kind o))).
  - exact O.
  - reflexivity.
  - exact (spaced_laid _ (head_fields_of o)).
  - destruct (ol_kind o); reflexivity.
  - destruct F as (NO & _). specialize (R rest). unfold read_body. destruct SK as [(-> & K)|(-> & K)].
    + rewrite K in *. rewrite R. reflexivity.
    + destruct (ol_kind o); try congruence; rewrite R; reflexivity.
Qed.

Fixpoint write_all (l : list outl) : option str :=
  match l with
  | [] => Some []
  | o :: l' => match write_section ccw u o, write_all l' with Some a, Some t => Some (a ++ t) | _, _ => None end
  end.

Lemma outls_chain left os t2 l2 st2 bl2 : u <> Tnm -> Forall (fun o => outl_fits ccw u o /\ ol_kind o <> KBoard) os ->
  chain left AtOutline [[]] t2 l2 st2 bl2 ->
  exists t os', write_all os = Some t /\ Forall2 (outl_back ccw u) os os' /\
    chain left AtOutline [[]] (t ++ t2) (map (fun o => mkSec [] (COutline o)) os' ++ l2) st2 bl2.
Proof.
  intros U F C2. induction F as [|o os (FO & NB) F (t & os' & W & B & C)].
  - exists [], []. split; [reflexivity|]. split; [constructor|exact C2].
  - destruct (outl_one AtOutline o U FO) as (t1 & o' & W1 & B1 & O1); [right; auto|].
    exists (t1 ++ t), (o' :: os'). cbn [write_all]. rewrite W1, W. split; [reflexivity|]. split; [constructor; assumption|]. cbn [map app]. rewrite <- app_assoc.
    eapply ch_cons; [exact blank_one|apply O1|exact C].
Qed.

Lemma word_one key h body rest s st' bl' : S2 key <> [] -> forallb (fun c => negb (is_space c)) (S2 key) = true ->
  match S2 key with x :: _ => Ascii.eqb x quote = false /\ Ascii.eqb x hash = false | [] => True end -> heading_of (S2 key) = Some h ->
  (forall ids, read_body ccw u V3 c AtOutline ids h (S2 key) (mkStream (body ++ rest) false) [] = Some (s, st', mkStream (with_newlines bl' ++ rest) false)) ->
  one AtOutline (S2 key ++ nl :: body) rest s st' bl'.
Proof.
  intros A B D H R. split; [discriminate|]. split; [intros E; apply app_eq_nil in E as (_ & E); discriminate|]. intros bl ids BL.
  set (f := mkStream (with_newlines bl ++ (S2 key ++ nl :: body) ++ rest) false).
  assert (O : opens f (S2 key) (mkStream (body ++ rest) false)).
  { apply opens_blank; [exact BL|]. rewrite <- app_assoc. cbn [app]. apply word_opens; assumption. }
  change (length (with_newlines bl ++ (S2 key ++ nl :: body) ++ rest)) with (length (s_rest f)).
  eapply (section_opens ccw u V3 c AtOutline ids f (S2 key) _ false (S2 key) [] h); [exact O|reflexivity| |exact H|apply R].
  apply (spaced_laid [Bare (S2 key)]). apply Forall_cons; [|apply Forall_nil]. apply bare_ok; auto. destruct (S2 key); tauto.
Qed.

Lemma holes_one l rest : u <> Tnm -> Forall (drill_ok u) l ->
  exists l', Forall2 (fun d d' => drill_back u d d' /\ (drill_short u d -> drill_same d d')) l l' /\
    one AtOutline (S2 ".DRILLED_HOLES" ++ nl :: write_drills u l) rest (mkSec [] (CHoles l')) AtOutline [[]].
Proof.
  intros U F. destruct (drills_again u l rest U F) as (l' & R & B). exists l'. split; [exact B|].
  apply (word_one ".DRILLED_HOLES" HHoles); [discriminate|reflexivity|split; reflexivity|reflexivity|].
  intros ids. unfold read_body. rewrite R. reflexivity.
Qed.

Lemma notes_one l rest : Forall note_ok l ->
  exists l', notes_back u l l' /\
    one AtOutline (S2 ".NOTES" ++ nl :: write_notes u l) rest (mkSec [] (CNotes l')) AtOutline [[]].
Proof.
  intros F. destruct (notes_again u l rest F) as (l' & R & B). exists l'. split; [exact B|].
  apply (word_one ".NOTES" HNotes); [discriminate|reflexivity|split; reflexivity|reflexivity|].
  intros ids. unfold read_body. rewrite R. reflexivity.
Qed.

Lemma places_one b : u <> Tnm -> Forall (IdfPlaceSpec.part_ok u) (IdfPlaceSpec.parts_of b) ->
  exists t l, IdfPlace.write_placement u b = Some t /\
    Forall2 (fun x r => IdfPlaceSpec.part_back u (fst (fst x)) (snd (fst x)) (snd x) r) (IdfPlaceSpec.parts_of b) l /\
    one AtOutline (S2 ".PLACEMENT" ++ nl :: t) [] (mkSec [] (CPlaces l)) AtPlacement [].
Proof.
  intros U F. destruct (IdfPlaceAgain.places_again' u b c [] F) as (t & l & W & R & B). exists t, l. split; [exact W|]. split; [exact B|].
  apply (word_one ".PLACEMENT" HPlaces); [discriminate|reflexivity|split; reflexivity|reflexivity|].
  intros ids. unfold read_body. assert (E : IdfPlaceSpec.named_unit u = u) by (destruct u; reflexivity || congruence). rewrite E in R. rewrite R. reflexivity.
Qed.
End Chain.

Lemma pieces_none (b : IdfPlace.brd) :
  existsb (fun x => match IdfPlace.c_pieces (snd x) with [] => false | _ => true end) (IdfPlace.b_comps b) = false -> IdfPlaceSpec.parts_of b = [].
Proof.
  unfold IdfPlaceSpec.parts_of. induction (IdfPlace.b_comps b) as [|x l IH]; [reflexivity|]. cbn [existsb flat_map]. intros H. apply orb_false_iff in H as (H1 & H2).
  destruct (IdfPlace.c_pieces (snd x)); [|discriminate]. exact (IH H2).
Qed.
Lemma pieces_some (b : IdfPlace.brd) :
  existsb (fun x => match IdfPlace.c_pieces (snd x) with [] => false | _ => true end) (IdfPlace.b_comps b) = true -> IdfPlaceSpec.parts_of b <> [].
Proof.
  unfold IdfPlaceSpec.parts_of. induction (IdfPlace.b_comps b) as [|x l IH]; [discriminate|]. cbn [existsb flat_map]. intros H E. apply app_eq_nil in E as (E1 & E2).
  apply orb_true_iff in H as [H|H]; [|exact (IH H E2)]. destruct (IdfPlace.c_pieces (snd x)); discriminate.
Qed.

Lemma file_again ccw u c source date name n o os holes notes b :
  u <> Tnm -> ~ In quote source -> ~ In nl source -> ~ In quote name -> ~ In nl name -> date_ok date -> 0 <= n + 1 <= int_max ->
  ol_kind o = KBoard -> outl_fits ccw u o -> Forall (fun x => outl_fits ccw u x /\ ol_kind x <> KBoard) os ->
  Forall (drill_ok u) holes -> Forall note_ok notes -> Forall (IdfPlaceSpec.part_ok u) (IdfPlaceSpec.parts_of b) ->
  exists text o' os' holes' notes' places',
    write_file ccw u source date name n (o :: os) holes notes b = Some text /\
    read_file ccw c text = Some (mkHead V3 (source_text source) date (n + 1), name_text name, u,
      map (mkSec []) (COutline o' :: map COutline os' ++ CHoles holes' ::
        (match notes with [] => [] | _ => [CNotes notes'] end) ++
        (match IdfPlaceSpec.parts_of b with [] => [] | _ => [CPlaces places'] end))) /\
    outl_back ccw u o o' /\ Forall2 (outl_back ccw u) os os' /\
    Forall2 (fun d d' => drill_back u d d' /\ (drill_short u d -> drill_same d d')) holes holes' /\ notes_back u notes notes' /\
    Forall2 (fun x r => IdfPlaceSpec.part_back u (fst (fst x)) (snd (fst x)) (snd x) r) (IdfPlaceSpec.parts_of b) places'.
Proof.
  intros U S1 S2' N1 N2 D B K F FS FH FN FP.
  set (cond := existsb (fun x => match IdfPlace.c_pieces (snd x) with [] => false | _ => true end) (IdfPlace.b_comps b)).
  assert (P : exists p places' l st bl, (if cond then match IdfPlace.write_placement u b with Some p => Some (S2 ".PLACEMENT" ++ nl :: p) | None => None end else Some []) = Some p /\
     chain ccw u c [] AtOutline [[]] p (map (mkSec []) l) st bl /\ l = (match IdfPlaceSpec.parts_of b with [] => [] | _ => [CPlaces places'] end) /\
     (st = AtOutline /\ bl = [[]] \/ st = AtPlacement /\ bl = []) /\
     Forall2 (fun x r => IdfPlaceSpec.part_back u (fst (fst x)) (snd (fst x)) (snd x) r) (IdfPlaceSpec.parts_of b) places').
  { destruct cond eqn:C.
    - destruct (places_one ccw u c b U FP) as (t & l & W & BK & O). apply pieces_some in C.
      exists (S2 ".PLACEMENT" ++ nl :: t), l, [CPlaces l], AtPlacement, []. rewrite W. split; [reflexivity|]. split; [|split; [|split; [right; auto|exact BK]]].
      + rewrite <- (app_nil_r (S2 ".PLACEMENT" ++ nl :: t)). cbn [map]. eapply ch_cons; [exact blank_one|exact O|apply ch_nil].
      + destruct (IdfPlaceSpec.parts_of b); [congruence|reflexivity].
    - apply pieces_none in C. exists [], [], [], AtOutline, [[]]. rewrite C. split; [reflexivity|]. split; [apply ch_nil|]. split; [reflexivity|]. split; [left; auto|constructor]. }
  destruct P as (p & places' & lp & st & bl & WP & CP & EP & EN & BP).
  assert (N : exists notes', notes_back u notes notes' /\
     chain ccw u c [] AtOutline [[]] (match notes with [] => [] | _ => S2 ".NOTES" ++ nl :: write_notes u notes end ++ p)
       (map (mkSec []) ((match notes with [] => [] | _ => [CNotes notes'] end) ++ lp)) st bl).
  { destruct notes as [|x notes]; [exists []; split; [constructor|exact CP]|].
    destruct (notes_one ccw u c (x :: notes) p FN) as (l' & BK & O). exists l'. split; [exact BK|]. cbn [map app]. eapply ch_cons; [exact blank_one|exact O|exact CP]. }
  destruct N as (notes' & BN & CN).
  destruct (holes_one ccw u c holes (match notes with [] => [] | _ => S2 ".NOTES" ++ nl :: write_notes u notes end ++ p) U FH) as (holes' & BH & OH).
  pose proof (ch_cons ccw u c [] _ _ _ _ _ _ _ _ _ _ blank_one OH CN) as CH.
  destruct (outls_chain ccw u c [] os _ _ _ _ U FS CH) as (t & os' & WO & BO & CO).
  destruct (outl_one ccw u c AtHeader o U F) as (t1 & o' & W1 & B1 & O1); [left; auto|].
  pose proof (ch_cons ccw u c [] _ [[]] _ _ _ _ _ _ _ _ blank_one (O1 _) CO) as CA.
  match type of CA with chain _ _ _ _ _ _ ?x ?y _ _ => set (body := x) in *; set (secs := y) in * end.
  exists (write_head source date name n u ++ body), o', os', holes', notes', places'.
  assert (SE : secs = map (mkSec []) (COutline o' :: map COutline os' ++ CHoles holes' ::
        (match notes with [] => [] | _ => [CNotes notes'] end) ++ (match IdfPlaceSpec.parts_of b with [] => [] | _ => [CPlaces places'] end))).
  { unfold secs. rewrite <- EP. cbn [map]. rewrite !map_app. cbn [map]. rewrite map_map, map_app. reflexivity. }
  split; [|split; [|auto 10]].
  - unfold write_file. change ((fix go (l : list outl) : option str := match l with [] => Some [] | o :: l' => match write_section ccw u o, go l' with Some a, Some t => Some (a ++ t) | _, _ => None end end) os) with (write_all ccw u os).
    rewrite W1, WO. fold cond. rewrite WP. unfold body. repeat (rewrite <- ?app_assoc; cbn [app]). reflexivity.
  - unfold read_file. rewrite head_again by assumption. cbn [h_ver].
    assert (UU : (match u with MM => MM | _ => Thou end) = u) by (destruct u; reflexivity || congruence). rewrite UU.
    change (nl :: body) with (with_newlines [[]] ++ body).
    set (total := S (length (write_head source date name n u ++ body))).
    assert (LT : (length secs < total)%nat).
    { unfold total. apply le_n_S. rewrite app_length. eapply Nat.le_trans; [exact (chain_len _ _ _ _ _ _ _ _ _ _ CA)|]. rewrite Nat.add_comm. apply Nat.le_add_r. }
    destruct (chain_reads ccw u c _ _ _ _ _ _ _ CA (total - length secs) []) as (ids' & E).
    replace (length secs + (total - length secs))%nat with total in E by lia. rewrite E.
    destruct (total - length secs)%nat as [|k] eqn:KK; [lia|]. destruct EN as [(-> & ->)|(-> & ->)].
    + assert (X : read_sections ccw u V3 c (S k) AtOutline ids' (mkStream (with_newlines [[]] ++ []) false) = Some ([], AtOutline, None)) by reflexivity.
      rewrite X, app_nil_r, <- SE. reflexivity.
    + assert (X : read_sections ccw u V3 c (S k) AtPlacement ids' (mkStream (with_newlines [] ++ []) false) = Some ([], AtPlacement, Some (mkStream [] false))) by reflexivity.
      rewrite X, app_nil_r, <- SE. reflexivity.
Qed.

(** ** Files which are not read again *)

Lemma section_bad ccw u v c st ids f l f' b w fs h : opens f l f' -> s_eof f' = false ->
  laid_out b (Bare w :: fs) l -> heading_of w = Some h -> read_body ccw u v c st ids h l f' [] = None ->
  read_section ccw u v c st ids (S (length (s_rest f))) f start_scan [] = SecBad.
Proof.
  intros O E L H B. cbn [read_section]. rewrite (next_opens f l f' O E).
  destruct (get_laid _ _ _ _ _ L (before_start l [] false)) as (sc & r & G & T & Q & _). cbn [value in_quotes] in T, Q.
  change start_scan with (mkScan [] false 0). rewrite G, Q, T, H, B. reflexivity.
Qed.

Lemma spoiled_bad ccw u c x t : u <> Tnm -> spoils u x -> write_section ccw u x = Some t -> forall bl ids rest, blank_lines bl ->
  read_section ccw u V3 c AtOutline ids (S (length (with_newlines bl ++ t ++ rest))) (mkStream (with_newlines bl ++ t ++ rest) false) start_scan [] = SecBad.
Proof.
  intros U (NE & SP) W bl ids rest BL.
  assert (H : exists body, t = head_line_of x ++ nl :: body /\ ol_kind x <> KBoard /\ read_outline ccw (ol_kind x) u V3 (head_line_of x) (mkStream (body ++ rest) false) = None).
  { destruct SP as [(K & Q & N)|(K & SZ & NG)].
    - destruct (other_lost ccw u u x t K NE Q N W) as (body & E & R). exists body. rewrite K. split; [exact E|]. split; [discriminate|apply R].
    - destruct (place_lost ccw u x t U K NE SZ NG W) as (body & E & R). exists body. rewrite K. split; [exact E|]. split; [discriminate|apply R]. }
  destruct H as (body & -> & NB & R).
  set (f := mkStream (with_newlines bl ++ (head_line_of x ++ nl :: body) ++ rest) false).
  assert (O : opens f (head_line_of x) (mkStream (body ++ rest) false)).
  { apply opens_blank; [exact BL|]. rewrite <- app_assoc. cbn [app]. apply (opens_spaced (Bare (S2 (key (ol_kind x)))) [Bare (owner_text (ol_owner x))]); [apply head_fields_of|]. destruct (ol_kind x); discriminate. }
  change (length (with_newlines bl ++ (head_line_of x ++ nl :: body) ++ rest)) with (length (s_rest f)).
  eapply (section_bad ccw u V3 c AtOutline ids f (head_line_of x) _ false (S2 (key (ol_kind x))) [Bare (owner_text (ol_owner x))] (HOutline (ol_kind x))).
  - exact O.
  - reflexivity.
  - exact (spaced_laid _ (head_fields_of x)).
  - destruct (ol_kind x); reflexivity.
  - unfold read_body. destruct (ol_kind x); try congruence; rewrite R; reflexivity.
Qed.

Lemma write_all_app ccw u : forall a b t, write_all ccw u (a ++ b) = Some t ->
  exists t1 t2, write_all ccw u a = Some t1 /\ write_all ccw u b = Some t2 /\ t = t1 ++ t2.
Proof.
  induction a as [|o a IH]; intros b t H; cbn [app write_all] in *; [exists [], t; auto|].
  destruct (write_section ccw u o) as [x|]; [|discriminate]. destruct (write_all ccw u (a ++ b)) as [y|] eqn:E; [|discriminate]. injection H as <-.
  destruct (IH b y E) as (t1 & t2 & -> & W2 & ->). exists (x ++ t1), t2. rewrite app_assoc. auto.
Qed.

Lemma file_refused ccw u c source date name n o os x more holes notes b text :
  u <> Tnm -> ~ In quote source -> ~ In nl source -> ~ In quote name -> ~ In nl name -> date_ok date -> 0 <= n + 1 <= int_max ->
  ol_kind o = KBoard -> outl_fits ccw u o -> Forall (fun x => outl_fits ccw u x /\ ol_kind x <> KBoard) os -> spoils u x ->
  write_file ccw u source date name n (o :: os ++ x :: more) holes notes b = Some text ->
  read_file ccw c text = None.
Proof.
  intros U S1 S2' N1 N2 D B K F FS SP W. unfold write_file in W.
  change ((fix go (l : list outl) : option str := match l with [] => Some [] | o :: l' => match write_section ccw u o, go l' with Some a, Some t => Some (a ++ t) | _, _ => None end end) (os ++ x :: more)) with (write_all ccw u (os ++ x :: more)) in W.
  destruct (outl_one ccw u c AtHeader o U F) as (t1 & o' & W1 & _ & O1); [left; auto|]. rewrite W1 in W.
  destruct (write_all ccw u (os ++ x :: more)) as [t|] eqn:WA; [|discriminate]. apply write_all_app in WA as (ta & tb & WA & WB & ->).
  cbn [write_all] in WB. destruct (write_section ccw u x) as [tx|] eqn:WX; [|discriminate]. destruct (write_all ccw u more) as [tm|]; [|discriminate].
  assert (EB : tb = tx ++ tm) by congruence. subst tb.
  match type of W with match ?y with Some _ => _ | None => _ end = _ => destruct y as [pl|]; [|discriminate] end.
  assert (TE : exists rest, text = write_head source date name n u ++ t1 ++ ta ++ tx ++ rest).
  { match type of W with Some ?y = Some _ => assert (EW : text = y) by congruence end. rewrite EW. eexists. repeat (rewrite <- ?app_assoc; cbn [app]). reflexivity. }
  destruct TE as (rest & ->). clear W WB.
  destruct (outls_chain ccw u c (tx ++ rest) os _ _ _ _ U FS (ch_nil ccw u c (tx ++ rest) AtOutline [[]])) as (ta' & os' & WA' & _ & CO).
  assert (E : ta' = ta) by congruence. subst ta'.
  pose proof (ch_cons ccw u c (tx ++ rest) _ [[]] _ _ _ _ _ _ _ _ blank_one (O1 _) CO) as CA. rewrite app_nil_r in CA.
  match type of CA with chain _ _ _ _ _ _ ?y ?z _ _ => set (body := y) in *; set (secs := z) in * end.
  unfold read_file. rewrite head_again by assumption. cbn [h_ver].
  assert (UU : (match u with MM => MM | _ => Thou end) = u) by (destruct u; reflexivity || congruence). rewrite UU.
  change (nl :: body) with (with_newlines [[]] ++ body).
  set (total := S (length (write_head source date name n u ++ body))).
  assert (LT : (length secs < total)%nat).
  { unfold total. apply le_n_S. rewrite app_length. eapply Nat.le_trans; [exact (chain_len _ _ _ _ _ _ _ _ _ _ CA)|]. rewrite Nat.add_comm. apply Nat.le_add_r. }
  destruct (chain_reads ccw u c _ _ _ _ _ _ _ CA (total - length secs) []) as (ids' & E).
  replace (length secs + (total - length secs))%nat with total in E by lia. rewrite E.
  destruct (total - length secs)%nat as [|k] eqn:KK; [lia|]. cbn [read_sections s_eof s_rest].
  rewrite (spoiled_bad ccw u c x tx U SP WX [[]] ids' rest blank_one). reflexivity.
Qed.
