(** The claims about the object graph (C23, C31, C40, C60-C67), each with a concrete case.
    Entities are numbered in the order they are made, from 0. *)

From Coq Require Import List Bool ZArith Lia.
From Verif Require Import GraphModel GraphSpec GraphFacts GraphProps GraphProps2 GraphCull GraphCheck GraphMore.
Import ListNotations.
Open Scope Z_scope.

(** *** C23: Pointers and referrers agree *)

Theorem c23_books_kept : forall g0 l, g0 = empty_graph \/ read_in g0 -> tidy_run l g0 ->
  exists g, runs l g0 = Some g /\ consistent g.
Proof. exact books_claim. Qed.
Print Assumptions c23_books_kept.

(* a line with a transform, a colour and a property; a copy of the transform's
   transform; the transform is deleted, then the line *)
Definition history_ex : list op :=
  [ONew 110; ONew 124; ONew 314; ONew 406; OMake 124; OSetDe 0 4 (Some 1%nat); OSetDe 0 6 (Some 2%nat);
   OAddOptional 0 3; OSetDe 1 4 (Some 4%nat); ONew 102; OAddSegment 5 0 false;
   ONew 502; OAddVertex 6; ONew 504; ONew 100; OAddEdge 7 8 6 1 6 1; ODel 1; OSetDeNum 0 6 true; OCull false; ODel 0]%nat.
Example c23_case : tidy_run history_ex empty_graph /\
  tidy_run (firstn 16 history_ex) empty_graph /\
  exists g, runs (firstn 16 history_ex) empty_graph = Some g /\
    (points g 0 1 /\ points g 0 2 /\ points g 0 3 /\ points g 1 4 /\ points g 5 0) /\ lists g 1 0 /\ lists g 4 1 /\ lists g 0 5.
Proof.
  split; [apply tidy_case; vm_compute; reflexivity|]. split; [apply tidy_case; vm_compute; reflexivity|].
  apply (ends_in_ok _ (fun g => (pointsb g 0 1 && pointsb g 0 2 && pointsb g 0 3 && pointsb g 1 4 && pointsb g 5 0) &&
    (listsb g 1 0 && listsb g 4 1 && listsb g 0 5))%nat); [|vm_compute; reflexivity].
  intros g H. repeat match goal with X : _ && _ = true |- _ => apply andb_prop in X; destruct X end.
  repeat split; auto using pointsb_ok, listsb_ok.
Qed.

(** *** C60: What the setters change *)

Theorem c60_de_pointers : forall g e k x n, reached g -> look g e = Some n -> (forall c, x = Some c -> live g c) ->
  exists b h, run (OSetDe e k x) g = Some (b, h) /\
    (takes n k -> only e (des_to k (if b then x else None)) g h) /\ (~ takes n k -> h = g).
Proof. exact de_claim. Qed.
Print Assumptions c60_de_pointers.

Theorem c60_transforms_accepted : forall g e c n m b h, reached g -> look g e = Some n -> takes n 4 -> look g c = Some m ->
  run (OSetDe e 4 (Some c)) g = Some (b, h) ->
  b = true <-> n_type m = 124 /\ n_null m = false /\ c <> e /\ nth 4 (n_des m) None <> Some e /\ ~ holds (des_to 4 None n) c.
Proof. exact transform_claim. Qed.
Print Assumptions c60_transforms_accepted.

Theorem c60_numbers_replace_pointers : forall g e k v n, reached g -> look g e = Some n -> takes n k -> In k [1; 2; 6]%nat ->
  exists h, run (OSetDeNum e k v) g = Some (v, h) /\ only e (des_to k None) g h.
Proof. exact number_claim. Qed.
Print Assumptions c60_numbers_replace_pointers.

Theorem c60_optional_entities : forall g e x, reached g -> tidy g (OAddOptional e x) ->
  exists b h, run (OAddOptional e x) g = Some (b, h) /\
    only e (fun n => w_extras (n_extras n ++ if b then [x] else []) n) g h.
Proof. exact optional_claim. Qed.
Print Assumptions c60_optional_entities.

Theorem c60_parts : forall g e k x cl, reached g -> tidy g (OSetSlot e k x cl) ->
  exists b h, run (OSetSlot e k x cl) g = Some (b, h) /\
    (if b then only e (slot_to k x) g h else h = g \/ only e (slot_to k None) g h).
Proof. exact part_claim. Qed.
Print Assumptions c60_parts.

Theorem c60_members : forall g e x n, reached g -> look g e = Some n -> live g x ->
  exists b h, run (OAddItem e x) g = Some (b, h) /\
    (if b then only e (fun p => w_items (n_items p ++ [x]) p) g h \/ (In x (n_items n) /\ keep g h) else keep g h).
Proof. exact member_claim. Qed.
Print Assumptions c60_members.

(* a failing setter has dropped the old pointer: the line's colour is gone *)
Definition colour_ex : list op := [ONew 110; ONew 314; OSetDe 0 6 (Some 1%nat); OSetDe 0 6 (Some 0%nat)].
Example c60_case : exists g n, reached g /\ look g 0 = Some n /\ takes n 4 /\ takes n 6 /\
  nth 6 (n_des n) None = Some 1%nat /\
  (exists h, run (OSetDe 0 6 (Some 0%nat)) g = Some (false, h) /\ ~ points h 0 1 /\ ~ lists h 1 0).
Proof.
  assert (T : tidy_run (firstn 3 colour_ex) empty_graph) by (apply tidy_case; vm_compute; reflexivity).
  destruct (runs (firstn 3 colour_ex) empty_graph) as [g|] eqn:R; [|exfalso; revert R; vm_compute; discriminate].
  assert (Q : match runs (firstn 3 colour_ex) empty_graph with Some g => match look g 0 with Some n =>
      negb (n_null n) && (n_type n =? 110) && (match nth 6 (n_des n) None with Some x => Nat.eqb x 1 | None => false end)
      && match run (OSetDe 0 6 (Some 0%nat)) g with Some (b, h) => negb b && match look h 0, look h 1 with
        | Some p, Some q => nil (ptrs (n_des p) ++ n_extras p ++ ptrs (n_slots p) ++ n_items p ++ map ed_curve (n_edges p) ++ map fst (n_loops p)) && nil (n_refs q)
        | _, _ => false end | None => false end
      | None => false end | None => false end = true) by (vm_compute; reflexivity).
  rewrite R in Q. destruct (look g 0) as [n|] eqn:E; [|discriminate].
  destruct (run (OSetDe 0 6 (Some 0%nat)) g) as [[b h]|] eqn:S; [|now rewrite andb_false_r in Q].
  destruct (look h 0) as [p|] eqn:P; [|rewrite !andb_false_r in Q; discriminate].
  destruct (look h 1) as [q|] eqn:P1; [|rewrite !andb_false_r in Q; discriminate].
  apply andb_prop in Q. destruct Q as [Q Q4]. apply andb_prop in Q. destruct Q as [Q Q3]. apply andb_prop in Q. destruct Q as [Q1 Q2].
  apply andb_prop in Q4. destruct Q4 as [Q4 Q5]. apply andb_prop in Q5. destruct Q5 as [Q5 Q6].
  apply negb_true_iff in Q1. apply Z.eqb_eq in Q2.
  assert (Tk : forall k, (0 < k)%nat -> takes n k).
  { intros k Hk. unfold takes. rewrite Q2. repeat split; auto; try discriminate; intros X; exfalso; cbn in X; intuition discriminate. }
  exists g, n. split; [apply (reached_hist (firstn 3 colour_ex)); auto|]. split; [exact E|]. split; [apply Tk; lia|]. split; [apply Tk; lia|].
  split; [destruct (nth 6 (n_des n) None); [apply Nat.eqb_eq in Q3; now subst|discriminate]|].
  apply negb_true_iff in Q4. subst b. exists h. split; [exact S|].
  apply nil_true in Q5. apply nil_true in Q6.
  split.
  - intros (p' & Hp & Hh). rewrite P in Hp. injection Hp as <-. unfold holds in Hh.
    apply app_eq_nil in Q5. destruct Q5 as [A1 Q5]. apply app_eq_nil in Q5. destruct Q5 as [A2 Q5].
    apply app_eq_nil in Q5. destruct Q5 as [A3 Q5]. apply app_eq_nil in Q5. destruct Q5 as [A4 Q5].
    apply app_eq_nil in Q5. destruct Q5 as [A5 A6].
    rewrite <- !ptrs_in in Hh. rewrite A1, A2, A3, A4 in Hh. apply map_eq_nil in A5. apply map_eq_nil in A6. rewrite A5, A6 in Hh.
    cbn in Hh. destruct Hh as [[]|[[]|[[]|[[]|[(? & [] & _)|(? & [] & _)]]]]].
  - intros (q' & Hq & Hr). rewrite P1 in Hq. injection Hq as <-. rewrite Q6 in Hr. destruct Hr.
Qed.

(** *** C61: What deletion changes *)

Theorem c61_deletion : forall g e, reached g -> In e (g_ents g) -> may_die g e ->
  exists h, run (ODel e) g = Some (true, h) /\ ~ live h e /\ g_ents h = rem1 e (g_ents g) /\
    forall c n, c <> e -> look g c = Some n -> exists m, look h c = Some m /\
      (~ holds n e -> alike n m) /\
      (forall t, holds m t -> holds n t /\ t <> e) /\
      (~ costly n e -> forall t, holds n t -> t <> e -> holds m t).
Proof. exact delete_claim. Qed.
Print Assumptions c61_deletion.

(* the colour used by two lines is deleted; one of them keeps its transform *)
Definition delete_ex : list op :=
  [ONew 110; ONew 110; ONew 314; ONew 124; OSetDe 0 6 (Some 2%nat); OSetDe 1 6 (Some 2%nat); OSetDe 1 4 (Some 3%nat)].
Example c61_case : exists g, reached g /\ In 2%nat (g_ents g) /\ may_die g 2 /\ points g 0 2 /\ points g 1 2 /\ points g 1 3.
Proof.
  assert (T : tidy_run delete_ex empty_graph) by (apply tidy_case; vm_compute; reflexivity).
  destruct (ends_in_ok delete_ex (fun g => mem 2 (g_ents g) && may_dieb g 2 && (pointsb g 0 2 && pointsb g 1 2 && pointsb g 1 3))
    (fun g => mem 2 (g_ents g) = true /\ may_dieb g 2 = true /\ points g 0 2 /\ points g 1 2 /\ points g 1 3)) as (g & R & A & B & C & D & E).
  - intros g H. repeat match goal with X : _ && _ = true |- _ => apply andb_prop in X; destruct X end. auto 9 using pointsb_ok.
  - vm_compute. reflexivity.
  - assert (Rg : reached g) by (apply (reached_hist delete_ex); auto). exists g. split; [exact Rg|]. split; [now apply mem_in|].
    split; [|auto]. apply may_dieb_ok; [apply reached_inv; exact Rg|exact B].
Qed.

(** *** C31: Culling *)

Theorem c31_cull : forall g v, reached g -> few g -> pinned g ->
  exists h, run (OCull v) g = Some (true, h) /\ consistent h /\
    g_ents h = filter (alive h) (g_ents g) /\
    (forall e, live h e -> live g e) /\
    (forall e, ~ In e (g_ents g) -> live g e -> live h e) /\
    (forall e, In e (g_ents g) -> orphan g v e -> ~ live h e) /\
    (forall e n, look g e = Some n -> ~ live h e -> exists m, fewer n m /\ orphaned v m) /\
    (forall e n m, look g e = Some n -> look h e = Some m -> fewer n m) /\
    ((forall e, In e (g_ents g) -> ~ orphan g v e) -> h = g).
Proof. exact Cull_claim. Qed.
Print Assumptions c31_cull.

Theorem c31_groups_kept : forall g v a h, reached g -> few g -> pinned g -> (forall b, joined g a b -> ~ orphan g v b) ->
  run (OCull v) g = Some (true, h) -> forall b, joined g a b -> look h b = look g b.
Proof. exact Cull_group_claim. Qed.
Print Assumptions c31_groups_kept.

Theorem c31_repeated : forall g v, reached g -> few g -> pinned g ->
  exists h, culls (length (g_ents g)) v g = Some h /\ consistent h /\ (forall e, In e (g_ents h) -> ~ orphan h v e).
Proof. exact culls_claim. Qed.
Print Assumptions c31_repeated.

(* a transform stored before its only user, a dependent line nobody refers to *)
Definition cull_ex : list op := [ONew 124; ONew 110; OSetDe 1 4 (Some 0%nat); ODepend 1 1].
Theorem c31_one_pass_may_leave_orphans_refuted :
  ~ (forall g h, reached g -> few g -> pinned g -> run (OCull false) g = Some (true, h) ->
       forall e, In e (g_ents h) -> ~ orphan h false e).
Proof.
  intros H. assert (T : tidy_run cull_ex empty_graph) by (apply tidy_case; vm_compute; reflexivity).
  destruct (ends_in_ok cull_ex (fun g => fewb g && pinnedb g && match run (OCull false) g with
       | Some (true, h) => mem 0 (g_ents h) && match look h 0 with Some n => doomed false n | None => false end | _ => false end)
    (fun g => fewb g = true /\ pinnedb g = true /\ exists h, run (OCull false) g = Some (true, h) /\ mem 0 (g_ents h) = true /\ orphan h false 0))
    as (g & R & F & P & h & C & M & O).
  - intros g X. apply andb_prop in X. destruct X as [X1 X]. apply andb_prop in X1. destruct X1. repeat split; auto.
    destruct (run (OCull false) g) as [[[|] h]|]; try discriminate. apply andb_prop in X. destruct X as [X1 X2].
    exists h. split; [reflexivity|]. split; [exact X1|]. destruct (look h 0) as [n|] eqn:E; [|discriminate].
    exists n. split; [exact E|]. now apply orphaned_doomed.
  - vm_compute. reflexivity.
  - assert (Rg : reached g) by (apply (reached_hist cull_ex); auto). pose proof (reached_inv g Rg) as (G & _).
    apply (H g h Rg (fewb_ok g G F) (pinnedb_ok g G P) C 0%nat); [now apply mem_in|exact O].
Qed.
Print Assumptions c31_one_pass_may_leave_orphans_refuted.

Example c31_case : exists g, reached g /\ few g /\ pinned g /\ In 1%nat (g_ents g) /\ orphan g false 1 /\ ~ orphan g false 0.
Proof.
  assert (T : tidy_run cull_ex empty_graph) by (apply tidy_case; vm_compute; reflexivity).
  destruct (ends_in_ok cull_ex (fun g => fewb g && pinnedb g && mem 1 (g_ents g) &&
      match look g 1, look g 0 with Some n, Some m => doomed false n && negb (doomed false m) | _, _ => false end)
    (fun g => fewb g = true /\ pinnedb g = true /\ mem 1 (g_ents g) = true /\ orphan g false 1 /\ ~ orphan g false 0))
    as (g & R & F & P & M & O & N).
  - intros g X. repeat match goal with Y : _ && _ = true |- _ => apply andb_prop in Y; destruct Y end. repeat split; auto.
    + destruct (look g 1) as [n|] eqn:E; [|discriminate]. destruct (look g 0) as [m|]; [|discriminate].
      apply andb_prop in H0. exists n. split; [exact E|]. now apply orphaned_doomed.
    + intros (m & E & O). destruct (look g 1); [|discriminate]. rewrite E in H0. apply andb_prop in H0. destruct H0 as [_ H0].
      apply orphaned_doomed in O. rewrite O in H0. discriminate.
  - vm_compute. reflexivity.
  - assert (Rg : reached g) by (apply (reached_hist cull_ex); auto). pose proof (reached_inv g Rg) as (G & _).
    exists g. auto 7 using fewb_ok, pinnedb_ok, (proj1 (mem_in 1%nat (g_ents g))).
Qed.

(** *** C40: Composite curves *)

Theorem c40_segments : forall g c n, reached g -> look g c = Some n -> n_null n = false -> n_type n = 102 ->
  NoDup (n_items n) /\ ~ In c (n_items n) /\
  (forall x, In x (n_items n) -> exists m, look g x = Some m /\ n_null m = false /\
     In (n_type m) [100; 104; 110; 126] /\ In c (n_refs m)).
Proof. exact segments_claim. Qed.
Print Assumptions c40_segments.

Theorem c40_segment_added : forall g c x cl n, reached g -> look g c = Some n -> live g x ->
  exists b h, run (OAddSegment c x cl) g = Some (b, h) /\
    (if b then (~ holds n x /\ only c (fun p => w_items (n_items p ++ [x]) p) g h) \/ (holds n x /\ keep g h)
     else keep g h).
Proof. exact add_segment_claim. Qed.
Print Assumptions c40_segment_added.

Theorem c40_segment_deleted : forall g c n a x b, reached g -> In x (g_ents g) -> may_die g x ->
  look g c = Some n -> n_null n = false -> n_type n = 102 -> n_items n = a ++ x :: b ->
  exists h m, run (ODel x) g = Some (true, h) /\ look h c = Some m /\
    n_items m = (if (match a, b with [], _ | _, [] => true | _, _ => false end) then a ++ b else []) /\
    (forall t, In t (a ++ b) -> live h t /\ (lists h t c <-> In t (n_items m))).
Proof. exact segment_claim. Qed.
Print Assumptions c40_segment_deleted.

(* four segments; adding one twice changes nothing *)
Definition curve_ex : list op :=
  [ONew 102; ONew 110; ONew 100; ONew 126; ONew 104; OAddSegment 0 1 false; OAddSegment 0 2 false; OAddSegment 0 3 false;
   OAddSegment 0 4 false; OAddSegment 0 2 false; ONew 102; OAddSegment 5 2 false]%nat.
Example c40_case : exists g n, reached g /\ look g 0 = Some n /\ n_null n = false /\ n_type n = 102 /\
  n_items n = ([1] ++ 2 :: [3; 4])%nat /\ In 2%nat (g_ents g) /\ may_die g 2.
Proof.
  assert (T : tidy_run curve_ex empty_graph) by (apply tidy_case; vm_compute; reflexivity).
  destruct (ends_in_ok curve_ex (fun g => mem 2 (g_ents g) && may_dieb g 2 && match look g 0 with
      | Some n => negb (n_null n) && (n_type n =? 102) && (if list_eq_dec Nat.eq_dec (n_items n) [1; 2; 3; 4]%nat then true else false)
      | None => false end)
    (fun g => mem 2 (g_ents g) = true /\ may_dieb g 2 = true /\ exists n, look g 0 = Some n /\ n_null n = false /\ n_type n = 102 /\ n_items n = [1; 2; 3; 4]%nat))
    as (g & R & A & B & n & E & N & Ty & It).
  - intros g X. apply andb_prop in X. destruct X as [X1 X]. apply andb_prop in X1. destruct X1. repeat split; auto.
    destruct (look g 0) as [n|]; [|discriminate]. exists n. repeat match goal with Y : _ && _ = true |- _ => apply andb_prop in Y; destruct Y end.
    split; [reflexivity|]. split; [now apply negb_true_iff|]. split; [now apply Z.eqb_eq|]. destruct (list_eq_dec _ _ _); [assumption|discriminate].
  - vm_compute. reflexivity.
  - assert (Rg : reached g) by (apply (reached_hist curve_ex); auto). pose proof (reached_inv g Rg) as (G & _).
    exists g, n. split; [exact Rg|]. repeat (split; [assumption|]). split; [now apply mem_in|now apply may_dieb_ok].
Qed.

(** *** C62: Clearing the model *)

Theorem c62_clear : forall g, reached g -> few g -> edges_first g ->
  exists h, run OClear g = Some (true, h) /\ consistent h /\ g_ents h = [] /\
    (forall e, live h e <-> live g e /\ ~ In e (g_ents g)).
Proof. exact clear_claim. Qed.
Print Assumptions c62_clear.

(* two boxes and their union, stored in the order box, union, box: every step of the
   history is tidy, and Clear runs into a deleted entity *)
Definition union_ex : list op := [ONew 154; ONew 180; ONew 154; OAddItem 1 0; OAddItem 1 2]%nat.
(* a vertex list stored before the edge list that uses it *)
Definition edge_ex : list op := [ONew 502; OAddVertex 0; ONew 504; ONew 110; OAddEdge 1 2 0 1 0 1]%nat.
Theorem c62_clear_may_crash_refuted :
  (exists g, reached g /\ run OClear g = None /\ g_ents g = [0; 1; 2]%nat /\ points g 1 0 /\ points g 1 2) /\
  (exists g, reached g /\ run OClear g = None /\ g_ents g = [0; 1; 2]%nat /\ edge_uses g 1 0).
Proof.
  split.
  - assert (T : tidy_run union_ex empty_graph) by (apply tidy_case; vm_compute; reflexivity).
    destruct (ends_in_ok union_ex (fun g => (match run OClear g with None => true | _ => false end) &&
        (if list_eq_dec Nat.eq_dec (g_ents g) [0; 1; 2]%nat then true else false) && (pointsb g 1 0 && pointsb g 1 2))
      (fun g => run OClear g = None /\ g_ents g = [0; 1; 2]%nat /\ points g 1 0 /\ points g 1 2)) as (g & R & A).
    + intros g X. repeat match goal with Y : _ && _ = true |- _ => apply andb_prop in Y; destruct Y end.
      destruct (run OClear g); [discriminate|]. destruct (list_eq_dec _ _ _); [|discriminate]. auto 9 using pointsb_ok.
    + vm_compute. reflexivity.
    + exists g. split; [apply (reached_hist union_ex); auto|exact A].
  - assert (T : tidy_run edge_ex empty_graph) by (apply tidy_case; vm_compute; reflexivity).
    destruct (ends_in_ok edge_ex (fun g => (match run OClear g with None => true | _ => false end) &&
        (if list_eq_dec Nat.eq_dec (g_ents g) [0; 1; 2]%nat then true else false) &&
        match look g 1 with Some n => existsb (fun d => Nat.eqb 0 (ed_start d)) (n_edges n) | None => false end)
      (fun g => run OClear g = None /\ g_ents g = [0; 1; 2]%nat /\ edge_uses g 1 0)) as (g & R & A).
    + intros g X. repeat match goal with Y : _ && _ = true |- _ => apply andb_prop in Y; destruct Y end.
      destruct (run OClear g); [discriminate|]. destruct (list_eq_dec _ _ _); [|discriminate].
      split; [reflexivity|]. split; [assumption|]. destruct (look g 1) as [n|] eqn:E; [|discriminate].
      apply existsb_exists in H0. destruct H0 as (d & D1 & D2). apply Nat.eqb_eq in D2. exists n, d. auto.
    + vm_compute. reflexivity.
    + exists g. split; [apply (reached_hist edge_ex); auto|exact A].
Qed.
Print Assumptions c62_clear_may_crash_refuted.

Example c62_case : exists g, reached g /\ few g /\ edges_first g /\ g_ents g = [0; 1; 2]%nat /\ edge_uses g 0 2.
Proof.
  set (l := [ONew 504; ONew 110; ONew 502; OAddVertex 2; OAddEdge 0 1 2 1 2 1]%nat).
  assert (T : tidy_run l empty_graph) by (apply tidy_case; vm_compute; reflexivity).
  destruct (ends_in_ok l (fun g => fewb g && edges_firstb g && (if list_eq_dec Nat.eq_dec (g_ents g) [0; 1; 2]%nat then true else false) &&
      match look g 0 with Some n => existsb (fun d => Nat.eqb 2 (ed_start d)) (n_edges n) | None => false end)
    (fun g => fewb g = true /\ edges_firstb g = true /\ g_ents g = [0; 1; 2]%nat /\ edge_uses g 0 2)) as (g & R & A & B & C & D).
  - intros g X. repeat match goal with Y : _ && _ = true |- _ => apply andb_prop in Y; destruct Y end.
    destruct (list_eq_dec _ _ _); [|discriminate]. repeat split; auto. destruct (look g 0) as [n|] eqn:E; [|discriminate].
    apply existsb_exists in H0. destruct H0 as (d & D1 & D2). apply Nat.eqb_eq in D2. exists n, d. auto.
  - vm_compute. reflexivity.
  - assert (Rg : reached g) by (apply (reached_hist l); auto). pose proof (reached_inv g Rg) as (G & _).
    exists g. auto 9 using fewb_ok, edges_firstb_ok.
Qed.

(** *** C63: Removing a member of a subfigure or an inner boundary of a trimmed surface *)

Theorem c63_removal_leaves_a_stale_referrer : forall g e x n, reached g -> look g e = Some n -> n_null n = false ->
  In (n_type n) [144; 308] -> In x (n_items n) ->
  exists h, run (ODelItem e x) g = Some (true, h) /\ ~ points h e x /\ lists h x e /\ ~ consistent h.
Proof. exact member_removed. Qed.
Print Assumptions c63_removal_leaves_a_stale_referrer.

(* the subfigure is then deleted and its former member lists a deleted entity; deleting
   the member uses it *)
Definition member_ex : list op := [ONew 308; ONew 110; OAddItem 0 1]%nat.
Theorem c63_stale_referrer_used : 
  (exists g, runs (member_ex ++ [ODelItem 0 1; ODel 0]%nat) empty_graph = Some g /\ lists g 1 0 /\ ~ live g 0) /\
  runs (member_ex ++ [ODelItem 0 1; ODel 0; ODel 1]%nat) empty_graph = None.
Proof. split; [apply stale; vm_compute; reflexivity|vm_compute; reflexivity]. Qed.
Print Assumptions c63_stale_referrer_used.

Example c63_case : exists g n, reached g /\ look g 0 = Some n /\ n_null n = false /\ In (n_type n) [144; 308] /\ In 1%nat (n_items n).
Proof.
  assert (T : tidy_run member_ex empty_graph) by (apply tidy_case; vm_compute; reflexivity).
  destruct (ends_in_ok member_ex (fun g => match look g 0 with Some n => negb (n_null n) && (n_type n =? 308) && mem 1 (n_items n) | None => false end)
    (fun g => exists n, look g 0 = Some n /\ n_null n = false /\ n_type n = 308 /\ In 1%nat (n_items n))) as (g & R & n & A & B & C & D).
  - intros g X. destruct (look g 0) as [n|]; [|discriminate]. exists n.
    repeat match goal with Y : _ && _ = true |- _ => apply andb_prop in Y; destruct Y end.
    split; [reflexivity|]. split; [now apply negb_true_iff|]. split; [now apply Z.eqb_eq|now apply mem_in].
  - vm_compute. reflexivity.
  - exists g, n. split; [apply (reached_hist member_ex); auto|]. split; [exact A|]. split; [exact B|]. split; [rewrite C; cbn; auto|exact D].
Qed.

(** *** C64: Faces *)

Theorem c64_surface_not_registered : forall g e x n, reached g -> look g e = Some n -> n_null n = false -> n_type n = 510 ->
  live g x -> x <> e -> ~ points g e x ->
  exists h, run (OSetSurface e x) g = Some (true, h) /\ points h e x /\ ~ lists h x e /\ ~ consistent h.
Proof. exact face_surface. Qed.
Print Assumptions c64_surface_not_registered.

Theorem c64_bound_not_registered : forall g e x n m, reached g -> look g e = Some n -> n_null n = false -> n_type n = 510 ->
  look g x = Some m -> n_null m = false -> n_type m = 508 -> ~ points g e x ->
  exists h, run (OAddBound e x) g = Some (true, h) /\ points h e x /\ ~ lists h x e /\ ~ consistent h.
Proof. exact face_bound. Qed.
Print Assumptions c64_bound_not_registered.

(* deleting the surface leaves the face with a pointer to it; deleting the face then follows it *)
Theorem c64_surface_deleted :
  (exists g, runs [ONew 510; ONew 128; OSetSurface 0 1; ODel 1]%nat empty_graph = Some g /\ points g 0 1 /\ ~ live g 1) /\
  runs [ONew 510; ONew 128; OSetSurface 0 1; ODel 1; ODel 0]%nat empty_graph = None.
Proof. split; [apply dangling; vm_compute; reflexivity|vm_compute; reflexivity]. Qed.
Print Assumptions c64_surface_deleted.

Example c64_case : exists g n m, reached g /\ look g 0 = Some n /\ n_null n = false /\ n_type n = 510 /\
  look g 1 = Some m /\ n_null m = false /\ n_type m = 508 /\ ~ points g 0 1.
Proof.
  assert (T : tidy_run [ONew 510; ONew 508] empty_graph) by (apply tidy_case; vm_compute; reflexivity).
  exists (NewEntity (NewEntity empty_graph 510 true) 508 true), (new_node 510 true), (new_node 508 true).
  split; [apply (reached_hist [ONew 510; ONew 508]); auto|]. repeat (split; [reflexivity|]).
  intros (n & E & H). injection E as <-. unfold holds in H. cbn in H.
  intuition (try discriminate); match goal with X : exists _, _ |- _ => destruct X as (? & [] & _) end.
Qed.

(** *** C65: Vertex lists in use *)

Theorem c65_deleting_a_used_vertex_list : forall g r v, reached g -> edge_uses g r v -> In v (g_ents g) -> run (ODel v) g = None.
Proof. exact vertex_list_claim. Qed.
Print Assumptions c65_deleting_a_used_vertex_list.

Example c65_case : exists g, reached g /\ edge_uses g 1 0 /\ In 0%nat (g_ents g).
Proof.
  destruct c62_clear_may_crash_refuted as (_ & g & R & _ & E & U). exists g. split; [exact R|]. split; [exact U|]. rewrite E. now left.
Qed.

(** *** C66: Operands of a boolean tree *)

(* one of two operands is deleted: the tree forgets both, the other operand still
   lists the tree, and lists it after the tree is deleted too; deleting the operand
   then uses the deleted tree *)
Theorem c66_operand_deleted :
  (exists g, runs (union_ex ++ [ODel 0]%nat) empty_graph = Some g /\ live g 1 /\ ~ points g 1 2 /\ lists g 2 1) /\
  (exists g, runs (union_ex ++ [ODel 0; ODel 1]%nat) empty_graph = Some g /\ lists g 2 1 /\ ~ live g 1) /\
  runs (union_ex ++ [ODel 0; ODel 1; ODel 2]%nat) empty_graph = None.
Proof.
  split; [|split; [apply stale; vm_compute; reflexivity|vm_compute; reflexivity]].
  apply (ends_in_ok _ (fun g => liveb g 1 && listsb g 2 1 && match look g 1 with
    | Some p => nil (ptrs (n_des p) ++ n_extras p ++ ptrs (n_slots p) ++ n_items p ++ map ed_curve (n_edges p) ++ map fst (n_loops p))
    | None => false end)); [|vm_compute; reflexivity].
  intros g X. repeat match goal with Y : _ && _ = true |- _ => apply andb_prop in Y; destruct Y end.
  split; [now apply liveb_ok|]. split; [|now apply listsb_ok].
  destruct (look g 1) as [p|] eqn:P; [|discriminate]. apply nil_true in H0. intros (p' & Hp & Hh). rewrite P in Hp. injection Hp as <-. unfold holds in Hh.
  apply app_eq_nil in H0. destruct H0 as [A1 Q5]. apply app_eq_nil in Q5. destruct Q5 as [A2 Q5].
  apply app_eq_nil in Q5. destruct Q5 as [A3 Q5]. apply app_eq_nil in Q5. destruct Q5 as [A4 Q5].
  apply app_eq_nil in Q5. destruct Q5 as [A5 A6].
  rewrite <- !ptrs_in in Hh. rewrite A1, A2, A3, A4 in Hh. apply map_eq_nil in A5. apply map_eq_nil in A6. rewrite A5, A6 in Hh.
  cbn in Hh. destruct Hh as [[]|[[]|[[]|[[]|[(? & [] & _)|(? & [] & _)]]]]].
Qed.
Print Assumptions c66_operand_deleted.

(** *** C67: Optional entities, loops and other operations that break the books *)

(* a transform and an unsupported entity keep the pointer to a deleted optional entity *)
Theorem c67_optional_entity_deleted :
  (exists g, runs [ONew 124; ONew 406; OAddOptional 0 1; ODel 1]%nat empty_graph = Some g /\ points g 0 1 /\ ~ live g 1) /\
  (exists g, runs [ONew 999; ONew 406; OAddOptional 0 1; ODel 1]%nat empty_graph = Some g /\ points g 0 1 /\ ~ live g 1).
Proof. split; apply dangling; vm_compute; reflexivity. Qed.
Print Assumptions c67_optional_entity_deleted.

(* a property that is its own optional entity cannot be deleted *)
Theorem c67_property_of_itself : runs [ONew 406; OAddOptional 0 0]%nat empty_graph <> None /\
  runs [ONew 406; OAddOptional 0 0; ODel 0]%nat empty_graph = None.
Proof. split; [vm_compute; discriminate|vm_compute; reflexivity]. Qed.
Print Assumptions c67_property_of_itself.

(* a deleted loop stays a referrer of its edge list *)
Theorem c67_loop_deleted :
  exists g, runs [ONew 504; ONew 110; ONew 502; OAddVertex 2; OAddEdge 0 1 2 1 2 1; ONew 508; OAddLoopEdge 3 0 []; ODel 3]%nat empty_graph = Some g
    /\ lists g 0 3 /\ ~ live g 3.
Proof. apply stale. vm_compute. reflexivity. Qed.
Print Assumptions c67_loop_deleted.

(* SetDE of a tabulated cylinder with NULL follows the null pointer *)
Theorem c67_null_directrix : forall g e n cl, look g e = Some n -> n_null n = false -> n_type n = 122 ->
  run (OSetSlot e 0 None cl) g = None.
Proof. intros g e n cl E N T. cbn [run]. unfold SetSlot. now rewrite E, N, T. Qed.
Print Assumptions c67_null_directrix.

Example c67_case : exists n, look (NewEntity empty_graph 122 true) 0 = Some n /\ n_null n = false /\ n_type n = 122.
Proof. exists (new_node 122 true). repeat split. Qed.
