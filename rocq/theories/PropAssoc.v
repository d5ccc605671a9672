(** The claims about the last phase of reading, when the numbers in a file become
    pointers (C77, C78), each with a concrete case. *)

From Coq Require Import List Bool ZArith Lia ZifyBool ZifyNat.
From Verif Require Import GraphModel GraphSpec AssocModel AssocSpec AssocAll AssocProps AssocCheck.
Import ListNotations.
Open Scope Z_scope.

(** *** C77: A file whose references are in order is connected as it says *)

Theorem c77_sound_file_is_connected : forall closed joins l qs,
  sound_plan l -> Forall2 (says l) l qs -> drawn closed joins l ->
  exists g, associate_all closed joins (length qs) qs (loaded_graph qs) [] (g_ents (loaded_graph qs)) = Some (true, g) /\ rebuilt l g.
Proof. intros closed joins l qs Sd Sy Dr. exact (all_associate l qs Sd Sy closed joins Dr). Qed.
Print Assumptions c77_sound_file_is_connected.

Theorem c77_whole_file_is_read : forall closed joins l qs,
  sound_plan l -> Forall2 (says l) l qs -> drawn closed joins l -> whole l ->
  exists g, connect closed joins qs = Some (true, g) /\ rebuilt l g.
Proof. exact whole_claim. Qed.
Print Assumptions c77_whole_file_is_read.

(* an extrusion of two lines, the first placed by a transform, coloured and with a
   property; and a solid with one face bounded by one edge *)
Definition free_des : list (option nat) := [None; None; None; None; None; None; None].
Definition nd (t form dep : Z) (pts : nat) des ex sl it ed lo : node := mkNode t false form true dep pts [] des ex sl it ed [] lo.
Definition pl (t : Z) it : node := nd t 0 0 0 free_des [] [] it [] [].
Definition plan_ex : list node :=
  [pl 124 []; pl 314 [];
   nd 110 0 0 0 [None; None; None; None; Some 0; None; Some 1]%nat [14]%nat [] [] [] [];
   pl 110 []; pl 102 [2; 3]%nat;
   nd 164 0 0 0 free_des [] [Some 4%nat] [] [] [];
   pl 128 [];
   nd 502 1 1 2 free_des [] [] [] [] [];
   pl 110 [];
   nd 504 1 1 0 free_des [] [] [] [mkEdge 8 7 7] [];
   nd 508 1 1 0 free_des [] [] [] [] [(9, [])]%nat;
   nd 510 1 1 0 free_des [] [Some 6%nat] [10]%nat [] [];
   nd 514 1 0 0 free_des [] [] [11]%nat [] [];
   nd 186 0 0 0 free_des [] [Some 12%nat] [] [] [];
   nd 406 15 0 0 free_des [] [] [] [] []].

Definition wt (t form dep : Z) (pts : nat) des ex sl it ed lo : wants := mkWants t form dep pts des ex sl it ed lo.
Definition no_des : list Z := [0; 1; 0; 0; 0; 0; 3].
Definition wl (t : Z) it : wants := wt t 0 0 0 no_des [] [] it [] [].
Definition file_ex : list wants :=
  [wl 124 []; wl 314 [];
   wt 110 0 0 0 [0; 1; 0; 0; 1; 0; -3] [29] [] [] [] [];
   wl 110 []; wl 102 [5; 7];
   wt 164 0 0 0 no_des [] [9] [] [] [];
   wl 128 [];
   wt 502 1 1 2 no_des [] [] [] [] [];
   wl 110 [];
   wt 504 1 1 0 no_des [] [] [] [(17, (15, 1), (15, 2))] [];
   wt 508 1 1 0 no_des [] [] [] [] [(19, [])];
   wt 510 1 1 0 no_des [] [13] [21] [] [];
   wt 514 1 0 0 no_des [] [] [23] [] [];
   wt 186 0 0 0 no_des [] [25] [] [] [];
   wt 406 15 0 0 no_des [] [] [] [] []].

(* a composite curve is closed once it has two segments *)
Definition closed_ex (g : graph) (c : nat) : bool :=
  match look g c with Some m => (n_type m =? 102) && (2 <=? Z.of_nat (length (n_items m))) | None => false end.
Definition joins_ex (g : graph) (a b : nat) : bool := true.
Lemma plan_ex_drawn : drawn closed_ex joins_ex plan_ex.
Proof.
  constructor; [reflexivity|]. intros i n c m E T S Em. right.
  do 5 (destruct i as [|i]; [cbn in E; injection E as <-; discriminate T|]).
  destruct i as [|i]; [|do 9 (destruct i as [|i]; [cbn in E; injection E as <-; discriminate T|]); destruct i; discriminate E].
  cbn in E; injection E as <-.
  cbn in S. injection S as <-. cbn in Em. injection Em as <-. split; [lia|].
  intros g (n & k & En & Ek & A) _. cbn in En. injection En as <-. unfold closed_ex. rewrite Ek.
  destruct A as (A1 & _ & _ & _ & _ & _ & _ & A8 & _). now rewrite A1, A8.
Qed.
Ltac say idx := constructor; [match goal with |- says ?l ?n _ => change (says l n (said l n no_des idx)); apply says_ok; reflexivity end|].
Lemma file_ex_says : Forall2 (says plan_ex) plan_ex file_ex.
Proof. do 9 say (@Datatypes.nil (Z * Z)). say [(1, 2)]. do 5 say (@Datatypes.nil (Z * Z)). constructor. Qed.

Example c77_case : sound_plan plan_ex /\ Forall2 (says plan_ex) plan_ex file_ex /\ drawn closed_ex joins_ex plan_ex /\ whole plan_ex.
Proof.
  split; [apply soundb_ok; vm_compute; reflexivity|]. split; [exact file_ex_says|]. split; [exact plan_ex_drawn|].
  apply wholeb_ok. vm_compute. reflexivity.
Qed.

(** *** C78: What Read keeps of a file whose references are in order *)

Theorem c78_what_is_kept : forall closed joins l qs,
  sound_plan l -> Forall2 (says l) l qs -> drawn closed joins l -> bookable l -> few_trees l ->
  exists h, connect closed joins qs = Some (true, h) /\ reached h /\ consistent h /\
    g_ents h = filter (alive h) (seq 0 (length l)) /\
    (forall e, live h e -> (e < length l)%nat) /\
    (forall i n, nth_error l i = Some n -> ~ whole_at l i n -> ~ live h i) /\
    (forall i n m, nth_error l i = Some n -> look h i = Some m ->
       n_type m = n_type n /\ n_null m = n_null n /\ n_form m = n_form n /\ n_dep m = n_dep n /\ n_points m = n_points n /\
       (forall t, holds m t -> In t (parts n)) /\ (forall r, In r (n_refs m) -> exists k, nth_error l r = Some k /\ In i (parts k))) /\
    (forall i n, nth_error l i = Some n -> (forall b m, linked l i b -> nth_error l b = Some m -> whole_at l b m) ->
       exists m, look h i = Some m /\ alike n m) /\
    (whole l -> rebuilt l h).
Proof. exact connect_claim. Qed.
Print Assumptions c78_what_is_kept.

(* the extrusion alone, with a colour nobody uses *)
Definition plan_ex2 : list node :=
  [pl 124 []; pl 314 [];
   nd 110 0 0 0 [None; None; None; None; Some 0; None; None]%nat [6]%nat [] [] [] [];
   pl 110 []; pl 102 [2; 3]%nat;
   nd 164 0 0 0 free_des [] [Some 4%nat] [] [] [];
   nd 406 15 0 0 free_des [] [] [] [] []].
Definition file_ex2 : list wants :=
  [wl 124 []; wl 314 []; wt 110 0 0 0 [0; 1; 0; 0; 1; 0; 3] [13] [] [] [] [];
   wl 110 []; wl 102 [5; 7]; wt 164 0 0 0 no_des [] [9] [] [] []; wt 406 15 0 0 no_des [] [] [] [] []].
Example c78_case : sound_plan plan_ex2 /\ Forall2 (says plan_ex2) plan_ex2 file_ex2 /\ drawn closed_ex joins_ex plan_ex2 /\
  bookable plan_ex2 /\ few_trees plan_ex2 /\ ~ whole_at plan_ex2 1 (pl 314 []).
Proof.
  split; [apply soundb_ok; vm_compute; reflexivity|]. split; [do 7 say (@Datatypes.nil (Z * Z)); constructor|]. split.
  { constructor; [reflexivity|]. intros i n c m E T S Em. right.
    do 5 (destruct i as [|i]; [cbn in E; injection E as <-; discriminate T|]).
    destruct i as [|i]; [|do 1 (destruct i as [|i]; [cbn in E; injection E as <-; discriminate T|]); destruct i; discriminate E].
    cbn in E; injection E as <-.
    cbn in S. injection S as <-. cbn in Em. injection Em as <-. split; [lia|].
    intros g (n & k & En & Ek & A) _. cbn in En. injection En as <-. unfold closed_ex. rewrite Ek.
    destruct A as (A1 & _ & _ & _ & _ & _ & _ & A8 & _). now rewrite A1, A8. }
  split; [apply bookableb_ok; vm_compute; reflexivity|]. split; [apply few_treesb_ok; vm_compute; reflexivity|].
  intros [_ W]. destruct W as (r & k & E & H); [left; cbn; tauto|].
  do 7 (destruct r as [|r]; [cbn in E; injection E as <-; cbn in H; intuition discriminate|]). destruct r; discriminate E.
Qed.
