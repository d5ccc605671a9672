(** C151: which outlines of components are counted as in use. *)

From Verif Require Import Base Num IoModel IdfText IdfOutl IdfFile IdfLib Spec IdfSpec IdfOutlSpec IdfFileSpec IdfLibSpec
  IdfFileSect IdfLibFacts IdfLibFile IdfLibAgain IdfLibCase.
From Verif Require Import IdfPlace IdfPlaceSpec IdfRef IdfRefSpec IdfRefFacts IdfRefLib.
Open Scope Z_scope.

(** C151: with placements which are read or made without offsets the counter of an outline
    is the number of placements which use it. *)
Theorem c151_counted cs s : ref_run cs no_refs = Some s -> Forall counts cs -> forall o, users s o (r_num s o).
Proof. exact (counted cs s). Qed.
Print Assumptions c151_counted.

Example c151_counted_case : exists s, ref_run some_calls no_refs = Some s /\ Forall counts some_calls /\
  r_data s = [(1, Some 2); (2, Some 0); (3, Some 2)]%nat /\ r_num s 0%nat = 1%nat /\ r_num s 1%nat = 0%nat /\ r_num s 2%nat = 2%nat.
Proof. exact some_case. Qed.

(** Whatever is called it is never more. *)
Theorem c151_at_most cs s : ref_run cs no_refs = Some s -> forall o n, users s o n -> (r_num s o <= n)%nat.
Proof. exact (at_most cs s). Qed.
Print Assumptions c151_at_most.

(** The library which is written holds only outlines in use and, if all placements are
    counted, each of them. *)
Theorem c151_library ccw source date n cs s (lib : list (str * (nat * cout))) :
  ref_run cs no_refs = Some s -> ~ In quote source -> ~ In nl source -> date_ok date -> 0 <= n + 1 <= 2147483647 ->
  Forall (fun x => fst x = uid (snd (snd x)) /\ (in_use s (fst (snd x)) -> comp_fits (snd (snd x)))) lib -> in_order (map fst lib) ->
  exists text l', write_lib ccw source date n (numbered s lib) = Some text /\
    read_lib ccw (mkStream text false) = Some (mkHead V3 (source_text source) date (n + 1), l') /\
    (forall k c', In (k, c') l' -> exists o c, In (k, (o, c)) lib /\ in_use s o /\ comp_back ccw c c') /\
    (Forall counts cs -> forall k o c, In (k, (o, c)) lib -> in_use s o -> exists c', In (k, c') l' /\ comp_back ccw c c').
Proof. exact (library_uses ccw source date n cs s lib). Qed.
Print Assumptions c151_library.

Example c151_library_case : exists s, ref_run some_calls no_refs = Some s /\ date_ok (S2 "2020/01/01.00:00:00") /\
  Forall (fun x => fst x = uid (snd (snd x)) /\ (in_use s (fst (snd x)) -> comp_fits (snd (snd x)))) some_lib /\ in_order (map fst some_lib) /\
  in_use s 0%nat /\ ~ in_use s 1%nat /\ in_use s 2%nat.
Proof. exact lib_case. Qed.

(** A placement made with offsets does not count, and takes the reference of another one
    away when it goes; so does a copy. *)
Theorem c151_stolen cs s o : ref_run cs no_refs = Some s ->
  exists s1 s2, ref_run [MakeAt (Some o)] s = Some s1 /\ r_num s1 o = r_num s o /\ in_use s1 o /\
    ref_run [MakeAt (Some o); Drop (r_next s)] s = Some s2 /\ r_num s2 o = pred (r_num s o) /\ r_data s2 = r_data s /\
    forall d, In (d, Some o) (r_data s) -> ref_run [Copy d; Drop (r_next s)] s = Some s2.
Proof. exact (stolen cs s o). Qed.
Print Assumptions c151_stolen.

Example c151_stolen_case : exists s s1 s2, ref_run [Make (Some 0%nat)] no_refs = Some s /\ r_num s 0%nat = 1%nat /\
  ref_run [Make (Some 0%nat); MakeAt (Some 0%nat); Drop 1] no_refs = Some s1 /\ r_data s1 = [(0, Some 0)]%nat /\ r_num s1 0%nat = 0%nat /\
  ref_run [Make (Some 0%nat); Copy 0; Drop 1] no_refs = Some s2 /\ r_data s2 = [(0, Some 0)]%nat /\ r_num s2 0%nat = 0%nat.
Proof. exact lost_case. Qed.

(** [Clear] of an outline forgets all of them; an outline without a reference is not
    written. *)
Theorem c151_unwritten ccw s o : exists s', ref_run [Wipe true o] s = Some s' /\ r_data s' = r_data s /\ r_num s' o = 0%nat /\
  forall s'' (c : cout) k lib, r_num s'' o = 0%nat ->
    write_comp ccw (Z.of_nat (r_num s'' o)) c = Some [] /\ referred (numbered s'' ((k, (o, c)) :: lib)) = referred (numbered s'' lib).
Proof. exact (wiped_unwritten ccw s o). Qed.
Print Assumptions c151_unwritten.
