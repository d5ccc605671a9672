(** The claims about handles and validity flags (C38, C68-C70), each with a concrete case.
    Objects and handles are numbered in the order they are made, from 0. *)

From Coq Require Import List Bool ZArith Lia.
From Verif Require Import HandleModel HandleSpec HandleFacts HandleOps HandleProps HandleCheck.
Import ListNotations.
Open Scope Z_scope.

(** *** C38: Handle validity follows object lifetime *)

Theorem c38_valid_handles_are_good : forall l, sane_run l empty ->
  exists s, runs l empty = Some s /\ forall h t, handle s h t ->
    (IsValid s h <-> exists e, attached s h = Some e) /\
    (forall e, attached s h = Some e -> of_type s e t) /\ (forall m, parent s h = Some m -> model s m).
Proof. exact handles_sound. Qed.
Print Assumptions c38_valid_handles_are_good.

Theorem c38_links_follow_lifetime : forall s o s' h t, reached s -> sane s o -> run o s = Some s' -> handle s h t ->
  (~ concerns o h -> handle s' h t /\ follows s o (attached s h) (attached s' h)) /\
  (~ concerns_parent o h -> handle s' h t /\ follows s o (parent s h) (parent s' h)).
Proof. exact handle_follows. Qed.
Print Assumptions c38_links_follow_lifetime.

Theorem c38_exactly_these_die : forall s o s' e t, reached s -> sane s o -> run o s = Some s' -> of_type s e t ->
  (dies s o e -> ~ alive s' e) /\ (~ dies s o e -> of_type s' e t).
Proof. exact exactly_dies. Qed.
Print Assumptions c38_exactly_these_die.

Theorem c38_attach : forall s h t e te, reached s -> handle s h t -> of_type s e te ->
  exists s', Attach h e s = Some (t =? te, s') /\ attached s' h = (if t =? te then Some e else attached s h).
Proof. exact attach_effect. Qed.
Print Assumptions c38_attach.

Theorem c38_detach : forall s h t, reached s -> handle s h t ->
  exists s', Detach h s = Some s' /\ attached s' h = None /\ handle s' h t.
Proof. exact detach_effect. Qed.
Print Assumptions c38_detach.

Theorem c38_delete : forall s h, reached s -> sane s (HDel h) ->
  exists s', HandDel h s = Some s' /\ attached s' h = None /\ forall e, attached s h = Some e -> ~ alive s' e.
Proof. exact delete_effect. Qed.
Print Assumptions c38_delete.

Theorem c38_new_entity : forall s h t, reached s -> handle s h t -> t <> -1 ->
  exists s' e, HandNewEntity h s = Some s' /\ ~ alive s e /\ attached s' h = Some e /\ of_type s' e t /\
    (forall m, stores s' m e <-> parent s h = Some m).
Proof. exact new_entity_effect. Qed.
Print Assumptions c38_new_entity.

Theorem c38_new_handle : forall s t p c, reached s -> sane s (HNew t p c) ->
  exists s' h, HandNew t p c s = Some s' /\ hnd s h = None /\ handle s' h t /\ parent s' h = p /\
    (c = false -> attached s' h = None) /\ (c = true -> exists e, ~ alive s e /\ attached s' h = Some e /\ of_type s' e t).
Proof. exact new_handle_effect. Qed.
Print Assumptions c38_new_handle.

Theorem c38_set_parent : forall s h p, reached s -> sane s (HSetParent h p) ->
  exists s', SetParent h p s = Some s' /\ parent s' h = p.
Proof. exact set_parent_effect. Qed.
Print Assumptions c38_set_parent.

Theorem c38_set_parent_via_handle : forall s h d, reached s -> sane s (HSetParentVia h d) ->
  exists s', SetParentVia h d s = Some s' /\ parent s' h = attached s d.
Proof. exact set_parent_via_effect. Qed.
Print Assumptions c38_set_parent_via_handle.

Theorem c38_new_model_handle : forall s, reached s ->
  exists s' d m, ModelHandNew s = Some s' /\ hnd s d = None /\ mhandle s' d /\ ~ alive s m /\ attached s' d = Some m /\ model s' m.
Proof. exact model_handle_effect. Qed.
Print Assumptions c38_new_model_handle.

(* a model's handle 0; handle 1 makes line 1 in the model, handle 2 transform 2; handle 3 is
   made without a model and attached to line 1 as well *)
Definition handles_ex : list op :=
  [DNew; HNew 110 (Some 0%nat) true; HNewVia 124 0 true; HNew 110 None false; HAttach 3 1]%nat.
Example c38_case : reached (after handles_ex) /\
  map (attached (after handles_ex)) [0; 1; 2; 3]%nat = [Some 0; Some 1; Some 2; Some 1]%nat /\
  map (parent (after handles_ex)) [1; 2; 3]%nat = [Some 0; Some 0; None]%nat.
Proof. split; [apply after_reached; vm_compute; reflexivity|]. split; vm_compute; reflexivity. Qed.
(* the model deletes line 1; then its handle is destroyed *)
Example c38_case_delete : reached (after (handles_ex ++ [MDel 0 1]%nat)) /\
  map (attached (after (handles_ex ++ [MDel 0 1]%nat))) [0; 1; 2; 3]%nat = [Some 0; None; Some 2; None]%nat /\
  reached (after (handles_ex ++ [MDel 0 1; DDestroy 0]%nat)) /\
  map (attached (after (handles_ex ++ [MDel 0 1; DDestroy 0]%nat))) [1; 2; 3]%nat = [None; None; None] /\
  map (parent (after (handles_ex ++ [MDel 0 1; DDestroy 0]%nat))) [1; 2; 3]%nat = [None; None; None].
Proof.
  split; [apply after_reached; vm_compute; reflexivity|]. split; [vm_compute; reflexivity|].
  split; [apply after_reached; vm_compute; reflexivity|]. split; vm_compute; reflexivity.
Qed.
(* a handle of a line refuses a transform, and takes another line *)
Example c38_case_attach : sane (after handles_ex) (HAttach 1 2) /\
  option_map fst (Attach 1 2 (after handles_ex)) = Some false /\ option_map fst (Attach 3 1 (after handles_ex)) = Some true.
Proof. split; [apply saneb_ok; vm_compute; reflexivity|]. split; vm_compute; reflexivity. Qed.
(* with the entity no longer stored, its handle may delete it *)
Example c38_case_hdel : reached (after (handles_ex ++ [MUnlink 0 1]%nat)) /\ sane (after (handles_ex ++ [MUnlink 0 1]%nat)) (HDel 1) /\
  attached (after (handles_ex ++ [MUnlink 0 1; HDel 1]%nat)) 3 = None.
Proof.
  split; [apply after_reached; vm_compute; reflexivity|]. split; [apply saneb_ok; vm_compute; reflexivity|]. vm_compute. reflexivity.
Qed.
Example c38_case_more : sane (after handles_ex) (HNew 102 (Some 0%nat) true) /\ sane (after handles_ex) (HSetParent 3 (Some 0%nat)) /\
  sane (after handles_ex) (HSetParentVia 3 0) /\ (handle (after handles_ex) 1 110 /\ (110 <> -1)%Z).
Proof. repeat (split; [apply saneb_ok; vm_compute; reflexivity|]). split; [apply handleb_ok; vm_compute; reflexivity|discriminate]. Qed.

(** *** C68: Flags attached by the caller *)

Theorem c68_attaching_twice : forall o c s s1, AttachValidFlag o c s = Some s1 -> AttachValidFlag o c s1 = Some s1.
Proof. exact attach_twice. Qed.
Print Assumptions c68_attaching_twice.

Theorem c68_destruction_clears_flags : forall o s s1 x, obj s o = Some x -> kill o s = Some s1 ->
  (forall c, In c (o_flags x) -> cell s1 c = Some false) /\ (forall c, ~ In c (o_flags x) -> cell s1 c = cell s c) /\
  obj s1 o = None /\ (forall k, k <> o -> obj s1 k = obj s k).
Proof. exact kill_flags. Qed.
Print Assumptions c68_destruction_clears_flags.

Theorem c68_one_flag_for_two_objects : forall a b c s s1 s2 s3, a <> b ->
  AttachValidFlag a c s = Some s1 -> AttachValidFlag b c s1 = Some s2 -> kill a s2 = Some s3 ->
  cell s3 c = Some false /\ alive s3 b.
Proof. exact shared_flag. Qed.
Print Assumptions c68_one_flag_for_two_objects.

Theorem c68_flag_destroyed_first : forall o c s x, obj s o = Some x -> In c (o_flags x) -> cell s c = None -> kill o s = None.
Proof. exact stale_flag. Qed.
Print Assumptions c68_flag_destroyed_first.

(* two lines and a flag *)
Definition two_lines : st := mkSt [Some false; Some true] [Some (mkObj 110 [1%nat] []); Some (mkObj 110 [] [])] [].
Example c68_case : exists s1 s2 s3, AttachValidFlag 0 0 two_lines = Some s1 /\ AttachValidFlag 1 0 s1 = Some s2 /\ kill 0 s2 = Some s3 /\
  cell s2 0 = Some true /\ cell s3 0 = Some false /\ cell s3 1 = Some false.
Proof. do 3 eexists. repeat split. Qed.
Example c68_case_stale : kill 0 (mkSt [Some true; None] [Some (mkObj 110 [0; 1]%nat [])] []) = None.
Proof. reflexivity. Qed.

(** *** C69: Deleting a stored entity through its handle *)

Theorem c69_deleted_entity_stays_stored : forall s h e m, reached s -> ehandle s h -> attached s h = Some e -> stores s m e ->
  exists s', HandDel h s = Some s' /\ attached s' h = None /\ ~ alive s' e /\ stores s' m e /\
    run (MClear m) s' = None /\ run (DeleteModel m) s' = None /\ (forall d, attached s' d = Some m -> run (DDestroy d) s' = None).
Proof. exact delete_stored. Qed.
Print Assumptions c69_deleted_entity_stays_stored.

Example c69_case : reached (after handles_ex) /\ ehandle (after handles_ex) 1 /\ attached (after handles_ex) 1 = Some 1%nat /\
  stores (after handles_ex) 0 1.
Proof.
  split; [apply after_reached; vm_compute; reflexivity|]. split; [apply ehandleb_ok; vm_compute; reflexivity|]. split; [vm_compute; reflexivity|].
  apply storesb_ok. vm_compute. reflexivity.
Qed.

(** *** C70: Entities made through a model's handle *)

Theorem c70_two_entities : forall s d t m, reached s -> mhandle s d -> attached s d = Some m -> In t api_types ->
  exists s' h e e2, NewAPIEntity d t s = Some (true, s') /\ hnd s h = None /\ handle s' h t /\ attached s' h = Some e /\ parent s' h = Some m /\
    e <> e2 /\ ~ alive s e /\ ~ alive s e2 /\ stores s' m e /\ stores s' m e2 /\ of_type s' e t /\ of_type s' e2 t /\
    (forall k j, handle s' k j -> attached s' k <> Some e2).
Proof. exact api_two. Qed.
Print Assumptions c70_two_entities.

Theorem c70_refused_types : forall s d t m, reached s -> mhandle s d -> attached s d = Some m -> ~ In t api_types ->
  exists s' e, NewAPIEntity d t s = Some (false, s') /\ ~ alive s e /\ ~ alive s' e /\ stores s' m e /\ attached s' d = Some m /\
    run (MClear m) s' = None /\ run (DeleteModel m) s' = None /\ run (DDestroy d) s' = None.
Proof. exact api_refused. Qed.
Print Assumptions c70_refused_types.

Example c70_case : reached (after handles_ex) /\ mhandle (after handles_ex) 0 /\ attached (after handles_ex) 0 = Some 0%nat /\
  In 110 api_types /\ ~ In 406 api_types /\ In 406 handle_types.
Proof.
  split; [apply after_reached; vm_compute; reflexivity|]. split; [apply handleb_ok; vm_compute; reflexivity|]. split; [vm_compute; reflexivity|].
  split; [cbn; tauto|]. split; [cbn; intros H; repeat destruct H as [H|H]; discriminate || exact H|cbn; tauto].
Qed.
