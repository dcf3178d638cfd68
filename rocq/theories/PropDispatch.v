(* Property theorems C76: the same call gives the same result through every kind
   of handle, and requests reach the handler registered for them.

   Specification: a call is what a program writes after the dot, [invoke] makes
   it through whatever implementation the program's handle has. *)
From Coq Require Import String.
From Verif Require Import Base Dispatch DispatchProofs DispatchExample.
Close Scope string_scope.
Local Open Scope list_scope.

Inductive db_call : Type -> Type :=
| Call_list_executed_transactions (starting_id result_limit : option N) : db_call (list value)
| Call_last_transaction_id : db_call (option N)
| Call_compact : db_call unit
| Call_compact_key_value_store : db_call unit
| Call_compact_collection (collection : value) : db_call unit
| Call_apply_transaction (transaction : value) : db_call (list value)
| Call_get (id collection : value) : db_call (option value)
| Call_get_multiple (ids : list value) (collection : value) : db_call (list value)
| Call_list (ids order : value) (limit : option N) (collection : value) : db_call (list value)
| Call_list_headers (ids order : value) (limit : option N) (collection : value) : db_call (list value)
| Call_count (ids collection : value) : db_call N
| Call_query (view : value) (key : option value) (order : value) (limit : option N) (policy : value) : db_call (list value)
| Call_query_with_docs (view : value) (key : option value) (order : value) (limit : option N) (policy : value) : db_call value
| Call_reduce (view : value) (key : option value) (policy : value) : db_call bytes
| Call_reduce_grouped (view : value) (key : option value) (policy : value) : db_call (list value)
| Call_delete_docs (view : value) (key : option value) (policy : value) : db_call N
| Call_execute_key_operation (op : value) : db_call value
| Call_create_subscriber : db_call N
| Call_publish (t : topic) (p : payload) : db_call unit
| Call_publish_to_all (ts : list topic) (p : payload) : db_call unit.

Definition invoke {W D A} (o : db_ops W D) (d : D) (c : db_call A) : M W A :=
  match c with
  | Call_list_executed_transactions s l => list_executed_transactions o d s l
  | Call_last_transaction_id => last_transaction_id o d
  | Call_compact => compact o d
  | Call_compact_key_value_store => compact_key_value_store o d
  | Call_compact_collection c => compact_collection_by_name o d c
  | Call_apply_transaction t => apply_transaction o d t
  | Call_get i c => get_from_collection o d i c
  | Call_get_multiple i c => get_multiple_from_collection o d i c
  | Call_list i s l c => list_from_collection o d i s l c
  | Call_list_headers i s l c => list_headers_from_collection o d i s l c
  | Call_count i c => count_from_collection o d i c
  | Call_query v k s l p => query_by_name o d v k s l p
  | Call_query_with_docs v k s l p => query_by_name_with_docs o d v k s l p
  | Call_reduce v k p => reduce_by_name o d v k p
  | Call_reduce_grouped v k p => reduce_grouped_by_name o d v k p
  | Call_delete_docs v k p => delete_docs_by_name o d v k p
  | Call_execute_key_operation op => execute_key_operation o d op
  | Call_create_subscriber => create_subscriber o d
  | Call_publish t p => publish_bytes o d t p
  | Call_publish_to_all ts p => publish_bytes_to_all o d ts p
  end.
Definition reads_last_id {A} (c : db_call A) : Prop := match c with Call_last_transaction_id => True | _ => False end.
(* PubSub calls run on the caller's thread *)
Definition in_place {A} (c : db_call A) : Prop := match c with Call_create_subscriber | Call_publish _ _ | Call_publish_to_all _ _ => True | _ => False end.
Definition subscribes {A} (c : db_call A) : Prop := match c with Call_create_subscriber => True | _ => False end.

Inductive storage_call : Type -> Type :=
| Call_create_database (n : name) (schema : value) (only_if_needed : bool) : storage_call unit
| Call_delete_database (n : name) : storage_call unit
| Call_list_databases : storage_call (list value)
| Call_list_available_schemas : storage_call (list value)
| Call_create_user (n : name) : storage_call N
| Call_delete_user (u : nameable) : storage_call unit
| Call_set_user_password (u : nameable) (password : value) : storage_call unit
| Call_add_group (u g : nameable) : storage_call unit
| Call_remove_group (u g : nameable) : storage_call unit
| Call_add_role (u r : nameable) : storage_call unit
| Call_remove_role (u r : nameable) : storage_call unit.
Definition manage {W H D A} (o : storage_ops W H D) (h : H) (c : storage_call A) : M W A :=
  match c with
  | Call_create_database n s i => create_database_with_schema o h n s i
  | Call_delete_database n => delete_database o h n
  | Call_list_databases => list_databases o h
  | Call_list_available_schemas => list_available_schemas o h
  | Call_create_user n => create_user o h n
  | Call_delete_user u => delete_user o h u
  | Call_set_user_password u p => set_user_password o h u p
  | Call_add_group u g => add_permission_group_to_user o h u g
  | Call_remove_group u g => remove_permission_group_from_user o h u g
  | Call_add_role u r => add_role_to_user o h u r
  | Call_remove_role u r => remove_role_from_user o h u r
  end.
Definition valid (n : nameable) : Prop := exists v, n = Done v.
(* the users, groups and roles of the call have valid names *)
Definition names_ok {A} (c : storage_call A) : Prop :=
  match c with
  | Call_delete_user u | Call_set_user_password u _ => valid u
  | Call_add_group u g | Call_remove_group u g | Call_add_role u g | Call_remove_role u g => valid u /\ valid g
  | _ => True
  end.
(* the name the server looks at first is refused with [e] *)
Definition bad_name {A} (c : storage_call A) (e : core_error) : Prop :=
  match c with
  | Call_delete_user u | Call_set_user_password u _ => u = Fail e
  | Call_add_group u g | Call_remove_group u g | Call_add_role u g | Call_remove_role u g => u = Fail e \/ valid u /\ g = Fail e
  | _ => False
  end.

Section C76.
  Context {W H D : Type} (L : local W H D).

  (* ---------- async handles ---------- *)
  Theorem C76_async : forall A (c : db_call A) d w w' r, ~ reads_last_id c ->
    invoke (blocking_db L) d c w = (w', r) -> r <> Panic -> invoke (async_db L) d c w = (w', r).
  Proof.
    intros A c d w w' r X E N. destruct c; cbn in *; try tauto; unfold spawn_blocking; rewrite E; destruct r; congruence.
  Qed.
  (* A panic inside the blocking task surfaces as an error, not as a panic of the caller. *)
  Theorem C76_async_panic : forall A (c : db_call A) d w w', ~ reads_last_id c -> ~ in_place c ->
    invoke (blocking_db L) d c w = (w', Panic) -> exists e, invoke (async_db L) d c w = (w', Fail e).
  Proof.
    intros A c d w w' X Y E. destruct c; cbn in *; try tauto; unfold spawn_blocking; rewrite E; eexists; reflexivity.
  Qed.
  Theorem C76_async_storage : forall A (c : storage_call A) h w w' r, names_ok c ->
    manage (l_storage L) h c w = (w', r) -> r <> Panic -> manage (async_storage L) h c w = (w', r).
  Proof.
    intros A c h w w' r V E N.
    destruct c; cbn in *; repeat match goal with X : valid _ /\ valid _ |- _ => destruct X | X : valid ?u |- _ => destruct X as [? ->] end;
      cbn in *; unfold spawn_blocking; rewrite E; destruct r; congruence.
  Qed.
  (* signing in gives a handle for the same session, opening a database the same database or error *)
  Theorem C76_async_handles : forall h w, 
    (forall x w' r, authenticate (l_storage L) h x w = (w', r) -> r <> Panic -> authenticate (async_storage L) h x w = (w', r)) /\
    (forall x w' r, assume_identity (l_storage L) h x w = (w', r) -> r <> Panic -> assume_identity (async_storage L) h x w = (w', r)) /\
    (forall DB n w' r, database (l_storage L) h DB n w = (w', r) -> r <> Panic -> database (async_storage L) h DB n w = (w', r)).
  Proof. intros h w. split; [|split]; intros; cbn; unfold spawn_blocking; rewrite H0; destruct r; congruence. Qed.

  (* a panic while managing the storage or signing in surfaces as an error *)
  Theorem C76_async_storage_panic : forall h w,
    (forall A (c : storage_call A) w', names_ok c -> manage (l_storage L) h c w = (w', Panic) -> exists e, manage (async_storage L) h c w = (w', Fail e)) /\
    (forall x w', authenticate (l_storage L) h x w = (w', Panic) -> exists e, authenticate (async_storage L) h x w = (w', Fail e)) /\
    (forall x w', assume_identity (l_storage L) h x w = (w', Panic) -> exists e, assume_identity (async_storage L) h x w = (w', Fail e)) /\
    (forall DB n w', database (l_storage L) h DB n w = (w', Panic) -> exists e, database (async_storage L) h DB n w = (w', Fail e)).
  Proof.
    intros h w. split; [|split; [|split]]; [|intros; cbn; unfold spawn_blocking; rewrite H0; eexists; reflexivity ..].
    intros A c w' V E.
    destruct c; cbn in *; repeat match goal with X : valid _ /\ valid _ |- _ => destruct X | X : valid ?u |- _ => destruct X as [? ->] end;
      cbn in *; unfold spawn_blocking; rewrite E; eexists; reflexivity.
  Qed.

  (* ---------- handles inside a server ---------- *)
  Theorem C76_server : forall A (c : db_call A) d w w' r, ~ reads_last_id c ->
    invoke (blocking_db L) d c w = (w', r) -> r <> Panic -> invoke (server_db L) d c w = (w', r).
  Proof. intros A c d w w' r X E N. rewrite <- (C76_async A c d w w' r X E N). destruct c; reflexivity. Qed.
  Theorem C76_server_storage : forall aschema aname A (c : storage_call A) h w w' r, names_ok c ->
    manage (l_storage L) h c w = (w', r) -> r <> Panic -> manage (server_storage aschema aname L) h c w = (w', r).
  Proof. intros aschema aname A c h w w' r V E N. rewrite <- (C76_async_storage A c h w w' r V E N). destruct c; reflexivity. Qed.

  (* signing in and opening databases inside a server *)
  Theorem C76_server_handles : forall aschema aname h w,
    (forall x w' r, authenticate (l_storage L) h x w = (w', r) -> r <> Panic -> authenticate (server_storage aschema aname L) h x w = (w', r)) /\
    (forall x w' r, assume_identity (l_storage L) h x w = (w', r) -> r <> Panic -> assume_identity (server_storage aschema aname L) h x w = (w', r)) /\
    (forall DB n w' r, database (l_storage L) h DB n w = (w', r) -> r <> Panic -> database (server_storage aschema aname L) h DB n w = (w', r)) /\
    (forall w' r, database (l_storage L) h aschema aname w = (w', r) -> r <> Panic -> admin (server_storage aschema aname L) h w = (w', match r with Done d => Done d | _ => Panic end)).
  Proof.
    intros aschema aname h w. destruct (C76_async_handles h w) as (A & B & C0).
    split; [exact A|]. split; [exact B|]. split; [exact C0|]. intros w' r E N. cbn -[async_storage]. rewrite (C0 _ _ _ _ E N). reflexivity.
  Qed.

  (* ---------- the last transaction id ---------- *)
  (* The blocking call is guarded; through every other handle there is no check. *)
  Theorem C76_last_id_blocking : forall d w, invoke (blocking_db L) d Call_last_transaction_id w =
    (w, if may L d w then Done (cur L d w) else Fail CorePermissionDenied).
  Proof. intros d w. cbn. unfold blocking_last_transaction_id. destruct (may L d w); reflexivity. Qed.
  Theorem C76_last_id_async_refuted : forall d w,
    invoke (async_db L) d Call_last_transaction_id w = (w, Done (cur L d w)) /\
    invoke (server_db L) d Call_last_transaction_id w = (w, Done (cur L d w)).
  Proof. intros d w. split; reflexivity. Qed.

  (* ---------- over the network ---------- *)
  Context (C : codec) (CL : lawful C) (K : connection (W := W) (H := H)) (assume : option N -> W -> outcome H core_error).
  Context (session_id : value -> option N) (schematic : value -> outcome value core_error) (admin_schema : value) (admin_name : name).
  Context (password_hashing : bool) (custom : list (apiname * any_handler (W := W) (H := H))).
  (* the registry of a server opened with any custom APIs *)
  Let R := open_registry L C K password_hashing custom.
  Let net_db := remote_db C assume R.
  Let net := remote_storage C assume R session_id schematic admin_schema admin_name.

  Lemma remote_invoke : forall A (c : db_call A) sid s n x h w, ~ subscribes c -> assume sid w = Done h ->
    invoke net_db (mk_remote (mk_client sid s) n x) c w =
    let '(w1, o) := on_database L h n (fun d => invoke (async_db L) d c) w in
    (w1, match o with Done x => Done x | Fail (HApi e) => Fail e | Fail (HServer e) => Fail (server_to_core e) | Panic => Fail RequestTimeout end).
  Proof.
    intros A c sid s n x h w X Y.
    destruct c; cbn [invoke] in *; try (exfalso; exact (X I)); unfold net_db, remote_db; cbn [list_executed_transactions last_transaction_id compact
      compact_key_value_store compact_collection_by_name apply_transaction get_from_collection get_multiple_from_collection list_from_collection
      list_headers_from_collection count_from_collection query_by_name query_by_name_with_docs reduce_by_name reduce_grouped_by_name
      delete_docs_by_name execute_key_operation create_subscriber publish_bytes publish_bytes_to_all r_client r_name c_id];
      (rewrite (send_builtin L C K assume password_hashing custom sid h) by (assumption || (destruct password_hashing; cbn; tauto))); reflexivity.
  Qed.

  (* A call through a client has the effect and the answer the blocking call has on
     the server, made with the client's session. *)
  Theorem C76_remote : forall A (c : db_call A) sid s n x h d w w1 w2 r, ~ reads_last_id c -> ~ subscribes c ->
    assume sid w = Done h -> l_without_schema L h n w = (w1, Done d) ->
    invoke (blocking_db L) d c w1 = (w2, r) -> r <> Panic ->
    invoke net_db (mk_remote (mk_client sid s) n x) c w = (w2, r).
  Proof.
    intros A c sid s n x h d w w1 w2 r X Y As O E N. rewrite (remote_invoke A c sid s n x h w Y As).
    unfold on_database, bind, map_err, async_without_schema. rewrite O, (C76_async A c d w1 w2 r X E N). destruct r; try congruence; reflexivity.
  Qed.
  (* The database does not exist, or cannot be opened: that error arrives *)
  Theorem C76_remote_no_database : forall A (c : db_call A) sid s n x h e w w1, ~ subscribes c ->
    assume sid w = Done h -> l_without_schema L h n w = (w1, Fail (LCore e)) ->
    invoke net_db (mk_remote (mk_client sid s) n x) c w = (w1, Fail e).
  Proof.
    intros A c sid s n x h e w w1 Y As O. rewrite (remote_invoke A c sid s n x h w Y As).
    unfold on_database, bind, map_err, async_without_schema. rewrite O. reflexivity.
  Qed.
  (* The session is not accepted (logged out, expired): every call fails with that error and does nothing *)
  Theorem C76_remote_no_session : forall A (c : db_call A) sid s n x e w, assume sid w = Fail e ->
    invoke net_db (mk_remote (mk_client sid s) n x) c w = (w, Fail e).
  Proof.
    intros A c sid s n x e w As.
    destruct c; cbn; unfold send, send_api_request, send_request, dispatch, map_err; rewrite As; reflexivity.
  Qed.
  (* A client never panics, whatever happens on the server *)
  Theorem C76_remote_no_panic : forall A (c : db_call A) d w, snd (invoke net_db d c w) <> Panic.
  Proof.
    assert (S : forall sid a r w, snd (send C assume R sid a r w) <> Panic).
    { intros sid a r w. unfold send, map_err, send_api_request, send_request. destruct (dispatch assume R sid (api_name a) (enc_req C a r) w) as [w1 [b|e|]]; cbn; try discriminate.
      destruct (dec_resp C a b) as [[?|?]|]; discriminate. }
    intros A c d w. destruct c; cbn [invoke]; unfold net_db, remote_db;
      cbn [list_executed_transactions last_transaction_id compact
      compact_key_value_store compact_collection_by_name apply_transaction get_from_collection get_multiple_from_collection list_from_collection
      list_headers_from_collection count_from_collection query_by_name query_by_name_with_docs reduce_by_name reduce_grouped_by_name
      delete_docs_by_name execute_key_operation create_subscriber publish_bytes publish_bytes_to_all r_client r_name c_id];
      match goal with |- snd (send _ _ _ ?sid ?a ?r ?w) <> _ => exact (S sid a r w) end.
  Qed.
  Theorem C76_remote_panic : forall A (c : db_call A) sid s n x h d w w1 w2, ~ reads_last_id c -> ~ subscribes c ->
    assume sid w = Done h -> l_without_schema L h n w = (w1, Done d) -> invoke (blocking_db L) d c w1 = (w2, Panic) ->
    exists e, invoke net_db (mk_remote (mk_client sid s) n x) c w = (w2, Fail e).
  Proof.
    intros A c sid s n x h d w w1 w2 X Y As O E. rewrite (remote_invoke A c sid s n x h w Y As).
    unfold on_database, bind, map_err, async_without_schema. rewrite O.
    destruct c; cbn in *; try tauto; unfold spawn_blocking; rewrite E; eexists; reflexivity.
  Qed.
  (* The last transaction id is answered to every client, permitted or not *)
  Theorem C76_last_id_remote_refuted : forall sid s n x h d w w1, assume sid w = Done h -> l_without_schema L h n w = (w1, Done d) ->
    invoke net_db (mk_remote (mk_client sid s) n x) Call_last_transaction_id w = (w1, Done (cur L d w1)).
  Proof.
    intros sid s n x h d w w1 As O. rewrite (remote_invoke _ Call_last_transaction_id sid s n x h w (fun F => F) As).
    unfold on_database, bind, map_err, async_without_schema. rewrite O. reflexivity.
  Qed.
  (* A subscriber is created as locally and then belongs to the connection *)
  Theorem C76_remote_subscriber : forall sid s n x h d w w1 w2 r, assume sid w = Done h -> l_without_schema L h n w = (w1, Done d) ->
    create_subscriber (blocking_db L) d w1 = (w2, r) -> r <> Panic ->
    create_subscriber net_db (mk_remote (mk_client sid s) n x) w =
      (match r with Done id => register_subscriber K h id w2 | _ => w2 end, r).
  Proof.
    intros sid s n x h d w w1 w2 r As O E N. unfold net_db, remote_db. cbn [create_subscriber c_id r_client r_name].
    rewrite (send_builtin L C K assume password_hashing custom sid h) by (assumption || (destruct password_hashing; cbn; tauto)).
    cbn [handle]. unfold effect, on_database, bind, map_err, async_without_schema. rewrite O. cbn. cbn in E. rewrite E. destruct r; try congruence; reflexivity.
  Qed.

  (* storage calls *)
  Definition needs_passwords {A} (c : storage_call A) : Prop := match c with Call_set_user_password _ _ => True | _ => False end.
  Theorem C76_remote_storage : forall A (c : storage_call A) sid s h w w' r, names_ok c -> (needs_passwords c -> password_hashing = true) ->
    assume sid w = Done h -> manage (l_storage L) h c w = (w', r) -> r <> Panic ->
    manage net (mk_client sid s) c w = (w', r).
  Proof.
    intros A c sid s h w w' r V P As E N.
    assert (X := C76_async_storage A c h w w' r V E N). clear E.
    destruct c; cbn [needs_passwords names_ok manage] in *;
      repeat match goal with Q : valid _ /\ valid _ |- _ => destruct Q | Q : valid ?u |- _ => destruct Q as [? ->] end;
      try specialize (P I);
      unfold net, remote_storage; cbn [create_database_with_schema delete_database list_databases list_available_schemas create_user
        delete_user set_user_password add_permission_group_to_user remove_permission_group_from_user add_role_to_user remove_role_from_user c_id named];
      (rewrite (send_builtin L C K assume password_hashing custom sid h) by (assumption || (first [rewrite P; cbn; tauto | destruct password_hashing; cbn; tauto])));
      cbn [handle req resp]; unfold map_err; rewrite X; destruct r; try congruence; reflexivity.
  Qed.
  (* an invalid name is refused before anything is sent *)
  Theorem C76_bad_name : forall A (c : storage_call A) cl h e w, bad_name c e ->
    manage net cl c w = (w, Fail e) /\ manage (async_storage L) h c w = (w, Fail e).
  Proof.
    intros A c cl h e w B. destruct c; cbn in B; try contradiction; subst; try (split; reflexivity);
      destruct B as [->|[[v ->] ->]]; split; reflexivity.
  Qed.
  Theorem C76_remote_storage_no_session : forall A (c : storage_call A) sid s e w, names_ok c -> assume sid w = Fail e ->
    manage net (mk_client sid s) c w = (w, Fail e).
  Proof.
    intros A c sid s e w V As.
    destruct c; cbn in V; repeat match goal with Q : valid _ /\ valid _ |- _ => destruct Q | Q : valid ?u |- _ => destruct Q as [? ->] end;
      cbn; unfold send, send_api_request, send_request, dispatch, map_err; rewrite As; reflexivity.
  Qed.
  (* Signing in through a client: the same outcome; on success the connection is
     signed in as well and the client holds that session *)
  Theorem C76_remote_authenticate : forall sid s h x w w' r, password_hashing = true ->
    assume sid w = Done h -> authenticate (l_storage L) h x w = (w', r) -> r <> Panic ->
    authenticate net (mk_client sid s) x w =
      match r with
      | Done h' => (logged_in_as K (session L h') w', Done (mk_client (session_id (session L h')) (session L h')))
      | Fail e => (w', Fail e)
      | Panic => (w', Panic)
      end.
  Proof.
    intros sid s h x w w' r P As E N. unfold net, remote_storage. cbn [authenticate c_id]. unfold map_ok at 1.
    rewrite (send_builtin L C K assume password_hashing custom sid h) by (assumption || (rewrite P; cbn; tauto)).
    cbn [handle]. unfold effect, bind, map_ok, map_err. cbn. unfold spawn_blocking. rewrite E. destruct r; try congruence; reflexivity.
  Qed.
  Theorem C76_remote_assume_identity : forall sid s h x w w' r,
    assume sid w = Done h -> assume_identity (l_storage L) h x w = (w', r) -> r <> Panic ->
    assume_identity net (mk_client sid s) x w =
      match r with
      | Done h' => (logged_in_as K (session L h') w', Done (mk_client (session_id (session L h')) (session L h')))
      | Fail e => (w', Fail e)
      | Panic => (w', Panic)
      end.
  Proof.
    intros sid s h x w w' r As E N. unfold net, remote_storage. cbn [assume_identity c_id]. unfold map_ok at 1.
    rewrite (send_builtin L C K assume password_hashing custom sid h) by (assumption || (destruct password_hashing; cbn; tauto)).
    cbn [handle]. unfold effect, bind, map_ok, map_err. cbn. unfold spawn_blocking. rewrite E. destruct r; try congruence; reflexivity.
  Qed.
  (* Subscriptions and logging out act on the connection the client uses *)
  Definition served {X} (m : comp W X server_error) : M W X := fun w =>
    let '(w1, o) := m w in (w1, match o with Done x => Done x | Fail e => Fail (server_to_core e) | Panic => Fail RequestTimeout end).
  Theorem C76_remote_connection : forall sid s n id t h w, assume sid w = Done h ->
    remote_subscribe C assume R (mk_client sid s) n id t w = served (subscribe_by_id K h id t) w /\
    remote_unsubscribe C assume R (mk_client sid s) n id t w = served (unsubscribe_by_id K h id t) w /\
    remote_unregister C assume R (mk_client sid s) n id w = served (unregister_subscriber_by_id K h id) w /\
    remote_log_out C assume R (mk_client sid s) id w = (log_out K id w, Done tt).
  Proof.
    intros sid s n id t h w As. unfold remote_subscribe, remote_unsubscribe, remote_unregister, remote_log_out. cbn [c_id].
    split; [|split; [|split]];
      (rewrite (send_builtin L C K assume password_hashing custom sid h) by (assumption || (destruct password_hashing; cbn; tauto)));
      cbn [handle req resp]; unfold served, map_err;
      [destruct (subscribe_by_id K h id t w) as [? [?|?|]]|destruct (unsubscribe_by_id K h id t w) as [? [?|?|]]
      |destruct (unregister_subscriber_by_id K h id w) as [? [?|?|]]|]; reflexivity.
  Qed.
  (* database::<DB>(name) on a client asks nobody: the database may not exist, or have another schema *)
  Theorem C76_open_unchecked_refuted : forall cl DB n w x, schematic DB = Done x ->
    database net cl DB n w = (w, Done (mk_remote cl n x)).
  Proof. intros cl DB n w x E. unfold net, remote_storage. cbn. unfold open_remote. rewrite E. reflexivity. Qed.
  (* Without the feature "password-hashing" no client can authenticate at all, not even with a token *)
  Theorem C76_token_refuted : forall sid s h x w, password_hashing = false -> (forall f, ~ In (api_name Authenticate, f) custom) ->
    assume sid w = Done h -> authenticate net (mk_client sid s) x w = (w, Fail (ApiNotFound (api_name Authenticate))).
  Proof.
    intros sid s h x w P F As. unfold net, remote_storage. cbn [authenticate c_id]. unfold map_ok, send, map_err, send_api_request, send_request, dispatch.
    rewrite As. unfold R. rewrite lookup_custom.
    - unfold latest, lookup. destruct (find _ (rev custom)) as [[m f]|] eqn:E; [|reflexivity].
      apply find_some in E as [I E]. cbn in E. apply apiname_eqb_spec in E. subst m. apply in_rev in I. exfalso. exact (F f I).
    - intros a I E. apply api_name_inj in E. subst a. rewrite P in I. cbn in I. repeat (destruct I as [I|I]; [discriminate|]). exact I.
  Qed.

  (* AnyServerConnection and AnyDatabase *)
  Theorem C76_any_local : forall A (c : db_call A) d w w' r, ~ reads_last_id c ->
    invoke (blocking_db L) d c w = (w', r) -> r <> Panic -> invoke (any_db L C assume R) (inl d) c w = (w', r).
  Proof. intros A c d w w' r X E N. rewrite <- (C76_server A c d w w' r X E N). destruct c; reflexivity. Qed.
  Theorem C76_any_remote : forall A (c : db_call A) d w, invoke (any_db L C assume R) (inr d) c w = invoke net_db d c w.
  Proof. intros A c d w. destruct c; reflexivity. Qed.
  Theorem C76_any_storage_local : forall A (c : storage_call A) h w w' r, names_ok c ->
    manage (l_storage L) h c w = (w', r) -> r <> Panic ->
    manage (any_storage L C assume R session_id schematic admin_schema admin_name) (inl h) c w = (w', r).
  Proof. intros A c h w w' r V E N. rewrite <- (C76_server_storage admin_schema admin_name A c h w w' r V E N). destruct c; reflexivity. Qed.
  Theorem C76_any_storage_remote : forall A (c : storage_call A) cl w,
    manage (any_storage L C assume R session_id schematic admin_schema admin_name) (inr cl) c w = manage net cl c w.
  Proof. intros A c cl w. destruct c; reflexivity. Qed.

  (* signing in and opening databases keeps the kind of the handle *)
  Theorem C76_any_handles_local : forall h w, let any := any_storage L C assume R session_id schematic admin_schema admin_name in
    (forall x w' r, authenticate (l_storage L) h x w = (w', r) -> r <> Panic ->
       authenticate any (inl h) x w = (w', match r with Done h' => Done (inl h') | Fail e => Fail e | Panic => Panic end)) /\
    (forall x w' r, assume_identity (l_storage L) h x w = (w', r) -> r <> Panic ->
       assume_identity any (inl h) x w = (w', match r with Done h' => Done (inl h') | Fail e => Fail e | Panic => Panic end)) /\
    (forall DB n w' r, database (l_storage L) h DB n w = (w', r) -> r <> Panic ->
       database any (inl h) DB n w = (w', match r with Done d => Done (inl d) | Fail e => Fail e | Panic => Panic end)).
  Proof.
    intros h w any. destruct (C76_server_handles admin_schema admin_name h w) as (A1 & A2 & A3 & _).
    split; [|split]; intros; cbn -[server_storage]; unfold map_ok; [rewrite (A1 _ _ _ H0 H1)|rewrite (A2 _ _ _ H0 H1)|rewrite (A3 _ _ _ _ H0 H1)]; destruct r; reflexivity.
  Qed.
  Theorem C76_any_handles_remote : forall cl w, let any := any_storage L C assume R session_id schematic admin_schema admin_name in
    (forall x w' r, authenticate net cl x w = (w', r) -> 
       authenticate any (inr cl) x w = (w', match r with Done c => Done (inr c) | Fail e => Fail e | Panic => Panic end)) /\
    (forall x w' r, assume_identity net cl x w = (w', r) -> 
       assume_identity any (inr cl) x w = (w', match r with Done c => Done (inr c) | Fail e => Fail e | Panic => Panic end)) /\
    (forall DB n w' r, database net cl DB n w = (w', r) -> 
       database any (inr cl) DB n w = (w', match r with Done d => Done (inr d) | Fail e => Fail e | Panic => Panic end)).
  Proof.
    intros cl w any. split; [|split]; intros; subst any; unfold net in H0; cbn -[remote_storage] in *; unfold map_ok; rewrite H0; destruct r; reflexivity.
  Qed.

  (* ---------- the registry ---------- *)
  Theorem C76_names_distinct : forall a b, api_name a = api_name b -> a = b.
  Proof. exact api_name_inj. Qed.
  (* A custom API, even one with the name of a built-in one, does not keep a request from its built-in handler *)
  Theorem C76_builtin_wins : forall a, In a (builtins password_hashing) -> lookup R (api_name a) = Some (builtin L C K a).
  Proof. intros a. apply lookup_builtin. Qed.
  Theorem C76_every_builtin : forall a, In a (builtins password_hashing) \/ password_hashing = false /\ (a = Authenticate \/ a = SetUserPassword).
  Proof. intros a. destruct password_hashing, a; cbn; tauto. Qed.
  (* the custom handler registered last for a name gets its requests *)
  Theorem C76_last_registration_wins : forall before f after n, custom = before ++ (n, f) :: after ->
    (forall g, ~ In (n, g) after) -> (forall a, In a (builtins password_hashing) -> api_name a <> n) -> lookup R n = Some f.
  Proof.
    intros before f after n E F N. unfold R. rewrite lookup_custom by exact N. subst custom. unfold latest, lookup.
    rewrite rev_app_distr. cbn. rewrite <- app_assoc.
    destruct (find (fun e => apiname_eqb (fst e) n) (rev after ++ [(n, f)] ++ rev before)) as [[m g]|] eqn:X.
    - assert (Y : forall l, (forall g, ~ In (n, g) l) -> find (fun e : apiname * any_handler (W := W) (H := H) => apiname_eqb (fst e) n) (l ++ [(n, f)] ++ rev before) = Some (n, f)).
      { induction l as [|[k q] l IH]; intros Z; cbn; [rewrite apiname_eqb_refl; reflexivity|].
        destruct (apiname_eqb k n) eqn:Q; [apply apiname_eqb_spec in Q; subst k; exfalso; exact (Z q (or_introl eq_refl))|].
        apply IH. intros g' I. exact (Z g' (or_intror I)). }
      rewrite Y in X by (intros g' I; apply in_rev in I; exact (F g' I)). injection X as -> ->. reflexivity.
    - exfalso. assert (Y := List.find_none _ _ X (n, f)). cbn in Y. rewrite apiname_eqb_refl in Y.
      discriminate Y. apply in_or_app. right. left. reflexivity.
  Qed.
  Theorem C76_unknown_api : forall sid h n request w, (forall a, api_name a <> n) -> (forall f, ~ In (n, f) custom) ->
    assume sid w = Done h -> dispatch assume R sid n request w = (w, Fail (ApiNotFound n)).
  Proof.
    intros sid h n request w B F As. unfold dispatch. rewrite As. unfold R. rewrite lookup_custom by (intros a _; apply B).
    unfold latest, lookup. destruct (find _ (rev custom)) as [[m f]|] eqn:E; [|reflexivity].
    apply find_some in E as [I E]. cbn in E. apply apiname_eqb_spec in E. subst m. apply in_rev in I. exfalso. exact (F f I).
  Qed.
  (* bytes that are not a request of the API are refused and nothing happens *)
  Theorem C76_undecodable : forall sid h a request w, In a (builtins password_hashing) -> dec_req C a request = None -> assume sid w = Done h ->
    dispatch assume R sid (api_name a) request w = (w, Fail Serialization).
  Proof.
    intros sid h a request w I X As. unfold dispatch. rewrite As. unfold R. rewrite (lookup_builtin L C K _ _ _ I). unfold builtin, any_wrapper, map_err.
    rewrite X. reflexivity.
  Qed.
  (* A custom API: its handler gets the request that was sent, and its response or
     its own error arrives unchanged; other errors of the server arrive as core errors *)
  Theorem C76_custom_api : forall A X E n (encq : A -> bytes) decq (encr : X + E -> bytes) decr (f : H -> A -> comp W X (handler_error E)) before after sid h q w,
    (forall q, decq (encq q) = Some q) -> (forall r, decr (encr r) = Some r) ->
    custom = before ++ (n, any_wrapper decq encr f) :: after -> (forall g, ~ In (n, g) after) -> (forall a, api_name a <> n) ->
    assume sid w = Done h ->
    send_api_request assume R n encq decr sid q w =
      let '(w1, o) := f h q w in
      (w1, match o with
           | Done x => Done x
           | Fail (HApi e) => Fail (EApi e)
           | Fail (HServer e) => Fail (EClient (CCore (server_to_core e)))
           | Panic => Fail (EClient (CCore RequestTimeout))
           end).
  Proof.
    intros A X E n encq decq encr decr f before after sid h q w Q1 Q2 Cu F B As.
    unfold send_api_request, send_request, dispatch. rewrite As.
    rewrite (C76_last_registration_wins before _ after n Cu F) by (intros a _; apply B). unfold map_err, any_wrapper. rewrite Q1.
    destruct (f h q w) as [w1 [x|[e|e]|]]; cbn; rewrite ?Q2; reflexivity.
  Qed.
End C76.

(* ---------- a concrete case: a server with database [1] and a custom API that tries to take the name of Get ---------- *)
Definition ex_remote (sid : option N) (n : name) : remote_database := mk_remote (mk_client sid 0%N) n 7%N.
Example C76_ex : lawful ex_codec /\ ex_assume (Some 42%N) [] = Done 42%N /\ l_without_schema ex_local 42%N [1%N] [] = ([], Done 1%N) /\
  invoke (blocking_db ex_local) 1%N (Call_get 5%N 2%N) [] = ([4%N], Done (Some 502%N)) /\
  invoke (ex_net_db true) (ex_remote (Some 42%N) [1%N]) (Call_get 5%N 2%N) [] = ([4%N], Done (Some 502%N)) /\
  (* an error, a panic, an unknown database and a session that is gone *)
  invoke (ex_net_db true) (ex_remote (Some 42%N) [1%N]) (Call_get 9%N 2%N) [] = ([], Fail (CoreError 9)) /\
  invoke (ex_net_db true) (ex_remote (Some 42%N) [1%N]) (Call_get 13%N 2%N) [] = ([], Fail (Other "bonsaidb-local" 0)) /\
  invoke (ex_net_db true) (ex_remote (Some 42%N) [2%N]) (Call_get 5%N 2%N) [] = ([], Fail (CoreError 2)) /\
  invoke (ex_net_db true) (ex_remote (Some 43%N) [1%N]) (Call_get 5%N 2%N) [] = ([], Fail (CoreError 6)).
Proof. split; [exact ex_lawful|]. vm_compute. repeat split. Qed.
Example C76_ex_async : invoke (async_db ex_local) 1%N (Call_query 4%N None 5%N (Some 3%N) 6%N) [] = ([9%N], Done [4%N; 5%N; 6%N]) /\
  invoke (blocking_db ex_local) 1%N (Call_get 13%N 2%N) [] = ([], Panic) /\
  invoke (async_db ex_local) 1%N (Call_get 13%N 2%N) [] = ([], Fail (Other "bonsaidb-local" 0)) /\
  manage (async_storage ex_local) 42%N (Call_create_user [3%N]) [] = ([24%N], Done 5%N) /\
  authenticate (async_storage ex_local) 0%N 3%N [] = ([27%N], Done 42%N).
Proof. vm_compute. repeat split. Qed.
Example C76_ex_last_id : invoke (blocking_db ex_local) 1%N Call_last_transaction_id [8%N] = ([8%N], Fail CorePermissionDenied) /\
  invoke (async_db ex_local) 1%N Call_last_transaction_id [8%N] = ([8%N], Done (Some 1%N)) /\
  invoke (ex_net_db true) (ex_remote None [1%N]) Call_last_transaction_id [8%N] = ([8%N], Done (Some 1%N)).
Proof. vm_compute. repeat split. Qed.
Example C76_ex_storage : names_ok (Call_add_role (Done 1%N) (Done 2%N)) /\
  manage (ex_net true) (mk_client (Some 42%N) 0%N) (Call_add_role (Done 1%N) (Done 2%N)) [] = ([31%N], Done tt) /\
  manage (ex_net true) (mk_client (Some 42%N) 0%N) (Call_remove_role (Done 1%N) (Fail (CoreError 1))) [] = ([], Fail (CoreError 1)) /\
  manage (ex_net true) (mk_client None 0%N) (Call_create_user [3%N]) [] = ([], Fail CorePermissionDenied) /\
  manage (ex_net true) (mk_client (Some 42%N) 0%N) (Call_set_user_password (Done 1%N) 2%N) [] = ([26%N], Done tt) /\
  create_subscriber (ex_net_db true) (ex_remote None [1%N]) [] = ([15%N; 3077%N], Done 77%N) /\
  authenticate (ex_net true) (mk_client None 0%N) 3%N [] = ([27%N; 1042%N], Done (mk_client (Some 42%N) 42%N)) /\
  authenticate (ex_net false) (mk_client None 0%N) 3%N [] = ([], Fail (ApiNotFound (api_name Authenticate))) /\
  database (ex_net true) (mk_client None 0%N) 5%N [9%N] [] = ([], Done (mk_remote (mk_client None 0%N) [9%N] 5%N)) /\
  database ex_storage 0%N 5%N [9%N] [] = ([], Fail (CoreError 2)).
Proof. split; [split; eexists; reflexivity|]. vm_compute. repeat split. Qed.
Example C76_ex_custom :
  send_api_request ex_assume (ex_R true) ("acme"%string, "ping"%string) (enc ser_bytes) (fun b => option_map fst (dec (ser_sum ser_bytes ser_N) b)) None [1%N; 2%N] [] = ([], Done [2%N; 1%N]) /\
  send_api_request ex_assume (ex_R true) ("acme"%string, "ping"%string) (enc ser_bytes) (fun b => option_map fst (dec (ser_sum ser_bytes ser_N) b)) None [] [] = ([], Fail (EApi 8%N)) /\
  dispatch ex_assume (ex_R true) None ("acme"%string, "pong"%string) [] [] = ([], Fail (ApiNotFound ("acme"%string, "pong"%string))) /\
  dispatch ex_assume (ex_R true) None (api_name Get) [5%N] [] = ([], Fail Serialization).
Proof. vm_compute. repeat split. Qed.

(* an error of the core crate comes out of every layer as it is; any other is named after the
   crate it is of, or "io" *)
Theorem C76_errors :
  (forall c, local_to_core (LCore c) = c /\ local_to_core (LView c) = c /\ server_to_core (SCore c) = c /\
    server_to_core (SDatabase (LCore c)) = c /\ server_to_core (SDatabase (LView c)) = c /\
    client_to_core (CCore c) = c /\ api_to_core (EApi c) = c /\ api_to_core (EClient (CCore c)) = c) /\
  (forall e, (forall c, e <> LCore c) -> (forall c, e <> LView c) -> exists n, local_to_core e = Other "bonsaidb-local"%string n /\ server_to_core (SDatabase e) = Other "bonsaidb-local"%string n) /\
  (forall n, server_to_core (SIo n) = Other "io"%string n /\ server_to_core (SWebSocket n) = Other "bonsaidb-server websockets"%string n /\
    server_to_core (SOther n) = Other "bonsaidb-server"%string n /\ client_to_core (COther n) = Other "bonsaidb-client"%string n /\
    api_to_core (EClient (COther n)) = Other "bonsaidb-client"%string n).
Proof.
  split; [repeat split; reflexivity|]. split; [|repeat split; reflexivity].
  intros [c|c| |n] A B; [destruct (A c eq_refl)|destruct (B c eq_refl)|exists 0%N|exists n]; split; reflexivity.
Qed.

Print Assumptions C76_async.
Print Assumptions C76_async_panic.
Print Assumptions C76_async_storage.
Print Assumptions C76_async_handles.
Print Assumptions C76_server.
Print Assumptions C76_server_storage.
Print Assumptions C76_last_id_blocking.
Print Assumptions C76_last_id_async_refuted.
Print Assumptions C76_remote.
Print Assumptions C76_remote_no_database.
Print Assumptions C76_remote_no_session.
Print Assumptions C76_remote_no_panic.
Print Assumptions C76_remote_panic.
Print Assumptions C76_last_id_remote_refuted.
Print Assumptions C76_remote_subscriber.
Print Assumptions C76_remote_storage.
Print Assumptions C76_bad_name.
Print Assumptions C76_remote_storage_no_session.
Print Assumptions C76_remote_authenticate.
Print Assumptions C76_remote_assume_identity.
Print Assumptions C76_remote_connection.
Print Assumptions C76_open_unchecked_refuted.
Print Assumptions C76_token_refuted.
Print Assumptions C76_any_local.
Print Assumptions C76_any_remote.
Print Assumptions C76_any_storage_local.
Print Assumptions C76_any_storage_remote.
Print Assumptions C76_names_distinct.
Print Assumptions C76_builtin_wins.
Print Assumptions C76_every_builtin.
Print Assumptions C76_last_registration_wins.
Print Assumptions C76_unknown_api.
Print Assumptions C76_undecodable.
Print Assumptions C76_custom_api.
Print Assumptions C76_async_storage_panic.
Print Assumptions C76_server_handles.
Print Assumptions C76_any_handles_local.
Print Assumptions C76_any_handles_remote.
Print Assumptions C76_errors.
