(* C78: every call of a local handle needs exactly the permission documented for
   it in crates/bonsaidb-core/src/permissions/bonsai.rs. *)
From Verif Require Import Base Utf8 Key KeyProofs Names Access.
From Coq Require Import Lia.
Local Open Scope N_scope.

(* ---------- the calls ---------- *)
Inductive db_call : Type -> Type :=
| Call_list_executed (start limit : option N) : db_call (list N)
| Call_last_id : db_call (option N)
| Call_compact : db_call unit
| Call_compact_kv : db_call unit
| Call_compact_collection (c : qname) : db_call unit
| Call_transaction (ops : list operation) : db_call (list N)
| Call_get (id : bytes) (c : qname) : db_call (option N)
| Call_list (ids : N) (descending : bool) (limit : option N) (c : qname) : db_call (list N)
| Call_list_headers (ids : N) (descending : bool) (limit : option N) (c : qname) : db_call (list N)
| Call_count (ids : N) (c : qname) : db_call N
| Call_get_multiple (ids : list bytes) (c : qname) : db_call (list (bytes * N))
| Call_query (v : vname) (q : query) : db_call (list (mapping * N))
| Call_reduce (v : vname) (key : option N) (policy : N) : db_call N
| Call_reduce_grouped (v : vname) (key : option N) (policy : N) : db_call (list (N * N))
| Call_kv (ns : option bytes) (key : bytes) (op : N) : db_call N
| Call_create_subscriber : db_call N
| Call_publish (topic : bytes) (payload : N) : db_call unit
| Call_publish_to_all (topics : list bytes) (payload : N) : db_call unit
| Call_subscribe (subscriber : N) (topic : bytes) : db_call unit
| Call_unsubscribe (subscriber : N) (topic : bytes) : db_call unit.
Definition invoke {W A} (R : raw_db W) (s : session) (db : bytes) (c : db_call A) : comp W A :=
  match c with
  | Call_list_executed a b => list_executed_transactions R s db a b
  | Call_last_id => last_transaction_id R s db
  | Call_compact => compact R s db
  | Call_compact_kv => compact_key_value_store R s db
  | Call_compact_collection c => compact_collection R s db c
  | Call_transaction ops => apply_transaction R s db ops
  | Call_get id c => get R s db id c
  | Call_list ids d l c => list_docs R s db ids d l c
  | Call_list_headers ids d l c => list_headers R s db ids d l c
  | Call_count ids c => count R s db ids c
  | Call_get_multiple ids c => get_multiple R s db ids c
  | Call_query v q => query_view R s db v q
  | Call_reduce v k p => reduce R s db v k p
  | Call_reduce_grouped v k p => reduce_grouped R s db v k p
  | Call_kv ns k op => execute_key_operation R s db ns k op
  | Call_create_subscriber => create_subscriber R s db
  | Call_publish t x => publish R s db t x
  | Call_publish_to_all ts x => publish_to_all R s db ts x
  | Call_subscribe i t => subscribe_to R s db i t
  | Call_unsubscribe i t => unsubscribe_from R s db i t
  end.
Inductive st_call : Type -> Type :=
| Call_create_database (name : bytes) (schema : N) (only_if_needed : bool) : st_call unit
| Call_delete_database (name : bytes) : st_call unit
| Call_list_databases : st_call (list N)
| Call_list_schemas : st_call (list N)
| Call_create_user (name : bytes) : st_call N
| Call_delete_user (u : nameable) : st_call unit
| Call_set_password (u : nameable) (password : N) : st_call unit
| Call_authenticate (a : authentication) : st_call N
| Call_assume_identity (i : identity) : st_call N
| Call_add_group (u g : nameable) : st_call unit
| Call_remove_group (u g : nameable) : st_call unit
| Call_add_role (u r : nameable) : st_call unit
| Call_remove_role (u r : nameable) : st_call unit.
Definition manage {W A} (R : raw_storage W) (s : session) (c : st_call A) : comp W A :=
  match c with
  | Call_create_database n x o => create_database R s n x o
  | Call_delete_database n => delete_database R s n
  | Call_list_databases => list_databases R s
  | Call_list_schemas => list_available_schemas R s
  | Call_create_user n => create_user R s n
  | Call_delete_user u => delete_user R s u
  | Call_set_password u p => set_user_password R s u p
  | Call_authenticate a => authenticate R s a
  | Call_assume_identity i => assume_identity R s i
  | Call_add_group u g => add_permission_group_to_user R s u g
  | Call_remove_group u g => remove_permission_group_from_user R s u g
  | Call_add_role u r => add_role_to_user R s u r
  | Call_remove_role u r => remove_role_from_user R s u r
  end.

(* ---------- the documentation of the actions, bonsai.rs:107-290 ---------- *)
(* [needs R db c r a]: call [c] on database [db] is documented to need action [a] on resource [r] *)
Definition needs {W A} (R : raw_db W) (db : bytes) (c : db_call A) (r : resource) (a : action) : Prop :=
  match c with
  | Call_list_executed _ _ => r = database_resource db /\ a = TransactionListExecuted
  | Call_last_id => r = database_resource db /\ a = TransactionGetLastId
  | Call_compact => r = database_resource db /\ a = Compact
  | Call_compact_kv => r = kv_resource db /\ a = Compact
  | Call_compact_collection c => r = collection_resource db c /\ a = Compact
  | Call_transaction ops => exists c,
      (exists id x, In (mk_op c (Insert id x)) ops /\ r = collection_resource db c /\ a = DocumentInsert) \/
      (exists id rev x, In (mk_op c (Update id rev x)) ops /\ r = document_resource db c id /\ a = DocumentUpdate) \/
      (exists id x, In (mk_op c (Overwrite id x)) ops /\ r = document_resource db c id /\ a = DocumentOverwrite) \/
      (exists id rev, In (mk_op c (Delete id rev)) ops /\ r = document_resource db c id /\ a = DocumentDelete) \/
      (exists id rev, In (mk_op c (Check id rev)) ops /\ r = document_resource db c id /\ a = DocumentGet)
  | Call_get id c => r = document_resource db c id /\ a = DocumentGet
  | Call_list _ _ _ c => r = collection_resource db c /\ a = DocumentList
  | Call_list_headers _ _ _ c => r = collection_resource db c /\ a = DocumentListHeaders
  | Call_count _ c => r = collection_resource db c /\ a = DocumentCount
  | Call_get_multiple ids c => exists id, In id ids /\ r = document_resource db c id /\ a = DocumentGet
  | Call_query v _ => views R v <> None /\ r = view_resource db v /\ a = ViewQuery
  | Call_reduce v _ _ | Call_reduce_grouped v _ _ => views R v <> None /\ r = view_resource db v /\ a = ViewReduce
  | Call_kv ns k _ => r = keyvalue_key_resource db ns k /\ a = KeyValueExecuteOperation
  | Call_create_subscriber => r = database_resource db /\ a = PubSubCreateSuscriber
  | Call_publish t _ => r = pubsub_resource db t /\ a = PubSubPublish
  | Call_publish_to_all ts _ => exists t, In t ts /\ r = pubsub_resource db t /\ a = PubSubPublish
  | Call_subscribe _ t => r = pubsub_resource db t /\ a = PubSubSubscribeTo
  | Call_unsubscribe _ t => r = pubsub_resource db t /\ a = PubSubUnsubscribeFrom
  end.
(* [needs_st R c w r a]: in state [w] the call [c] acts on [r] *)
Definition needs_st {W A} (R : raw_storage W) (c : st_call A) (w : W) (r : resource) (a : action) : Prop :=
  match c with
  | Call_create_database n _ _ => r = database_resource n /\ a = CreateDatabase
  | Call_delete_database n => r = database_resource n /\ a = DeleteDatabase
  | Call_list_databases => r = bonsaidb_resource /\ a = ListDatabases
  | Call_list_schemas => r = bonsaidb_resource /\ a = ListAvailableSchemas
  | Call_create_user _ => r = bonsaidb_resource /\ a = CreateUser
  | Call_delete_user u => exists n id, u = Done n /\ user_id R n w = Done (Some id) /\ r = user_resource id /\ a = DeleteUser
  | Call_set_password u _ => exists n id, u = Done n /\ user_id R n w = Done (Some id) /\ r = user_resource id /\ a = SetPassword
  | Call_authenticate (Token id) => r = token_resource id /\ a = AuthenticateToken
  | Call_authenticate (Password u _) => exists id, load_user R u w = Done (Some id) /\ r = user_resource id /\ a = AuthenticatePasswordHash
  | Call_authenticate (TokenChallengeResponse _) => False
  | Call_assume_identity (IdUser u) => exists id, load_user R u w = Done (Some id) /\ r = user_resource id /\ a = AssumeIdentity
  | Call_assume_identity (IdRole u) => exists id, load_role R u w = Done (Some id) /\ r = role_resource id /\ a = AssumeIdentity
  | Call_assume_identity IdOther => False
  | Call_add_group u g | Call_remove_group u g => exists n m id i, u = Done n /\ g = Done m /\
      load_user R n w = Done (Some id) /\ group_id R m w = Done (Some i) /\ r = user_resource id /\ a = ModifyUserPermissionGroups
  | Call_add_role u g => exists n m id i, u = Done n /\ g = Done m /\
      load_user R n w = Done (Some id) /\ group_id R m w = Done (Some i) /\ r = user_resource id /\ a = ModifyUserRoles
  | Call_remove_role u g => exists n m id i, u = Done n /\ g = Done m /\
      load_user R n w = Done (Some id) /\ role_id R m w = Done (Some i) /\ r = user_resource id /\ a = ModifyUserRoles
  end.

(* the schema finds the view that was asked for (C67) *)
Definition lawful {W} (R : raw_db W) : Prop := forall v i, views R v = Some i -> vi_name i = v /\ vi_collection i = v_coll v.

(* ---------- checks ---------- *)
Lemma check_all_ok {W} (p : permissions) : forall l (w : W), (forall r a, In (r, a) l -> p r a = true) -> check_all (Some p) l w = (w, Done tt).
Proof.
  induction l as [|[r a] l IH]; intros w H; [reflexivity|]. cbn. unfold bind. cbn [check_permission]. rewrite (H r a) by (left; reflexivity). cbn.
  apply IH. intros r' a' I. apply H. right. exact I.
Qed.
Lemma check_all_none {W} : forall l (w : W), check_all None l w = (w, Done tt).
Proof. induction l as [|[r a] l IH]; intros w; [reflexivity|]. cbn. unfold bind. cbn. apply IH. Qed.
Lemma check_all_denied {W} (p : permissions) : forall l (w : W) r a, In (r, a) l -> p r a = false -> check_all (Some p) l w = (w, Fail PermissionDenied).
Proof.
  induction l as [|[r a] l IH]; intros w r' a' I F; [destruct I|]. cbn. unfold bind. cbn [check_permission].
  destruct (p r a) eqn:P; [|reflexivity]. cbn. apply (IH w r' a'); [|exact F]. destruct I as [[= -> ->]|I]; [congruence|exact I].
Qed.

(* every operation's permission is a documented one and vice versa *)
Lemma transaction_needs {W} (R : raw_db W) db ops r a :
  needs R db (Call_transaction ops) r a <-> In (r, a) (map (operation_permission db) ops).
Proof.
  cbn. split.
  - intros (c & [(id & x & I & -> & ->)|[(id & rev & x & I & -> & ->)|[(id & x & I & -> & ->)|[(id & rev & I & -> & ->)|(id & rev & I & -> & ->)]]]]);
      apply (in_map (operation_permission db)) in I; exact I.
  - intros H. apply in_map_iff in H as ([c cmd] & E & I). exists c. destruct cmd; cbn in E; injection E as <- <-.
    + left. eauto.
    + right. left. eauto 6.
    + right. right. left. eauto.
    + right. right. right. left. eauto.
    + right. right. right. right. eauto.
Qed.
(* the documented permissions of a call are finitely many *)
Lemma needs_list {W A} (R : raw_db W) db (c : db_call A) : exists l, forall r a, needs R db c r a <-> In (r, a) l.
Proof.
  assert (one : forall (P : Prop) r0 a0, (P \/ ~ P) -> exists l, forall (r : resource) (a : action), (P /\ r = r0 /\ a = a0) <-> In (r, a) l).
  { intros P r0 a0 [Y|Y]; [exists [(r0, a0)]|exists []]; intros r a; cbn; [|tauto]. split; [intros (_ & -> & ->); auto|intros [[= <- <-]|[]]; auto]. }
  assert (V : forall v, views R v <> None \/ ~ views R v <> None) by (intros v; destruct (views R v); [left; discriminate|right; auto]).
  destruct c; cbn [needs]; try (apply one, V);
    try (match goal with |- exists l, forall r a, r = ?r0 /\ a = ?a0 <-> _ => exists [(r0, a0)]; intros r a; cbn; split; [intros (-> & ->); auto|intros [[= <- <-]|[]]; auto] end).
  - exists (map (operation_permission db) ops). intros r a. apply (transaction_needs R).
  - exists (map (fun id => (document_resource db c id, DocumentGet)) ids). intros r a. rewrite in_map_iff. split; [intros (id & I & -> & ->); eauto|].
    intros (id & [= <- <-] & I). eauto.
  - exists (map (fun t => (pubsub_resource db t, PubSubPublish)) topics). intros r a. rewrite in_map_iff. split; [intros (id & I & -> & ->); eauto|].
    intros (id & [= <- <-] & I). eauto.
Qed.

(* ================= C78 ================= *)
Ltac calls := cbn [invoke]; unfold list_executed_transactions, last_transaction_id, compact, compact_key_value_store, compact_collection, apply_transaction, get, list_docs, list_headers,
      count, get_multiple, reduce, query_view, reduce_grouped, execute_key_operation, create_subscriber, publish, publish_to_all, subscribe_to, unsubscribe_from;
    unfold bind, view_by_name; cbn [check_permission].
(* A handle that has every documented permission does what an unrestricted one does. *)
Theorem C78_sufficient : forall W (R : raw_db W) (p : permissions) db A (c : db_call A) w, lawful R ->
  (forall r a, needs R db c r a -> p r a = true) -> invoke R (Some p) db c w = invoke R None db c w.
Proof.
  intros W R p db A c w L H.
  destruct c; calls; try (rewrite H by (split; reflexivity); reflexivity);
    try (destruct (views R v) as [i|] eqn:V; [|reflexivity]; cbn; destruct (L v i V) as [-> _]; rewrite H by (split; [congruence|split; reflexivity]); reflexivity).
  - rewrite check_all_none, check_all_ok; [reflexivity|]. intros r a I. apply H, transaction_needs, I.
  - rewrite check_all_none, check_all_ok; [reflexivity|]. intros r a I. apply in_map_iff in I as (id & [= <- <-] & I). apply H. cbn. eauto.
  - rewrite check_all_none, check_all_ok; [reflexivity|]. intros r a I. apply in_map_iff in I as (t & [= <- <-] & I). apply H. cbn. eauto.
Qed.
(* Without one of them the call is refused and nothing happens. *)
Theorem C78_necessary : forall W (R : raw_db W) (p : permissions) db A (c : db_call A) w r a, lawful R ->
  needs R db c r a -> p r a = false -> invoke R (Some p) db c w = (w, Fail PermissionDenied).
Proof.
  intros W R p db A c w r a L NE F.
  destruct c; calls; cbn [needs] in NE; try (destruct NE as [-> ->]; rewrite F; reflexivity);
    try (destruct NE as (V & -> & ->); destruct (views R v) as [i|] eqn:E; [|congruence]; cbn; destruct (L v i E) as [-> _]; rewrite F; reflexivity).
  - apply (transaction_needs R) in NE. rewrite (check_all_denied p _ w r a NE F). reflexivity.
  - destruct NE as (id & I & -> & ->). rewrite (check_all_denied p _ w (document_resource db c id) DocumentGet); [reflexivity| |exact F]. apply in_map_iff. exists id. auto.
  - destruct NE as (t & I & -> & ->). rewrite (check_all_denied p _ w (pubsub_resource db t) PubSubPublish); [reflexivity| |exact F]. apply in_map_iff. exists t. auto.
Qed.
(* So no other permission, granted or refused, makes a difference. *)
Theorem C78_nothing_else : forall W (R : raw_db W) (p q : permissions) db A (c : db_call A) w, lawful R ->
  (forall r a, needs R db c r a -> p r a = q r a) -> invoke R (Some p) db c w = invoke R (Some q) db c w.
Proof.
  intros W R p q db A c w L H.
  assert (D : (forall r a, needs R db c r a -> p r a = true) \/ exists r a, needs R db c r a /\ p r a = false).
  { destruct (needs_list R db c) as (l & X). destruct (forallb (fun ra => p (fst ra) (snd ra)) l) eqn:B.
    - left. intros r a I. apply X in I. rewrite forallb_forall in B. exact (B _ I).
    - right. assert (Y : exists x, In x l /\ p (fst x) (snd x) = false).
      { clear X. induction l as [|x l IH]; [discriminate|]. cbn in B. destruct (p (fst x) (snd x)) eqn:Q; [|exists x; split; [left; reflexivity|exact Q]].
        destruct (IH B) as (y & I & Y). exists y. split; [right; exact I|exact Y]. }
      destruct Y as ([r a] & I & Y). exists r, a. split; [apply X, I|exact Y]. }
  destruct D as [D|(r & a & NE & F)].
  - rewrite (C78_sufficient W R p db A c w L D). symmetry. apply (C78_sufficient W R q db A c w L). intros r a NE. rewrite <- (H r a NE). auto.
  - rewrite (C78_necessary W R p db A c w r a L NE F). symmetry. apply (C78_necessary W R q db A c w r a L NE). rewrite <- (H r a NE). exact F.
Qed.
(* asking for a view the schema does not have fails, with or without permission *)
Theorem C78_no_view : forall W (R : raw_db W) s db v q k p w, views R v = None ->
  query_view R s db v q w = (w, Fail ViewNotFound) /\ query_view_with_docs R s db v q w = (w, Fail ViewNotFound) /\
  reduce R s db v k p w = (w, Fail ViewNotFound) /\ reduce_grouped R s db v k p w = (w, Fail ViewNotFound) /\ delete_docs R s db v k p w = (w, Fail ViewNotFound).
Proof.
  intros W R s db v q k p w V. unfold reduce, query_view_with_docs, query_view, reduce_grouped, delete_docs, view_by_name, bind. rewrite V. repeat split; reflexivity.
Qed.

(* Querying with documents: the query's permission, and Get on every document the query found *)
Theorem C78_query_with_docs : forall W (R : raw_db W) (p : permissions) db v q w, lawful R -> views R v <> None ->
  (p (view_resource db v) ViewQuery = false -> query_view_with_docs R (Some p) db v q w = (w, Fail PermissionDenied)) /\
  (p (view_resource db v) ViewQuery = true -> forall w1 rs, query_view R None db v q w = (w1, Done rs) ->
    ((forall m k, In (m, k) rs -> p (document_resource db (v_coll v) (m_id m)) DocumentGet = true) ->
       query_view_with_docs R (Some p) db v q w = query_view_with_docs R None db v q w) /\
    (forall m k, In (m, k) rs -> p (document_resource db (v_coll v) (m_id m)) DocumentGet = false ->
       query_view_with_docs R (Some p) db v q w = (w1, Fail PermissionDenied))).
Proof.
  intros W R p db v q w L V. split; [|intros P w1 rs Q].
  - intros P. unfold query_view_with_docs, bind.
    pose proof (C78_necessary W R p db _ (Call_query v q) w _ _ L (conj V (conj eq_refl eq_refl)) P) as X. cbn [invoke] in X. rewrite X. reflexivity.
  - assert (S : query_view R (Some p) db v q w = (w1, Done rs)).
    { rewrite <- Q. apply (C78_sufficient W R p db _ (Call_query v q) w L). intros r a (_ & -> & ->). exact P. }
    destruct (views R v) as [i|] eqn:E; [|congruence]. destruct (L v i E) as [_ C0].
    pose proof (fun H => C78_sufficient W R p db _ (Call_get_multiple (map (fun r => m_id (fst r)) rs) (v_coll v)) w1 L H) as X.
    pose proof (fun r a H F => C78_necessary W R p db _ (Call_get_multiple (map (fun r => m_id (fst r)) rs) (v_coll v)) w1 r a L H F) as Y. cbn [invoke] in X, Y.
    unfold query_view_with_docs, view_by_name. rewrite E. unfold bind, ret. rewrite S, Q, C0. split.
    + intros G. rewrite X; [reflexivity|]. intros r a (id & I & -> & ->). apply in_map_iff in I as ([m k] & <- & I). exact (G m k I).
    + intros m k I F. rewrite (Y (document_resource db (v_coll v) (m_id m)) DocumentGet); [reflexivity| |exact F].
      exists (m_id m). split; [|split; reflexivity]. apply in_map_iff. exists (m, k). auto.
Qed.

(* Deleting by a view: Delete on every document found decides *)
Theorem C78_delete_docs : forall W (R : raw_db W) (p : permissions) db v key policy w w1 rs, lawful R ->
  query_view R None db v (mk_query key false None policy) w = (w1, Done rs) ->
  ((forall m k, In (m, k) rs -> p (document_resource db (v_coll v) (m_id m)) DocumentDelete = true) ->
     delete_docs R (Some p) db v key policy w = delete_docs R None db v key policy w) /\
  (forall m k, In (m, k) rs -> p (document_resource db (v_coll v) (m_id m)) DocumentDelete = false ->
     delete_docs R (Some p) db v key policy w = (w1, Fail PermissionDenied)).
Proof.
  intros W R p db v key policy w w1 rs L Q. unfold query_view, view_by_name, bind in Q. unfold delete_docs, view_by_name, bind.
  destruct (views R v) as [i|] eqn:E; [|discriminate]. cbn in Q |- *. destruct (L v i E) as [_ C0]. rewrite C0.
  destruct (raw_scan R i _ w) as [w2 [es|e|]]; try discriminate. cbn in Q. injection Q as <- <-.
  set (ops := flat_map (fun e => map (fun m => mk_op (v_coll v) (Delete (m_id m) (m_revision m))) (e_mappings e)) es).
  assert (O : forall r a, needs R db (Call_transaction ops) r a <-> exists m k, In (m, k) (flat_map (fun e => map (fun m => (m, e_key e)) (e_mappings e)) es) /\
    r = document_resource db (v_coll v) (m_id m) /\ a = DocumentDelete).
  { intros r a. rewrite transaction_needs, in_map_iff. split.
    - intros (o & Z & I). unfold ops in I. apply in_flat_map in I as (e & I & J). apply in_map_iff in J as (m & <- & J). cbn in Z. injection Z as <- <-.
      exists m, (e_key e). split; [|split; reflexivity]. apply in_flat_map. exists e. split; [exact I|]. apply in_map_iff. exists m. auto.
    - intros (m & k & I & -> & ->). apply in_flat_map in I as (e & I & J). apply in_map_iff in J as (m' & [= -> <-] & J).
      exists (mk_op (v_coll v) (Delete (m_id m) (m_revision m))). split; [reflexivity|]. unfold ops. apply in_flat_map. exists e. split; [exact I|]. apply in_map_iff. exists m. auto. }
  pose proof (fun H => C78_sufficient W R p db _ (Call_transaction ops) w2 L H) as X.
  pose proof (fun r a H F => C78_necessary W R p db _ (Call_transaction ops) w2 r a L H F) as Y. cbn [invoke] in X, Y. split.
  - intros G. rewrite X; [reflexivity|]. intros r a Z. apply O in Z as (m & k & I & -> & ->). exact (G m k I).
  - intros m k I F. rewrite (Y (document_resource db (v_coll v) (m_id m)) DocumentDelete); [reflexivity| |exact F]. apply O. eauto.
Qed.
(* FINDING: the documented permission DeleteDocs on the view is never looked at, and
   neither is Query: a handle without any permission on any view deletes what it may delete *)
Theorem C78_delete_docs_refuted : forall W (R : raw_db W) db v key policy w w1 rs, lawful R ->
  query_view R None db v (mk_query key false None policy) w = (w1, Done rs) ->
  let p : permissions := fun r a => match a with DocumentDelete => true | _ => false end in
  delete_docs R (Some p) db v key policy w = delete_docs R None db v key policy w.
Proof. intros W R db v key policy w w1 rs L Q p. apply (C78_delete_docs W R p db v key policy w w1 rs L Q). reflexivity. Qed.
Definition nothing : permissions := fun _ _ => false.
(* FINDING: without any permission at all, delete_docs still tells whether the view has a matching entry *)
Theorem C78_delete_docs_probe_refuted : forall W (R : raw_db W) db v key policy w w1 w2 rs, lawful R ->
  query_view R None db v (mk_query key false None policy) w = (w1, Done rs) -> raw_apply R [] w1 = (w2, Done []) ->
  snd (delete_docs R (Some nothing) db v key policy w) = match rs with [] => Done 0 | _ :: _ => Fail PermissionDenied end.
Proof.
  intros W R db v key policy w w1 w2 rs L Q Z. destruct (C78_delete_docs W R nothing db v key policy w w1 rs L Q) as [X Y].
  destruct rs as [|[m k] rs].
  - rewrite X by (intros m k []). unfold query_view, view_by_name, bind in Q. unfold delete_docs, view_by_name, bind.
    destruct (views R v) as [i|]; [|discriminate]. cbn in Q |- *. destruct (raw_scan R i _ w) as [w3 [es|e|]]; try discriminate. cbn in Q. injection Q as <- Q.
    assert (O : flat_map (fun e => map (fun m => mk_op (vi_collection i) (Delete (m_id m) (m_revision m))) (e_mappings e)) es = []).
    { clear - Q. induction es as [|e es IH]; [reflexivity|]. cbn in *. apply app_eq_nil in Q as [A B]. rewrite (IH B). apply map_eq_nil in A. rewrite A. reflexivity. }
    rewrite O. cbn. unfold apply_transaction, bind. cbn. rewrite Z. reflexivity.
  - rewrite (Y m k); [reflexivity|left; reflexivity|reflexivity].
Qed.

(* ---------- storage calls ---------- *)
Ltac st_calls := cbn [manage]; unfold create_database, delete_database, list_databases, list_available_schemas, create_user, delete_user, set_user_password,
  authenticate, assume_identity, add_permission_group_to_user, remove_permission_group_from_user, add_role_to_user, remove_role_from_user, update_user_with_named_id, bind, lift, ok_or, ret, fail;
  cbn [check_permission]; unfold ret, fail.
Ltac cases := repeat match goal with
  | |- context [match ?x with Done _ => _ | Fail _ => _ | Panic => _ end] => is_var x; destruct x
  | |- context [match ?f ?n ?w with Done _ => _ | Fail _ => _ | Panic => _ end] => destruct (f n w) eqn:?
  | |- context [match ?o with Some _ => _ | None => _ end] => is_var o; destruct o
  end.
Theorem C78_storage_sufficient : forall W (R : raw_storage W) (p : permissions) A (c : st_call A) w,
  (forall r a, needs_st R c w r a -> p r a = true) -> manage R (Some p) c w = manage R None c w.
Proof.
  intros W R p A c w H.
  destruct c; try (destruct a); try (destruct i); st_calls; cbn [needs_st] in H; try reflexivity; cases; try reflexivity;
    rewrite H by eauto 12; reflexivity.
Qed.
Theorem C78_storage_necessary : forall W (R : raw_storage W) (p : permissions) A (c : st_call A) w r a,
  needs_st R c w r a -> p r a = false -> manage R (Some p) c w = (w, Fail PermissionDenied).
Proof.
  intros W R p A c w r a NE F.
  destruct c; try (destruct a0); try (destruct i); st_calls; cbn [needs_st] in NE;
    repeat match goal with X : exists _, _ |- _ => destruct X | X : _ /\ _ |- _ => destruct X | X : False |- _ => destruct X end; subst;
    repeat match goal with X : ?f ?n w = Done _ |- _ => rewrite X end; rewrite ?F; reflexivity.
Qed.
(* A call that needs no permission, because its user, role or group does not exist or
   its name is refused, does nothing but fail; the only exception answers a challenge *)
Definition answers_challenge {A} (c : st_call A) : Prop := match c with Call_authenticate (TokenChallengeResponse _) => True | _ => False end.
Theorem C78_storage_nothing : forall W (R : raw_storage W) s A (c : st_call A) w,
  (forall r a, ~ needs_st R c w r a) -> ~ answers_challenge c ->
  fst (manage R s c w) = w /\ (forall x, snd (manage R s c w) <> Done x).
Proof.
  intros W R s A c w H X.
  destruct c; try (destruct a); try (destruct i); cbn [needs_st answers_challenge] in *; try tauto; try (exfalso; eapply H; split; reflexivity);
    st_calls; cases; cbn; try (split; [reflexivity|discriminate]); exfalso; eapply H; eauto 12.
Qed.
(* the answer to a challenge is judged by the challenge alone (C56) *)
Theorem C78_challenge_response : forall W (R : raw_storage W) s h w,
  manage R s (Call_authenticate (TokenChallengeResponse h)) w = raw_authenticate R (TokenChallengeResponse h) None w.
Proof. reflexivity. Qed.
(* FINDING: whether a user exists can be asked without any permission *)
Theorem C78_user_exists_refuted : forall W (R : raw_storage W) n w o, user_id R n w = Done o ->
  snd (manage R (Some nothing) (Call_delete_user (Done n)) w) = match o with Some _ => Fail PermissionDenied | None => Fail UserNotFound end.
Proof. intros W R n w o H. st_calls. rewrite H. destruct o; reflexivity. Qed.

(* ---------- distinct objects have distinct names ---------- *)
Theorem C78_resources : forall i j, i < 2 ^ 64 -> j < 2 ^ 64 ->
  (user_resource i = user_resource j -> i = j) /\ (role_resource i = role_resource j -> i = j) /\ (token_resource i = token_resource j -> i = j) /\
  user_resource i <> role_resource j /\ user_resource i <> token_resource j /\ role_resource i <> token_resource j.
Proof.
  intros i j Hi Hj. change (2 ^ 64) with (256 ^ N.of_nat 8) in *.
  assert (B : be 8 i = be 8 j -> i = j) by (intros E; rewrite <- (of_be_be 8 i Hi), <- (of_be_be 8 j Hj), E; reflexivity).
  split; [|split; [|split]]; [intros E; apply B; unfold user_resource, role_resource, token_resource, bonsaidb_resource in E; cbn [app] in E; congruence ..|].
  split; [|split]; discriminate.
Qed.
Theorem C78_databases : forall a b, database_resource a = database_resource b -> a = b.
Proof. intros a b [= E]. exact E. Qed.

(* all of them are below the one name "bonsaidb" that a statement for everything names *)
Theorem C78_names : forall i db,
  user_resource i = [s_bonsaidb; s_user; be 8 i] /\ role_resource i = [s_bonsaidb; s_role; be 8 i] /\ token_resource i = [s_bonsaidb; s_token; be 8 i] /\
  database_resource db = [s_bonsaidb; db].
Proof. intros i db. repeat split. Qed.
(* a handle without a session does what it is asked, with the arguments given *)
Theorem C78_arguments : forall W (R : raw_db W) (S : raw_storage W) db start limit u o id k w,
  list_executed_transactions R None db start limit w = raw_list_executed R start limit w /\
  (load_user S u w = Done (Some id) ->
    (group_id S o w = Done (Some k) -> add_permission_group_to_user S None (Done u) (Done o) w = raw_add_group S id k w /\
       remove_permission_group_from_user S None (Done u) (Done o) w = raw_remove_group S id k w) /\
    (role_id S o w = Done (Some k) -> remove_role_from_user S None (Done u) (Done o) w = raw_remove_role S id k w)).
Proof.
  intros W R S db start limit u o id k w. split; [reflexivity|]. intros U. split; intros G; [split|];
    unfold add_permission_group_to_user, remove_permission_group_from_user, remove_role_from_user, update_user_with_named_id, bind, lift; rewrite U, G; reflexivity.
Qed.

(* ---------- a concrete case ---------- *)
Definition ex_c : qname := mk_qname (name_of (utf8 [97])) (name_of (utf8 [98])).
Definition ex_v : vname := mk_vname ex_c (name_of (utf8 [99])).
(* the world is a log of what happened *)
Definition log {A} (n : N) (x : A) : comp (list N) A := fun w => (w ++ [n], Done x).
Definition ex_R : raw_db (list N) := {|
  views v := if bytes_eqb (v_encoded v) (v_encoded ex_v) then Some (mk_view v (v_coll v)) else None;
  raw_list_executed _ _ := log 1 []; raw_last_id := log 2 None; raw_compact := log 3 tt; raw_compact_kv := log 4 tt; raw_compact_collection _ := log 5 tt;
  raw_apply ops := log 6 (map (fun _ => 0) ops); raw_get _ _ := log 7 (Some 7); raw_list _ _ _ _ := log 8 []; raw_list_headers _ _ _ _ := log 9 [];
  raw_count _ _ := log 10 0; raw_get_multiple ids _ := log 11 (map (fun i => (i, 0)) ids);
  raw_scan _ q := log 12 (if q_limit q then [] else [mk_entry 1 [mk_mapping [1] 0 0; mk_mapping [2] 0 0] 5]); raw_reduce _ _ := log 13 0; raw_kv _ _ _ := log 14 0;
  raw_subscriber := log 15 0; raw_publish _ _ := log 16 tt; raw_subscribe _ _ := log 17 tt; raw_unsubscribe _ _ := log 18 tt |}.
Definition ex_p : permissions := fun r a =>
  match a with
  | DocumentGet => if list_eq_dec (list_eq_dec N.eq_dec) r (document_resource [100] ex_c [1]) then true else false
  | ViewQuery | DocumentDelete => true
  | _ => false
  end.
Definition ex_q : query := mk_query None false None 0.
Example C78_ex : lawful ex_R /\
  invoke ex_R (Some ex_p) [100] (Call_get [1] ex_c) [] = ([7], Done (Some 7)) /\
  invoke ex_R (Some ex_p) [100] (Call_get [2] ex_c) [] = ([], Fail PermissionDenied) /\
  invoke ex_R (Some ex_p) [100] (Call_get_multiple [[1]; [2]] ex_c) [] = ([], Fail PermissionDenied) /\
  query_view ex_R (Some ex_p) [100] ex_v ex_q [] = ([12], Done [(mk_mapping [1] 0 0, 1); (mk_mapping [2] 0 0, 1)]) /\
  query_view_with_docs ex_R (Some ex_p) [100] ex_v ex_q [] = ([12], Fail PermissionDenied) /\
  delete_docs ex_R (Some ex_p) [100] ex_v None 0 [] = ([12; 6], Done 2) /\
  delete_docs ex_R (Some nothing) [100] ex_v None 0 [] = ([12], Fail PermissionDenied) /\
  invoke ex_R (Some ex_p) [100] (Call_transaction [mk_op ex_c (Delete [1] 0); mk_op ex_c (Insert None 0)]) [] = ([], Fail PermissionDenied) /\
  invoke ex_R None [100] (Call_transaction [mk_op ex_c (Delete [1] 0); mk_op ex_c (Insert None 0)]) [] = ([6], Done [0; 0]).
Proof.
  split.
  - intros v i H. cbn in H. destruct (bytes_eqb _ _); [|discriminate]. injection H as <-. split; reflexivity.
  - vm_compute. repeat split; reflexivity.
Qed.
Definition ex_S : raw_storage (list N) := {|
  user_id r _ := Done (match r with ById i => Some i | ByName n => if bytes_eqb n [5] then Some 50 else None end); group_id r _ := Done (Some 3); role_id r _ := Done (Some 4);
  load_user r _ := Done (match r with ById i => Some i | ByName n => if bytes_eqb n [5] then Some 50 else None end); load_role r _ := Done (Some 4);
  raw_create_database _ _ _ := log 1 tt; raw_delete_database _ := log 2 tt; raw_list_databases := log 3 []; raw_list_schemas := log 4 []; raw_create_user _ := log 5 9;
  raw_delete_user _ := log 6 tt; raw_set_password _ _ := log 7 tt; raw_authenticate _ _ := log 8 1; raw_assume_user _ := log 9 1; raw_assume_role _ := log 10 1;
  raw_add_group _ _ := log 11 tt; raw_remove_group _ _ := log 12 tt; raw_add_role _ _ := log 13 tt; raw_remove_role _ _ := log 14 tt |}.
Definition ex_own : permissions := fun r a => match a with SetPassword => if list_eq_dec (list_eq_dec N.eq_dec) r (user_resource 50) then true else false | _ => false end.
Example C78_ex_storage :
  needs_st ex_S (Call_set_password (Done (ByName [5])) 1) [] (user_resource 50) SetPassword /\
  manage ex_S (Some ex_own) (Call_set_password (Done (ByName [5])) 1) [] = ([7], Done tt) /\
  manage ex_S (Some ex_own) (Call_set_password (Done (ById 51)) 1) [] = ([], Fail PermissionDenied) /\
  manage ex_S (Some ex_own) (Call_delete_user (Done (ByName [5]))) [] = ([], Fail PermissionDenied) /\
  manage ex_S (Some ex_own) (Call_delete_user (Done (ByName [6]))) [] = ([], Fail UserNotFound) /\
  manage ex_S (Some ex_own) (Call_authenticate (TokenChallengeResponse 3)) [] = ([8], Done 1).
Proof. split; [exists (ByName [5]), 50; repeat split; reflexivity|]. vm_compute. repeat split; reflexivity. Qed.

Print Assumptions C78_sufficient.
Print Assumptions C78_necessary.
Print Assumptions C78_nothing_else.
Print Assumptions C78_no_view.
Print Assumptions C78_query_with_docs.
Print Assumptions C78_delete_docs.
Print Assumptions C78_delete_docs_refuted.
Print Assumptions C78_delete_docs_probe_refuted.
Print Assumptions C78_storage_sufficient.
Print Assumptions C78_storage_necessary.
Print Assumptions C78_storage_nothing.
Print Assumptions C78_challenge_response.
Print Assumptions C78_user_exists_refuted.
Print Assumptions C78_resources.
Print Assumptions C78_databases.
Print Assumptions C78_names.
Print Assumptions C78_arguments.
