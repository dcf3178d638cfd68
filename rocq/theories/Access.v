(* Which permissions the calls of a local database and a local storage check
   before they act: crates/bonsaidb-local/src/database.rs,
   database/pubsub.rs, database/keyvalue.rs, storage.rs;
   crates/bonsaidb-core/src/permissions/bonsai.rs (actions and resource names),
   crates/bonsaidb-core/src/connection/has_session.rs (the check).
   The part of a function after its checks is an arbitrary computation on an
   arbitrary world (a field of [raw_db] or [raw_storage]); the documents, views,
   key-value store, users and sessions they work on are modelled elsewhere
   (Docs, Views, Kv, Perms, Sessions). Document ids, topics, names and keys are
   byte strings, every other argument or result is an opaque number. *)
From Verif Require Import Base Key Names.
Local Open Scope N_scope.

(* bonsai.rs:107-290 *)
Inductive action :=
| ListAvailableSchemas | ListDatabases | CreateDatabase | DeleteDatabase | CreateUser | DeleteUser | SetPassword
| AuthenticateToken | AuthenticatePasswordHash | AssumeIdentity | ModifyUserPermissionGroups | ModifyUserRoles
| Compact
| DocumentGet | DocumentList | DocumentListHeaders | DocumentCount | DocumentInsert | DocumentUpdate | DocumentOverwrite | DocumentDelete
| ViewQuery | ViewReduce | ViewDeleteDocs
| TransactionListExecuted | TransactionGetLastId
| PubSubCreateSuscriber | PubSubPublish | PubSubSubscribeTo | PubSubUnsubscribeFrom
| KeyValueExecuteOperation.

(* the resource names not already in Names.v; identifiers are byte strings there *)
Definition resource := list bytes.
Definition s_user : bytes := [117;115;101;114].
Definition s_role : bytes := [114;111;108;101].
Definition s_token : bytes := [97;117;116;104;101;110;116;105;99;97;116;105;111;110;45;116;111;107;101;110].
Definition bonsaidb_resource : resource := [s_bonsaidb].                                     (* bonsai.rs:11-13 *)
Definition database_resource (db : bytes) : resource := bonsaidb_resource ++ [db].           (* bonsai.rs:17-19 *)
Definition user_resource (id : N) : resource := bonsaidb_resource ++ [s_user; be 8 id].      (* bonsai.rs:90-92 *)
Definition role_resource (id : N) : resource := bonsaidb_resource ++ [s_role; be 8 id].      (* bonsai.rs:96-98 *)
Definition token_resource (id : N) : resource := bonsaidb_resource ++ [s_token; be 8 id].    (* bonsai.rs:102-106 *)

Inductive err := PermissionDenied | ViewNotFound | UserNotFound | InvalidCredentials | EOther (e : N).
Definition permissions := resource -> action -> bool.
(* the session of a handle, if it has one *)
Definition session := option permissions.

Definition comp (W A : Type) := W -> W * outcome A err.
Definition ret {W A} (x : A) : comp W A := fun w => (w, Done x).
Definition fail {W A} (e : err) : comp W A := fun w => (w, Fail e).
Definition bind {W A B} (m : comp W A) (f : A -> comp W B) : comp W B :=
  fun w => let '(w1, r) := m w in match r with Done x => f x w1 | Fail e => (w1, Fail e) | Panic => (w1, Panic) end.
Definition lift {W A} (r : W -> outcome A err) : comp W A := fun w => (w, r w).

(* has_session.rs:24-33, connection.rs:3724-3732: without a session everything is permitted *)
Definition check_permission {W} (s : session) (r : resource) (a : action) : comp W unit :=
  match s with
  | None => ret tt
  | Some p => if p r a then ret tt else fail PermissionDenied
  end.
(* for … { self.check_permission(…)?; } *)
Fixpoint check_all {W} (s : session) (l : list (resource * action)) : comp W unit :=
  match l with
  | [] => ret tt
  | (r, a) :: l' => bind (check_permission s r a) (fun _ => check_all s l')
  end.

Inductive command :=
| Insert (id : option bytes) (contents : N)
| Update (id : bytes) (revision contents : N)
| Overwrite (id : bytes) (contents : N)
| Delete (id : bytes) (revision : N)
| Check (id : bytes) (revision : option N).
Record operation := mk_op { op_collection : qname; op_command : command }.
Record query := mk_query { q_key : option N; q_descending : bool; q_limit : option N; q_policy : N }.
(* a mapping: the source document's header and the value; an entry of a view: key, mappings, reduced value *)
Record mapping := mk_mapping { m_id : bytes; m_revision : N; m_value : N }.
Record entry := mk_entry { e_key : N; e_mappings : list mapping; e_reduced : N }.
Record view_info := mk_view { vi_name : vname; vi_collection : qname }.

(* ---------- one database ---------- *)
Record raw_db (W : Type) := mk_raw_db {
  views : vname -> option view_info;                          (* Schematic::view_by_name *)
  raw_list_executed : option N -> option N -> comp W (list N);
  raw_last_id : comp W (option N);
  raw_compact : comp W unit;
  raw_compact_kv : comp W unit;
  raw_compact_collection : qname -> comp W unit;
  raw_apply : list operation -> comp W (list N);              (* eager views, then apply_transaction_to_roots *)
  raw_get : bytes -> qname -> comp W (option N);
  raw_list : N -> bool -> option N -> qname -> comp W (list N);
  raw_list_headers : N -> bool -> option N -> qname -> comp W (list N);
  raw_count : N -> qname -> comp W N;
  raw_get_multiple : list bytes -> qname -> comp W (list (bytes * N));
  raw_scan : view_info -> query -> comp W (list entry);       (* for_each_in_view; may bring the view up to date *)
  raw_reduce : vname -> list (N * N) -> comp W N;             (* view.reduce *)
  raw_kv : option bytes -> bytes -> N -> comp W N;
  raw_subscriber : comp W N;
  raw_publish : list bytes -> N -> comp W unit;
  raw_subscribe : N -> bytes -> comp W unit;
  raw_unsubscribe : N -> bytes -> comp W unit
}.
Arguments views {W}. Arguments raw_list_executed {W}. Arguments raw_last_id {W}. Arguments raw_compact {W}. Arguments raw_compact_kv {W}.
Arguments raw_compact_collection {W}. Arguments raw_apply {W}. Arguments raw_get {W}. Arguments raw_list {W}. Arguments raw_list_headers {W}.
Arguments raw_count {W}. Arguments raw_get_multiple {W}. Arguments raw_scan {W}. Arguments raw_reduce {W}. Arguments raw_kv {W}.
Arguments raw_subscriber {W}. Arguments raw_publish {W}. Arguments raw_subscribe {W}. Arguments raw_unsubscribe {W}.

Section Database.
  Context {W : Type} (R : raw_db W) (s : session) (db : bytes).

  (* database.rs:1010-1063 *)
  Definition list_executed_transactions (start limit : option N) : comp W (list N) :=
    bind (check_permission s (database_resource db) TransactionListExecuted) (fun _ => raw_list_executed R start limit).
  (* database.rs:1072-1078 *)
  Definition last_transaction_id : comp W (option N) :=
    bind (check_permission s (database_resource db) TransactionGetLastId) (fun _ => raw_last_id R).
  (* database.rs:1087-1097 *)
  Definition compact : comp W unit := bind (check_permission s (database_resource db) Compact) (fun _ => raw_compact R).
  (* database.rs:1106-1116 *)
  Definition compact_key_value_store : comp W unit := bind (check_permission s (kv_resource db) Compact) (fun _ => raw_compact_kv R).
  (* database.rs:1433-1446 *)
  Definition compact_collection (c : qname) : comp W unit :=
    bind (check_permission s (collection_resource db c) Compact) (fun _ => raw_compact_collection R c).
  (* database.rs:1132-1154: what one operation of a transaction needs *)
  Definition operation_permission (op : operation) : resource * action :=
    let c := op_collection op in
    match op_command op with
    | Insert _ _ => (collection_resource db c, DocumentInsert)
    | Update id _ _ => (document_resource db c id, DocumentUpdate)
    | Overwrite id _ => (document_resource db c id, DocumentOverwrite)
    | Delete id _ => (document_resource db c id, DocumentDelete)
    | Check id _ => (document_resource db c id, DocumentGet)
    end.
  (* database.rs:1127-1193 *)
  Definition apply_transaction (ops : list operation) : comp W (list N) :=
    bind (check_all s (map operation_permission ops)) (fun _ => raw_apply R ops).
  (* database.rs:1204-1224 *)
  Definition get (id : bytes) (c : qname) : comp W (option N) :=
    bind (check_permission s (document_resource db c id) DocumentGet) (fun _ => raw_get R id c).
  (* database.rs:1235-1285 *)
  Definition list_docs (ids : N) (descending : bool) (limit : option N) (c : qname) : comp W (list N) :=
    bind (check_permission s (collection_resource db c) DocumentList) (fun _ => raw_list R ids descending limit c).
  (* database.rs:1296-1350 *)
  Definition list_headers (ids : N) (descending : bool) (limit : option N) (c : qname) : comp W (list N) :=
    bind (check_permission s (collection_resource db c) DocumentListHeaders) (fun _ => raw_list_headers R ids descending limit c).
  (* database.rs:1361-1380 *)
  Definition count (ids : N) (c : qname) : comp W N :=
    bind (check_permission s (collection_resource db c) DocumentCount) (fun _ => raw_count R ids c).
  (* database.rs:1391-1422 *)
  Definition get_multiple (ids : list bytes) (c : qname) : comp W (list (bytes * N)) :=
    bind (check_all s (map (fun id => (document_resource db c id, DocumentGet)) ids)) (fun _ => raw_get_multiple R ids c).
  Definition view_by_name (v : vname) : comp W view_info :=
    match views R v with Some i => ret i | None => fail ViewNotFound end.
  (* database.rs:1457-1485 *)
  Definition query_view (v : vname) (q : query) : comp W (list (mapping * N)) :=
    bind (view_by_name v) (fun i =>
    bind (check_permission s (view_resource db (vi_name i)) ViewQuery) (fun _ =>
    bind (raw_scan R i q) (fun es => ret (flat_map (fun e => map (fun m => (m, e_key e)) (e_mappings e)) es)))).
  (* database.rs:1498-1527; the second view_by_name cannot fail *)
  Definition query_view_with_docs (v : vname) (q : query) : comp W (list (mapping * N) * list (bytes * N)) :=
    bind (query_view v q) (fun rs =>
    bind (view_by_name v) (fun i =>
    bind (get_multiple (map (fun r => m_id (fst r)) rs) (vi_collection i)) (fun ds => ret (rs, ds)))).
  (* database.rs:1570-1592 *)
  Definition reduce_grouped (v : vname) (key : option N) (policy : N) : comp W (list (N * N)) :=
    bind (view_by_name v) (fun i =>
    bind (check_permission s (view_resource db (vi_name i)) ViewReduce) (fun _ =>
    bind (raw_scan R i (mk_query key false None policy)) (fun es => ret (map (fun e => (e_key e, e_reduced e)) es)))).
  (* database.rs:1538-1559 *)
  Definition reduce (v : vname) (key : option N) (policy : N) : comp W N :=
    bind (reduce_grouped v key policy) (fun ms =>
    match ms with
    | [(_, x)] => ret x
    | _ => raw_reduce R v ms
    end).
  (* database.rs:1605-1625 *)
  Definition delete_docs (v : vname) (key : option N) (policy : N) : comp W N :=
    bind (view_by_name v) (fun i =>
    bind (raw_scan R i (mk_query key false None policy)) (fun es =>
    bind (apply_transaction (flat_map (fun e => map (fun m => mk_op (vi_collection i) (Delete (m_id m) (m_revision m))) (e_mappings e)) es)) (fun rs =>
    ret (N.of_nat (length rs))))).
  (* keyvalue.rs:59-65 *)
  Definition execute_key_operation (ns : option bytes) (key : bytes) (op : N) : comp W N :=
    bind (check_permission s (keyvalue_key_resource db ns key) KeyValueExecuteOperation) (fun _ => raw_kv R ns key op).
  (* pubsub.rs:14-23 *)
  Definition create_subscriber : comp W N := bind (check_permission s (database_resource db) PubSubCreateSuscriber) (fun _ => raw_subscriber R).
  (* pubsub.rs:25-35 *)
  Definition publish (topic : bytes) (payload : N) : comp W unit :=
    bind (check_permission s (pubsub_resource db topic) PubSubPublish) (fun _ => raw_publish R [topic] payload).
  (* pubsub.rs:37-57: the topics are collected, with their checks, before anything is published *)
  Definition publish_to_all (topics : list bytes) (payload : N) : comp W unit :=
    bind (check_all s (map (fun t => (pubsub_resource db t, PubSubPublish)) topics)) (fun _ => raw_publish R topics payload).
  (* pubsub.rs:83-91 *)
  Definition subscribe_to (subscriber : N) (topic : bytes) : comp W unit :=
    bind (check_permission s (pubsub_resource db topic) PubSubSubscribeTo) (fun _ => raw_subscribe R subscriber topic).
  (* pubsub.rs:93-101 *)
  Definition unsubscribe_from (subscriber : N) (topic : bytes) : comp W unit :=
    bind (check_permission s (pubsub_resource db topic) PubSubUnsubscribeFrom) (fun _ => raw_unsubscribe R subscriber topic).
End Database.

(* ---------- the storage ---------- *)
Inductive ref := ByName (n : bytes) | ById (i : N).
(* Nameable::name may refuse the name *)
Definition nameable := outcome ref err.
Inductive authentication := Token (id : N) | Password (user : ref) (password : N) | TokenChallengeResponse (hash : N).
Inductive identity := IdUser (u : ref) | IdRole (r : ref) | IdOther.

Record raw_storage (W : Type) := mk_raw_storage {
  user_id : ref -> W -> outcome (option N) err;               (* NamedReference::id::<User> *)
  group_id : ref -> W -> outcome (option N) err;
  role_id : ref -> W -> outcome (option N) err;
  load_user : ref -> W -> outcome (option N) err;             (* User::load: the id of the document *)
  load_role : ref -> W -> outcome (option N) err;
  raw_create_database : bytes -> N -> bool -> comp W unit;
  raw_delete_database : bytes -> comp W unit;
  raw_list_databases : comp W (list N);
  raw_list_schemas : comp W (list N);
  raw_create_user : bytes -> comp W N;
  raw_delete_user : ref -> comp W unit;
  raw_set_password : ref -> N -> comp W unit;
  raw_authenticate : authentication -> option N -> comp W N;  (* authenticate_inner, with the loaded user *)
  raw_assume_user : N -> comp W N;
  raw_assume_role : N -> comp W N;
  raw_add_group : N -> N -> comp W unit;                      (* the change of the loaded user and, if it changed, the update *)
  raw_remove_group : N -> N -> comp W unit;
  raw_add_role : N -> N -> comp W unit;
  raw_remove_role : N -> N -> comp W unit
}.
Arguments user_id {W}. Arguments group_id {W}. Arguments role_id {W}. Arguments load_user {W}. Arguments load_role {W}.
Arguments raw_create_database {W}. Arguments raw_delete_database {W}. Arguments raw_list_databases {W}. Arguments raw_list_schemas {W}.
Arguments raw_create_user {W}. Arguments raw_delete_user {W}. Arguments raw_set_password {W}. Arguments raw_authenticate {W}.
Arguments raw_assume_user {W}. Arguments raw_assume_role {W}. Arguments raw_add_group {W}. Arguments raw_remove_group {W}.
Arguments raw_add_role {W}. Arguments raw_remove_role {W}.

Section Storage.
  Context {W : Type} (R : raw_storage W) (s : session).
  Definition ok_or {A} (o : option A) (e : err) : comp W A := match o with Some x => ret x | None => fail e end.

  (* storage.rs:1234-1246 *)
  Definition create_database (name : bytes) (schema : N) (only_if_needed : bool) : comp W unit :=
    bind (check_permission s (database_resource name) CreateDatabase) (fun _ => raw_create_database R name schema only_if_needed).
  (* storage.rs:1252-1258 *)
  Definition delete_database (name : bytes) : comp W unit :=
    bind (check_permission s (database_resource name) DeleteDatabase) (fun _ => raw_delete_database R name).
  (* storage.rs:1260-1266 *)
  Definition list_databases : comp W (list N) := bind (check_permission s bonsaidb_resource ListDatabases) (fun _ => raw_list_databases R).
  (* storage.rs:1268-1274 *)
  Definition list_available_schemas : comp W (list N) := bind (check_permission s bonsaidb_resource ListAvailableSchemas) (fun _ => raw_list_schemas R).
  (* storage.rs:1276-1282 *)
  Definition create_user (name : bytes) : comp W N := bind (check_permission s bonsaidb_resource CreateUser) (fun _ => raw_create_user R name).
  (* storage.rs:1284-1298 *)
  Definition delete_user (user : nameable) : comp W unit :=
    bind (lift (fun _ => user)) (fun u => bind (lift (user_id R u)) (fun o => bind (ok_or o UserNotFound) (fun id =>
    bind (check_permission s (user_resource id) DeleteUser) (fun _ => raw_delete_user R u)))).
  (* storage.rs:1301-1316 *)
  Definition set_user_password (user : nameable) (password : N) : comp W unit :=
    bind (lift (fun _ => user)) (fun u => bind (lift (user_id R u)) (fun o => bind (ok_or o UserNotFound) (fun id =>
    bind (check_permission s (user_resource id) SetPassword) (fun _ => raw_set_password R u password)))).
  (* storage.rs:1321-1361 *)
  Definition authenticate (a : authentication) : comp W N :=
    match a with
    | Token id => bind (check_permission s (token_resource id) AuthenticateToken) (fun _ => raw_authenticate R a None)
    | Password u _ => bind (lift (load_user R u)) (fun o => bind (ok_or o InvalidCredentials) (fun id =>
        bind (check_permission s (user_resource id) AuthenticatePasswordHash) (fun _ => raw_authenticate R a (Some id))))
    | TokenChallengeResponse _ => raw_authenticate R a None
    end.
  (* storage.rs:1363-1391 *)
  Definition assume_identity (i : identity) : comp W N :=
    match i with
    | IdUser u => bind (lift (load_user R u)) (fun o => bind (ok_or o InvalidCredentials) (fun id =>
        bind (check_permission s (user_resource id) AssumeIdentity) (fun _ => raw_assume_user R id)))
    | IdRole r => bind (lift (load_role R r)) (fun o => bind (ok_or o InvalidCredentials) (fun id =>
        bind (check_permission s (role_resource id) AssumeIdentity) (fun _ => raw_assume_role R id)))
    | IdOther => fail InvalidCredentials
    end.
  (* storage.rs:726-753 update_user_with_named_id *)
  Definition update_user_with_named_id (col : ref -> W -> outcome (option N) err) (user other : nameable) (callback : N -> N -> comp W unit) : comp W unit :=
    bind (lift (fun _ => other)) (fun o => bind (lift (fun _ => user)) (fun u =>
    bind (lift (load_user R u)) (fun lu => bind (lift (col o)) (fun oi =>
    match lu, oi with
    | Some id, Some i => callback id i
    | _, _ => fail UserNotFound
    end)))).
  (* storage.rs:1393-1417 *)
  Definition add_permission_group_to_user (user group : nameable) : comp W unit :=
    update_user_with_named_id (group_id R) user group (fun u g =>
      bind (check_permission s (user_resource u) ModifyUserPermissionGroups) (fun _ => raw_add_group R u g)).
  (* storage.rs:1419-1445 *)
  Definition remove_permission_group_from_user (user group : nameable) : comp W unit :=
    update_user_with_named_id (group_id R) user group (fun u g =>
      bind (check_permission s (user_resource u) ModifyUserPermissionGroups) (fun _ => raw_remove_group R u g)).
  (* storage.rs:1447-1464; the role is looked up among the permission groups *)
  Definition add_role_to_user (user role : nameable) : comp W unit :=
    update_user_with_named_id (group_id R) user role (fun u r =>
      bind (check_permission s (user_resource u) ModifyUserRoles) (fun _ => raw_add_role R u r)).
  (* storage.rs:1466-1484 *)
  Definition remove_role_from_user (user role : nameable) : comp W unit :=
    update_user_with_named_id (role_id R) user role (fun u r =>
      bind (check_permission s (user_resource u) ModifyUserRoles) (fun _ => raw_remove_role R u r)).
End Storage.
