(* The same call through every way of reaching a database: blocking (Storage,
   Database), async (AsyncStorage, AsyncDatabase), inside a server (CustomServer,
   ServerDatabase), over the network (AsyncClient, AsyncRemoteDatabase and their
   blocking counterparts, the server's API registry and handlers) and
   AnyServerConnection / AnyDatabase.

   Simplifications. Values no layer looks into (documents, ranges, view names,
   transactions, results ...) are numbers standing for them. A computation
   changes a world [W], which holds everything: files, sessions, the state of the
   connection. The network is reliable here: what a client sends is handled once
   by the server and the answer is delivered (the transport has its own models,
   ClientWorker.v and ServerQueue.v). *)
From Coq Require Import String.
From Verif Require Import Base.
Close Scope string_scope.
Local Open Scope list_scope.

Definition name := bytes.     (* database names, user names *)
Definition value := N.        (* a value no layer looks into *)
Definition topic := bytes.
Definition payload := bytes.
Definition apiname := (string * string)%type. (* ApiName: authority and name, api.rs *)

(* ---------- errors ---------- *)
(* bonsaidb_core::Error, core/src/lib.rs:40-150. The kinds no layer creates are [CoreError]. *)
Inductive core_error :=
| CoreError (n : N) | ApiNotFound (a : apiname) | CorePermissionDenied | Serialization | Other (origin : string) (n : N) | RequestTimeout.
(* bonsaidb_local::Error, local/src/error.rs:10-75 *)
Inductive local_error := LCore (e : core_error) | LView (e : core_error) | LTaskJoin | LOther (n : N).
(* bonsaidb_server::Error, server/src/error.rs:10-56 *)
Inductive server_error := SCore (e : core_error) | SDatabase (e : local_error) | SIo (n : N) | SWebSocket (n : N) | SOther (n : N).
(* bonsaidb_client::Error, client/src/error.rs:6-38 *)
Inductive client_error := CCore (e : core_error) | COther (n : N).
(* client ApiError, client/src/error.rs:137-146; server HandlerError, server/src/api.rs:66-76 *)
Inductive api_error (E : Type) := EApi (e : E) | EClient (e : client_error).
Inductive handler_error (E : Type) := HApi (e : E) | HServer (e : server_error).
Arguments EApi {E}. Arguments EClient {E}. Arguments HApi {E}. Arguments HServer {E}.

(* From<local Error> for core Error, local/src/error.rs:127-134 *)
Definition local_to_core (e : local_error) : core_error :=
  match e with LView c | LCore c => c | LTaskJoin => Other "bonsaidb-local" 0 | LOther n => Other "bonsaidb-local" n end.
(* From<server Error> for core Error, server/src/error.rs:65-78 *)
Definition server_to_core (e : server_error) : core_error :=
  match e with
  | SCore c | SDatabase (LCore c) => c
  | SDatabase s => local_to_core s
  | SIo n => Other "io" n
  | SWebSocket n => Other "bonsaidb-server websockets" n
  | SOther n => Other "bonsaidb-server" n
  end.
(* From<client Error> for core Error, client/src/error.rs:82-89 *)
Definition client_to_core (e : client_error) : core_error := match e with CCore c => c | COther n => Other "bonsaidb-client" n end.
(* From<ApiError<core Error>> for core Error, client/src/error.rs:148-155 *)
Definition api_to_core (e : api_error core_error) : core_error := match e with EApi c => c | EClient c => client_to_core c end.

(* ---------- computations ---------- *)
Definition comp (W A E : Type) := W -> W * outcome A E.
Definition M (W A : Type) := comp W A core_error.
Definition ret {W A E} (a : A) : comp W A E := fun w => (w, Done a).
Definition fail {W A E} (e : E) : comp W A E := fun w => (w, Fail e).
(* the ? operator *)
Definition bind {W A B E} (m : comp W A E) (f : A -> comp W B E) : comp W B E := fun w =>
  let '(w1, r) := m w in match r with Done a => f a w1 | Fail e => (w1, Fail e) | Panic => (w1, Panic) end.
Definition map_err {W A E F} (g : E -> F) (m : comp W A E) : comp W A F := fun w =>
  let '(w1, r) := m w in (w1, match r with Done a => Done a | Fail e => Fail (g e) | Panic => Panic end).
Definition map_ok {W A B E} (g : A -> B) (m : comp W A E) : comp W B E := fun w =>
  let '(w1, r) := m w in (w1, match r with Done a => Done (g a) | Fail e => Fail e | Panic => Panic end).
(* Runtime::spawn_blocking(..).await.map_err(Error::from)?: a panic of the task becomes a JoinError. *)
Definition spawn_blocking {W A} (m : M W A) : M W A := fun w =>
  let '(w1, r) := m w in (w1, match r with Panic => Fail (local_to_core LTaskJoin) | _ => r end).

(* A user, group or role as the caller named it: Nameable::name() is checked and
   may be refused, core/src/schema/named.rs. *)
Definition nameable := outcome value core_error.
Definition named {W A} (n : nameable) (f : value -> M W A) : M W A :=
  match n with Done v => f v | Fail e => fail e | Panic => fun w => (w, Panic) end.

(* ---------- the operations, as every layer offers them ---------- *)
(* Connection 23-130, LowLevelConnection 740-1010 (core/src/connection.rs), KeyValue
   (keyvalue.rs), PubSub (pubsub.rs) and their async versions. A subscriber is its id. *)
Record db_ops (W D : Type) := mk_db {
  list_executed_transactions : D -> option N -> option N -> M W (list value);
  last_transaction_id : D -> M W (option N);
  compact : D -> M W unit;
  compact_key_value_store : D -> M W unit;
  compact_collection_by_name : D -> value -> M W unit;
  apply_transaction : D -> value -> M W (list value);
  get_from_collection : D -> value -> value -> M W (option value);
  get_multiple_from_collection : D -> list value -> value -> M W (list value);
  list_from_collection : D -> value -> value -> option N -> value -> M W (list value);
  list_headers_from_collection : D -> value -> value -> option N -> value -> M W (list value);
  count_from_collection : D -> value -> value -> M W N;
  query_by_name : D -> value -> option value -> value -> option N -> value -> M W (list value);
  query_by_name_with_docs : D -> value -> option value -> value -> option N -> value -> M W value;
  reduce_by_name : D -> value -> option value -> value -> M W bytes;
  reduce_grouped_by_name : D -> value -> option value -> value -> M W (list value);
  delete_docs_by_name : D -> value -> option value -> value -> M W N;
  execute_key_operation : D -> value -> M W value;
  create_subscriber : D -> M W N;
  publish_bytes : D -> topic -> payload -> M W unit;
  publish_bytes_to_all : D -> list topic -> payload -> M W unit
}.
Arguments mk_db {W D}. Arguments list_executed_transactions {W D}. Arguments last_transaction_id {W D}. Arguments compact {W D}.
Arguments compact_key_value_store {W D}. Arguments compact_collection_by_name {W D}. Arguments apply_transaction {W D}.
Arguments get_from_collection {W D}. Arguments get_multiple_from_collection {W D}. Arguments list_from_collection {W D}.
Arguments list_headers_from_collection {W D}. Arguments count_from_collection {W D}. Arguments query_by_name {W D}.
Arguments query_by_name_with_docs {W D}. Arguments reduce_by_name {W D}. Arguments reduce_grouped_by_name {W D}.
Arguments delete_docs_by_name {W D}. Arguments execute_key_operation {W D}. Arguments create_subscriber {W D}.
Arguments publish_bytes {W D}. Arguments publish_bytes_to_all {W D}.

(* StorageConnection / AsyncStorageConnection, core/src/connection.rs:1190-1600.
   [DB] stands for the type parameter of database::<DB>. *)
Record storage_ops (W H D : Type) := mk_storage {
  admin : H -> M W D;
  database : H -> value -> name -> M W D;
  create_database_with_schema : H -> name -> value -> bool -> M W unit;
  delete_database : H -> name -> M W unit;
  list_databases : H -> M W (list value);
  list_available_schemas : H -> M W (list value);
  create_user : H -> name -> M W N;
  delete_user : H -> nameable -> M W unit;
  set_user_password : H -> nameable -> value -> M W unit;
  authenticate : H -> value -> M W H;
  assume_identity : H -> value -> M W H;
  add_permission_group_to_user : H -> nameable -> nameable -> M W unit;
  remove_permission_group_from_user : H -> nameable -> nameable -> M W unit;
  add_role_to_user : H -> nameable -> nameable -> M W unit;
  remove_role_from_user : H -> nameable -> nameable -> M W unit
}.
Arguments mk_storage {W H D}. Arguments admin {W H D}. Arguments database {W H D}. Arguments create_database_with_schema {W H D}.
Arguments delete_database {W H D}. Arguments list_databases {W H D}. Arguments list_available_schemas {W H D}. Arguments create_user {W H D}.
Arguments delete_user {W H D}. Arguments set_user_password {W H D}. Arguments authenticate {W H D}. Arguments assume_identity {W H D}.
Arguments add_permission_group_to_user {W H D}. Arguments remove_permission_group_from_user {W H D}.
Arguments add_role_to_user {W H D}. Arguments remove_role_from_user {W H D}.

(* ---------- local, blocking ---------- *)
(* What the rest of the model assumes of the blocking implementation: nothing,
   except how the last transaction id is guarded. [cur]: Roots::transactions()
   .current_transaction_id(); [may]: check_permission(GetLastId) succeeds. *)
Record local (W H D : Type) := mk_local {
  l_storage : storage_ops W H D;
  l_db : db_ops W D;
  cur : D -> W -> option N;
  may : D -> W -> bool;
  l_without_schema : H -> name -> comp W D local_error;  (* Storage::database_without_schema, local/src/storage.rs:366-370 *)
  session : H -> value                                   (* HasSession::session *)
}.
Arguments mk_local {W H D}. Arguments l_storage {W H D}. Arguments l_db {W H D}. Arguments cur {W H D}. Arguments may {W H D}.
Arguments l_without_schema {W H D}. Arguments session {W H D}.

(* Database::last_transaction_id, local/src/database.rs:1073-1079, in place of the field *)
Definition blocking_last_transaction_id {W H D} (L : local W H D) (d : D) : M W (option N) := fun w =>
  if may L d w then (w, Done (cur L d w)) else (w, Fail CorePermissionDenied).
Definition blocking_db {W H D} (L : local W H D) : db_ops W D := let o := l_db L in
  mk_db (list_executed_transactions o) (blocking_last_transaction_id L) (compact o) (compact_key_value_store o)
    (compact_collection_by_name o) (apply_transaction o) (get_from_collection o) (get_multiple_from_collection o)
    (list_from_collection o) (list_headers_from_collection o) (count_from_collection o) (query_by_name o)
    (query_by_name_with_docs o) (reduce_by_name o) (reduce_grouped_by_name o) (delete_docs_by_name o)
    (execute_key_operation o) (create_subscriber o) (publish_bytes o) (publish_bytes_to_all o).

(* ---------- local, async: local/src/async.rs ---------- *)
Section Async.
  Context {W H D : Type}.
  Variable L : local W H D.
  Let b := blocking_db L.
  Let s := l_storage L.
  (* AsyncDatabase, async.rs:600-900 *)
  Definition async_db : db_ops W D := {|
    list_executed_transactions d starting_id result_limit := spawn_blocking (list_executed_transactions b d starting_id result_limit);
    last_transaction_id d := fun w => (w, Done (cur L d w));  (* no permission check *)
    compact d := spawn_blocking (compact b d);
    compact_key_value_store d := spawn_blocking (compact_key_value_store b d);
    compact_collection_by_name d collection := spawn_blocking (compact_collection_by_name b d collection);
    apply_transaction d transaction := spawn_blocking (apply_transaction b d transaction);
    get_from_collection d id collection := spawn_blocking (get_from_collection b d id collection);
    get_multiple_from_collection d ids collection := spawn_blocking (get_multiple_from_collection b d ids collection);
    list_from_collection d ids order limit collection := spawn_blocking (list_from_collection b d ids order limit collection);
    list_headers_from_collection d ids order limit collection := spawn_blocking (list_headers_from_collection b d ids order limit collection);
    count_from_collection d ids collection := spawn_blocking (count_from_collection b d ids collection);
    query_by_name d view key order limit policy := spawn_blocking (query_by_name b d view key order limit policy);
    query_by_name_with_docs d view key order limit policy := spawn_blocking (query_by_name_with_docs b d view key order limit policy);
    reduce_by_name d view key policy := spawn_blocking (reduce_by_name b d view key policy);
    reduce_grouped_by_name d view key policy := spawn_blocking (reduce_grouped_by_name b d view key policy);
    delete_docs_by_name d view key policy := spawn_blocking (delete_docs_by_name b d view key policy);
    execute_key_operation d op := spawn_blocking (execute_key_operation b d op);
    create_subscriber d := create_subscriber b d;
    publish_bytes d topic payload := publish_bytes b d topic payload;
    publish_bytes_to_all d topics payload := publish_bytes_to_all b d topics payload
  |}.
  (* AsyncStorage, async.rs:352-597. admin(): the JoinError is unwrapped. *)
  Definition async_storage : storage_ops W H D := {|
    admin h := admin s h;
    database h DB name := spawn_blocking (database s h DB name);
    create_database_with_schema h name schema only_if_needed := spawn_blocking (create_database_with_schema s h name schema only_if_needed);
    delete_database h name := spawn_blocking (delete_database s h name);
    list_databases h := spawn_blocking (list_databases s h);
    list_available_schemas h := spawn_blocking (list_available_schemas s h);
    create_user h username := spawn_blocking (create_user s h username);
    delete_user h user := named user (fun u => spawn_blocking (delete_user s h (Done u)));
    set_user_password h user password := named user (fun u => spawn_blocking (set_user_password s h (Done u) password));
    authenticate h authentication := spawn_blocking (authenticate s h authentication);
    assume_identity h identity := spawn_blocking (assume_identity s h identity);
    add_permission_group_to_user h user group :=
      named user (fun u => named group (fun g => spawn_blocking (add_permission_group_to_user s h (Done u) (Done g))));
    remove_permission_group_from_user h user group :=
      named user (fun u => named group (fun g => spawn_blocking (remove_permission_group_from_user s h (Done u) (Done g))));
    add_role_to_user h user role := named user (fun u => named role (fun g => spawn_blocking (add_role_to_user s h (Done u) (Done g))));
    remove_role_from_user h user role := named user (fun u => named role (fun g => spawn_blocking (remove_role_from_user s h (Done u) (Done g))))
  |}.
  (* AsyncStorage::database_without_schema, async.rs:166-179 *)
  Definition async_without_schema (h : H) (n : name) : comp W D local_error := fun w =>
    let '(w1, r) := l_without_schema L h n w in (w1, match r with Panic => Fail LTaskJoin | _ => r end).
End Async.

(* ---------- inside a server: server/src/server/database.rs:60-264, server.rs:893-1040 ---------- *)
Section Server.
  Context {W H D : Type}.
  Variable admin_schema : value.
  Variable admin_name : name.
  Variable L : local W H D.
  Let a := async_db L.
  Let s := async_storage L.
  (* ServerDatabase: the handle is the AsyncDatabase's *)
  Definition server_db : db_ops W D := {|
    list_executed_transactions d starting_id result_limit := list_executed_transactions a d starting_id result_limit;
    last_transaction_id d := last_transaction_id a d;
    compact d := compact a d;
    compact_key_value_store d := compact_key_value_store a d;
    compact_collection_by_name d collection := compact_collection_by_name a d collection;
    apply_transaction d transaction := apply_transaction a d transaction;
    get_from_collection d id collection := get_from_collection a d id collection;
    get_multiple_from_collection d ids collection := get_multiple_from_collection a d ids collection;
    list_from_collection d ids order limit collection := list_from_collection a d ids order limit collection;
    list_headers_from_collection d ids order limit collection := list_headers_from_collection a d ids order limit collection;
    count_from_collection d ids collection := count_from_collection a d ids collection;
    query_by_name d view key order limit policy := query_by_name a d view key order limit policy;
    query_by_name_with_docs d view key order limit policy := query_by_name_with_docs a d view key order limit policy;
    reduce_by_name d view key policy := reduce_by_name a d view key policy;
    reduce_grouped_by_name d view key policy := reduce_grouped_by_name a d view key policy;
    delete_docs_by_name d view key policy := delete_docs_by_name a d view key policy;
    execute_key_operation d op := execute_key_operation a d op;
    create_subscriber d := create_subscriber a d;
    publish_bytes d topic payload := publish_bytes a d topic payload;
    publish_bytes_to_all d topics payload := publish_bytes_to_all a d topics payload
  |}.
  (* admin(): the error of database::<Admin> is unwrapped, server.rs:898-900 *)
  Definition server_storage : storage_ops W H D := {|
    admin h := fun w => let '(w1, r) := database s h admin_schema admin_name w in (w1, match r with Done d => Done d | _ => Panic end);
    database h DB name := database s h DB name;
    create_database_with_schema h name schema only_if_needed := create_database_with_schema s h name schema only_if_needed;
    delete_database h name := delete_database s h name;
    list_databases h := list_databases s h;
    list_available_schemas h := list_available_schemas s h;
    create_user h username := create_user s h username;
    delete_user h user := delete_user s h user;
    set_user_password h user password := set_user_password s h user password;
    authenticate h authentication := authenticate s h authentication;
    assume_identity h identity := assume_identity s h identity;
    add_permission_group_to_user h user group := add_permission_group_to_user s h user group;
    remove_permission_group_from_user h user group := remove_permission_group_from_user s h user group;
    add_role_to_user h user role := add_role_to_user s h user role;
    remove_role_from_user h user role := remove_role_from_user s h user role
  |}.
End Server.

(* ---------- the APIs: core/src/networking.rs:24-660 ---------- *)
Inductive api :=
| CreateDatabase | DeleteDatabase | ListDatabases | ListAvailableSchemas | CreateUser | DeleteUser | SetUserPassword | Authenticate
| AssumeIdentity | LogOutSession | AlterUserPermissionGroupMembership | AlterUserRoleMembership
| Get | GetMultiple | List | ListHeaders | Count | Query | QueryWithDocs | Reduce | ReduceGrouped | DeleteDocs
| ApplyTransaction | ListExecutedTransactions | LastTransactionId | CreateSubscriber | Publish | PublishToAll
| SubscribeTo | UnsubscribeFrom | UnregisterSubscriber | ExecuteKeyOperation | CompactCollection | CompactKeyValueStore | Compact.

(* Api::name() of each *)
Definition local_name (a : api) : string :=
  match a with
  | CreateDatabase => "CreateDatabase" | DeleteDatabase => "DeleteDatabase" | ListDatabases => "ListDatabases"
  | ListAvailableSchemas => "ListAvailableSchemas" | CreateUser => "CreateUser" | DeleteUser => "DeleteUser"
  | SetUserPassword => "SetUserPassword" | Authenticate => "Authenticate" | AssumeIdentity => "AssumeIdentity"
  | LogOutSession => "LogOutSession" | AlterUserPermissionGroupMembership => "AlterUserPermissionGroupMembership"
  | AlterUserRoleMembership => "AlterUserRoleMembership" | Get => "Get" | GetMultiple => "GetMultiple" | List => "List"
  | ListHeaders => "ListHeaders" | Count => "Count" | Query => "Query" | QueryWithDocs => "QueryWithDocs" | Reduce => "Reduce"
  | ReduceGrouped => "ReduceGrouped" | DeleteDocs => "DeleteDocs" | ApplyTransaction => "ApplyTransaction"
  | ListExecutedTransactions => "ListExecutedTransactions" | LastTransactionId => "LastTransactionId"
  | CreateSubscriber => "CreateSubscriber" | Publish => "Publish" | PublishToAll => "PublishToAll" | SubscribeTo => "SubscribeTo"
  | UnsubscribeFrom => "UnsubscribeFrom" | UnregisterSubscriber => "UnregisterSubscriber" | ExecuteKeyOperation => "ExecuteKeyOperation"
  | CompactCollection => "CompactCollection" | CompactKeyValueStore => "CompactKeyValueStore" | Compact => "Compact"
  end%string.
Definition api_name (a : api) : apiname := ("bonsaidb"%string, local_name a).

(* The fields of each request, in the order of the struct *)
Definition req (a : api) : Type :=
  match a with
  | CreateDatabase => (name * value * bool)                     (* database.name, database.schema, only_if_needed *)
  | DeleteDatabase => name
  | ListDatabases | ListAvailableSchemas => unit
  | CreateUser => name
  | DeleteUser => value
  | SetUserPassword => (value * value)                          (* user, password *)
  | Authenticate => value
  | AssumeIdentity => value
  | LogOutSession => N
  | AlterUserPermissionGroupMembership => (value * value * bool) (* user, group, should_be_member *)
  | AlterUserRoleMembership => (value * value * bool)            (* user, role, should_be_member *)
  | Get => (name * value * value)                               (* database, collection, id *)
  | GetMultiple => (name * value * list value)                  (* database, collection, ids *)
  | List | ListHeaders => (name * value * value * value * option N) (* database, collection, ids, order, limit *)
  | Count => (name * value * value)                             (* database, collection, ids *)
  | Query | QueryWithDocs => (name * value * option value * value * option N * value) (* database, view, key, order, limit, access_policy *)
  | Reduce | ReduceGrouped | DeleteDocs => (name * value * option value * value)      (* database, view, key, access_policy *)
  | ApplyTransaction => (name * value)
  | ListExecutedTransactions => (name * option N * option N)    (* database, starting_id, result_limit *)
  | LastTransactionId => name
  | CreateSubscriber => name
  | Publish => (name * topic * payload)
  | PublishToAll => (name * list topic * payload)
  | SubscribeTo | UnsubscribeFrom => (name * N * topic)         (* database, subscriber_id, topic *)
  | UnregisterSubscriber => (name * N)
  | ExecuteKeyOperation => (name * value)
  | CompactCollection => (name * value)
  | CompactKeyValueStore => name
  | Compact => name
  end%type.
(* Api::Response of each *)
Definition resp (a : api) : Type :=
  match a with
  | CreateDatabase | DeleteDatabase | DeleteUser | SetUserPassword | LogOutSession | AlterUserPermissionGroupMembership
  | AlterUserRoleMembership | Publish | PublishToAll | SubscribeTo | UnsubscribeFrom | UnregisterSubscriber
  | CompactCollection | CompactKeyValueStore | Compact => unit
  | ListDatabases | ListAvailableSchemas | GetMultiple | List | ListHeaders | Query | ReduceGrouped | ApplyTransaction
  | ListExecutedTransactions => list value
  | CreateUser | Count | DeleteDocs | CreateSubscriber => N
  | Authenticate | AssumeIdentity | QueryWithDocs | ExecuteKeyOperation => value
  | Get => option value
  | Reduce => bytes
  | LastTransactionId => option N
  end.

(* pot, type directed: the requests and the Result<Response, Error> of every API *)
Record codec := mk_codec {
  enc_req : forall a, req a -> bytes;
  dec_req : forall a, bytes -> option (req a);
  enc_resp : forall a, resp a + core_error -> bytes;
  dec_resp : forall a, bytes -> option (resp a + core_error)
}.
Definition lawful (C : codec) : Prop :=
  (forall a r, dec_req C a (enc_req C a r) = Some r) /\ (forall a r, dec_resp C a (enc_resp C a r) = Some r).

(* ---------- the server's side of a request ---------- *)
Section Network.
  Context {W H D : Type}.
  Variable L : local W H D.
  Variable C : codec.

  (* What a handler does to the connection of the client (ConnectedClient,
     server/src/backend.rs; modelled in ConnSessions.v) and the hooks of the
     Backend, whose errors are only logged. *)
  Record connection := mk_conn {
    logged_in_as : value -> W -> W;            (* and Backend::client_authenticated *)
    log_out : N -> W -> W;                     (* and Backend::client_session_ended *)
    register_subscriber : H -> N -> W -> W;
    subscribe_by_id : H -> N -> topic -> comp W unit server_error;
    unsubscribe_by_id : H -> N -> topic -> comp W unit server_error;
    unregister_subscriber_by_id : H -> N -> comp W unit server_error
  }.
  Variable K : connection.

  (* HandlerError::from(core Error): Server(Error::Core), api.rs:84-88 *)
  Definition from_core {E} (e : core_error) : handler_error E := HServer (SCore e).
  (* HandlerError::from(local Error), api.rs:90-94 *)
  Definition from_local {E} (e : local_error) : handler_error E := HServer (SDatabase e).
  Definition herr := handler_error core_error.
  (* session.as_client.database_without_schema(name).await?, then the call with map_err(HandlerError::from) *)
  Definition on_database {A} (h : H) (n : name) (f : D -> M W A) : comp W A herr :=
    bind (map_err from_local (async_without_schema L h n)) (fun d => map_err from_core (f d)).
  Definition effect {A E} (g : A -> W -> W) (m : comp W A E) : comp W A E :=
    bind m (fun x w => (g x w, Done x)).

  (* impl Handler<A> for ServerDispatcher, server/src/dispatch.rs:93-700 *)
  Definition handle (h : H) (a : api) : req a -> comp W (resp a) herr :=
    let s := async_storage L in let d := async_db L in
    match a return req a -> comp W (resp a) herr with
    | CreateDatabase => fun '(n, schema, only_if_needed) => map_err from_core (create_database_with_schema s h n schema only_if_needed)
    | DeleteDatabase => fun n => map_err from_core (delete_database s h n)
    | ListDatabases => fun _ => map_err from_core (list_databases s h)
    | ListAvailableSchemas => fun _ => map_err from_core (list_available_schemas s h)
    | CreateUser => fun username => map_err from_core (create_user s h username)
    | DeleteUser => fun user => map_err from_core (delete_user s h (Done user))
    | SetUserPassword => fun '(user, password) => map_err from_core (set_user_password s h (Done user) password)
    | Authenticate => fun authentication =>
        effect (logged_in_as K) (map_ok (session L) (map_err from_core (authenticate s h authentication)))
    | AssumeIdentity => fun identity =>
        effect (logged_in_as K) (map_ok (session L) (map_err from_core (assume_identity s h identity)))
    | LogOutSession => fun id w => (log_out K id w, Done tt)
    | AlterUserPermissionGroupMembership => fun '(user, group, should_be_member) =>
        if (should_be_member : bool) then map_err from_core (add_permission_group_to_user s h (Done user) (Done group))
        else map_err from_core (remove_permission_group_from_user s h (Done user) (Done group))
    | AlterUserRoleMembership => fun '(user, role, should_be_member) =>
        if (should_be_member : bool) then map_err from_core (add_role_to_user s h (Done user) (Done role))
        else map_err from_core (remove_role_from_user s h (Done user) (Done role))
    | Get => fun '(database, collection, id) => on_database h database (fun x => get_from_collection d x id collection)
    | GetMultiple => fun '(database, collection, ids) => on_database h database (fun x => get_multiple_from_collection d x ids collection)
    | List => fun '(database, collection, ids, order, limit) =>
        on_database h database (fun x => list_from_collection d x ids order limit collection)
    | ListHeaders => fun '(database, collection, ids, order, limit) =>
        on_database h database (fun x => list_headers_from_collection d x ids order limit collection)
    | Count => fun '(database, collection, ids) => on_database h database (fun x => count_from_collection d x ids collection)
    | Query => fun '(database, view, key, order, limit, policy) =>
        on_database h database (fun x => query_by_name d x view key order limit policy)
    | QueryWithDocs => fun '(database, view, key, order, limit, policy) =>
        on_database h database (fun x => query_by_name_with_docs d x view key order limit policy)
    | Reduce => fun '(database, view, key, policy) => on_database h database (fun x => reduce_by_name d x view key policy)
    | ReduceGrouped => fun '(database, view, key, policy) => on_database h database (fun x => reduce_grouped_by_name d x view key policy)
    | DeleteDocs => fun '(database, view, key, policy) => on_database h database (fun x => delete_docs_by_name d x view key policy)
    | ApplyTransaction => fun '(database, transaction) => on_database h database (fun x => apply_transaction d x transaction)
    | ListExecutedTransactions => fun '(database, starting_id, result_limit) =>
        on_database h database (fun x => list_executed_transactions d x starting_id result_limit)
    | LastTransactionId => fun database => on_database h database (fun x => last_transaction_id d x)
    | CreateSubscriber => fun database => effect (register_subscriber K h) (on_database h database (fun x => create_subscriber d x))
    | Publish => fun '(database, topic, payload) => on_database h database (fun x => publish_bytes d x topic payload)
    | PublishToAll => fun '(database, topics, payload) => on_database h database (fun x => publish_bytes_to_all d x topics payload)
    | SubscribeTo => fun '(_, id, topic) => map_err HServer (subscribe_by_id K h id topic)
    | UnsubscribeFrom => fun '(_, id, topic) => map_err HServer (unsubscribe_by_id K h id topic)
    | UnregisterSubscriber => fun '(_, id) => map_err HServer (unregister_subscriber_by_id K h id)
    | ExecuteKeyOperation => fun '(database, op) => on_database h database (fun x => execute_key_operation d x op)
    | CompactCollection => fun '(database, name) => on_database h database (fun x => compact_collection_by_name d x name)
    | CompactKeyValueStore => fun database => on_database h database (fun x => compact_key_value_store d x)
    | Compact => fun database => on_database h database (fun x => compact d x)
    end.

  (* AnyHandler: what the registry holds, api.rs:29-32 *)
  Definition any_handler := H -> bytes -> comp W bytes server_error.
  (* AnyWrapper::handle, api.rs:48-64. [dec], [enc]: pot for the API's request and its Result *)
  Definition any_wrapper {A R E} (dec : bytes -> option A) (enc : R + E -> bytes) (f : H -> A -> comp W R (handler_error E)) : any_handler :=
    fun h request w =>
      match dec request with
      | None => (w, Fail (SCore Serialization))
      | Some r =>
          let '(w1, o) := f h r w in
          (w1, match o with
               | Done x => Done (enc (inl x))
               | Fail (HApi e) => Done (enc (inr e))
               | Fail (HServer e) => Fail e
               | Panic => Panic
               end)
      end.
  Definition builtin (a : api) : any_handler := any_wrapper (dec_req C a) (enc_resp C a) (fun h r => handle h a r).

  (* custom_apis: HashMap<ApiName, Arc<dyn AnyHandler>>, config.rs:40 *)
  Definition registry := list (apiname * any_handler).
  Definition apiname_eqb (x y : apiname) : bool := (fst x =? fst y)%string && (snd x =? snd y)%string.
  (* register_custom_api, config.rs:115-125: insert replaces *)
  Definition register (r : registry) (n : apiname) (f : any_handler) : registry :=
    (n, f) :: filter (fun e => negb (apiname_eqb (fst e) n)) r.
  Definition lookup (r : registry) (n : apiname) : option any_handler :=
    option_map snd (find (fun e => apiname_eqb (fst e) n) r).
  (* the order of register_api_handlers, dispatch.rs:24-72; the last two with the feature "password-hashing" *)
  Definition builtins (password_hashing : bool) : list api :=
    [AlterUserPermissionGroupMembership; AlterUserRoleMembership; ApplyTransaction; AssumeIdentity; Compact; CompactCollection;
     CompactKeyValueStore; Count; CreateDatabase; CreateSubscriber; CreateUser; DeleteDatabase; DeleteDocs; DeleteUser;
     ExecuteKeyOperation; Get; GetMultiple; LastTransactionId; List; ListHeaders; ListAvailableSchemas; ListDatabases;
     ListExecutedTransactions; LogOutSession; Publish; PublishToAll; Query; QueryWithDocs; Reduce; ReduceGrouped; SubscribeTo;
     UnregisterSubscriber; UnsubscribeFrom] ++ (if password_hashing then [Authenticate; SetUserPassword] else []).
  (* CustomServer::open, server.rs:122-127: B::configure and the caller registered
     [custom], in that order, before the built-in handlers *)
  Definition open_registry (password_hashing : bool) (custom : list (apiname * any_handler)) : registry :=
    fold_left (fun r a => register r (api_name a) (builtin a)) (builtins password_hashing)
      (fold_left (fun r e => register r (fst e) (snd e)) custom []).

  (* dispatch_api_request, dispatch.rs:77-88, and the worker, server.rs:131-156.
     [assume]: the session of the request, looked up on the connection, then
     StorageNonBlocking::assume_session (Sessions.v, ConnSessions.v). *)
  Variable assume : option N -> W -> outcome H core_error.
  Definition dispatch (r : registry) (sid : option N) (n : apiname) (request : bytes) : M W bytes := fun w =>
    match assume sid w with
    | Done h =>
        match lookup r n with
        | Some f => map_err server_to_core (f h request) w
        | None => (w, Fail (server_to_core (SCore (ApiNotFound n))))
        end
    | Fail e => (w, Fail e)
    | Panic => (w, Panic)
    end.

  (* ---------- the client's side ---------- *)
  Variable R : registry.
  (* send_request_async / send_request, client.rs:506-550: the answer of the server
     (process_response_payload 857-875); a request whose worker panicked is never answered. *)
  Definition send_request (sid : option N) (n : apiname) (request : bytes) : comp W bytes client_error := fun w =>
    let '(w1, o) := dispatch R sid n request w in
    (w1, match o with Done b => Done b | Fail e => Fail (CCore e) | Panic => Fail (CCore RequestTimeout) end).
  (* send_api_request 552-563, send_blocking_api_request 565-577 *)
  Definition send_api_request {A X E} (n : apiname) (enc : A -> bytes) (dec : bytes -> option (X + E)) (sid : option N) (r : A)
    : comp W X (api_error E) := fun w =>
    let '(w1, o) := send_request sid n (enc r) w in
    (w1, match o with
         | Done b => match dec b with Some (inl x) => Done x | Some (inr e) => Fail (EApi e) | None => Fail (EClient (CCore Serialization)) end
         | Fail e => Fail (EClient e)
         | Panic => Panic
         end).
  (* Ok(self.send_api_request(&request).await?) in a function returning core Error *)
  Definition send (sid : option N) (a : api) (r : req a) : M W (resp a) :=
    map_err api_to_core (send_api_request (api_name a) (enc_req C a) (dec_resp C a) sid r).

  (* AsyncClient / BlockingClient: the id of its session and its session; id is None before authenticating. *)
  Record client := mk_client { c_id : option N; c_session : value }.
  Variable session_id : value -> option N. (* Session::id *)
  (* AsyncRemoteDatabase: client, name, schema *)
  Record remote_database := mk_remote { r_client : client; r_name : name; r_schema : value }.

  (* AsyncRemoteDatabase, client/remote_database.rs:62-310, pubsub.rs:14-66, keyvalue.rs:5-22;
     BlockingRemoteDatabase, client/sync.rs:317-640, sends the same requests. *)
  Definition remote_db : db_ops W remote_database := {|
    list_executed_transactions d starting_id result_limit :=
      send (c_id (r_client d)) ListExecutedTransactions (r_name d, starting_id, result_limit);
    last_transaction_id d := send (c_id (r_client d)) LastTransactionId (r_name d);
    compact d := send (c_id (r_client d)) Compact (r_name d);
    compact_key_value_store d := send (c_id (r_client d)) CompactKeyValueStore (r_name d);
    compact_collection_by_name d collection := send (c_id (r_client d)) CompactCollection (r_name d, collection);
    apply_transaction d transaction := send (c_id (r_client d)) ApplyTransaction (r_name d, transaction);
    get_from_collection d id collection := send (c_id (r_client d)) Get (r_name d, collection, id);
    get_multiple_from_collection d ids collection := send (c_id (r_client d)) GetMultiple (r_name d, collection, ids);
    list_from_collection d ids order limit collection := send (c_id (r_client d)) List (r_name d, collection, ids, order, limit);
    list_headers_from_collection d ids order limit collection := send (c_id (r_client d)) ListHeaders (r_name d, collection, ids, order, limit);
    count_from_collection d ids collection := send (c_id (r_client d)) Count (r_name d, collection, ids);
    query_by_name d view key order limit policy := send (c_id (r_client d)) Query (r_name d, view, key, order, limit, policy);
    query_by_name_with_docs d view key order limit policy := send (c_id (r_client d)) QueryWithDocs (r_name d, view, key, order, limit, policy);
    reduce_by_name d view key policy := send (c_id (r_client d)) Reduce (r_name d, view, key, policy);
    reduce_grouped_by_name d view key policy := send (c_id (r_client d)) ReduceGrouped (r_name d, view, key, policy);
    delete_docs_by_name d view key policy := send (c_id (r_client d)) DeleteDocs (r_name d, view, key, policy);
    execute_key_operation d op := send (c_id (r_client d)) ExecuteKeyOperation (r_name d, op);
    create_subscriber d := send (c_id (r_client d)) CreateSubscriber (r_name d);
    publish_bytes d topic payload := send (c_id (r_client d)) Publish (r_name d, topic, payload);
    publish_bytes_to_all d topics payload := send (c_id (r_client d)) PublishToAll (r_name d, topics, payload)
  |}.
  (* remote_database, client.rs:624-643: DB::schematic() is built, nothing is sent *)
  Variable schematic : value -> outcome value core_error.
  Variable admin_schema : value.
  Variable admin_name : name.
  Definition open_remote (c : client) (DB : value) (n : name) : M W remote_database :=
    match schematic DB with Done x => ret (mk_remote c n x) | Fail e => fail e | Panic => fun w => (w, Panic) end.
  (* AsyncClient, client.rs:660-850; BlockingClient, client/sync.rs:109-302 *)
  Definition remote_storage : storage_ops W client remote_database := {|
    admin c := fun w => let '(w1, r) := open_remote c admin_schema admin_name w in (w1, match r with Done d => Done d | _ => Panic end);
    database c DB n := open_remote c DB n;
    create_database_with_schema c n schema only_if_needed := send (c_id c) CreateDatabase (n, schema, only_if_needed);
    delete_database c n := send (c_id c) DeleteDatabase n;
    list_databases c := send (c_id c) ListDatabases tt;
    list_available_schemas c := send (c_id c) ListAvailableSchemas tt;
    create_user c username := send (c_id c) CreateUser username;
    delete_user c user := named user (fun u => send (c_id c) DeleteUser u);
    set_user_password c user password := named user (fun u => send (c_id c) SetUserPassword (u, password));
    authenticate c authentication := map_ok (fun s => mk_client (session_id s) s) (send (c_id c) Authenticate authentication);
    assume_identity c identity := map_ok (fun s => mk_client (session_id s) s) (send (c_id c) AssumeIdentity identity);
    add_permission_group_to_user c user group :=
      named user (fun u => named group (fun g => send (c_id c) AlterUserPermissionGroupMembership (u, g, true)));
    remove_permission_group_from_user c user group :=
      named user (fun u => named group (fun g => send (c_id c) AlterUserPermissionGroupMembership (u, g, false)));
    add_role_to_user c user role := named user (fun u => named role (fun g => send (c_id c) AlterUserRoleMembership (u, g, true)));
    remove_role_from_user c user role := named user (fun u => named role (fun g => send (c_id c) AlterUserRoleMembership (u, g, false)))
  |}.
  (* AsyncRemoteSubscriber, pubsub.rs:83-112; BlockingRemoteSubscriber, sync.rs *)
  Definition remote_subscribe (c : client) (database : name) (id : N) (t : topic) : M W unit := send (c_id c) SubscribeTo (database, id, t).
  Definition remote_unsubscribe (c : client) (database : name) (id : N) (t : topic) : M W unit := send (c_id c) UnsubscribeFrom (database, id, t).
  Definition remote_unregister (c : client) (database : name) (id : N) : M W unit := send (c_id c) UnregisterSubscriber (database, id).
  Definition remote_log_out (c : client) (id : N) : M W unit := send (c_id c) LogOutSession id.

  (* ---------- AnyServerConnection / AnyDatabase, bonsaidb/src/any_connection.rs ---------- *)
  Definition pick {A B X} (x : A + B) (f : A -> X) (g : B -> X) : X := match x with inl a => f a | inr b => g b end.
  (* AsyncConnection and AsyncLowLevelConnection only, 250-490: AnyDatabase offers no
     key-value store and no PubSub; those fields repeat the pattern. *)
  Definition any_db : db_ops W (D + remote_database) := let l := server_db L in let r := remote_db in {|
    list_executed_transactions d starting_id result_limit :=
      pick d (fun d => list_executed_transactions l d starting_id result_limit) (fun d => list_executed_transactions r d starting_id result_limit);
    last_transaction_id d := pick d (last_transaction_id l) (last_transaction_id r);
    compact d := pick d (compact l) (compact r);
    compact_key_value_store d := pick d (compact_key_value_store l) (compact_key_value_store r);
    compact_collection_by_name d collection :=
      pick d (fun d => compact_collection_by_name l d collection) (fun d => compact_collection_by_name r d collection);
    apply_transaction d transaction := pick d (fun d => apply_transaction l d transaction) (fun d => apply_transaction r d transaction);
    get_from_collection d id collection := pick d (fun d => get_from_collection l d id collection) (fun d => get_from_collection r d id collection);
    get_multiple_from_collection d ids collection :=
      pick d (fun d => get_multiple_from_collection l d ids collection) (fun d => get_multiple_from_collection r d ids collection);
    list_from_collection d ids order limit collection :=
      pick d (fun d => list_from_collection l d ids order limit collection) (fun d => list_from_collection r d ids order limit collection);
    list_headers_from_collection d ids order limit collection :=
      pick d (fun d => list_headers_from_collection l d ids order limit collection) (fun d => list_headers_from_collection r d ids order limit collection);
    count_from_collection d ids collection := pick d (fun d => count_from_collection l d ids collection) (fun d => count_from_collection r d ids collection);
    query_by_name d view key order limit policy :=
      pick d (fun d => query_by_name l d view key order limit policy) (fun d => query_by_name r d view key order limit policy);
    query_by_name_with_docs d view key order limit policy :=
      pick d (fun d => query_by_name_with_docs l d view key order limit policy) (fun d => query_by_name_with_docs r d view key order limit policy);
    reduce_by_name d view key policy := pick d (fun d => reduce_by_name l d view key policy) (fun d => reduce_by_name r d view key policy);
    reduce_grouped_by_name d view key policy :=
      pick d (fun d => reduce_grouped_by_name l d view key policy) (fun d => reduce_grouped_by_name r d view key policy);
    delete_docs_by_name d view key policy := pick d (fun d => delete_docs_by_name l d view key policy) (fun d => delete_docs_by_name r d view key policy);
    execute_key_operation d op := pick d (fun d => execute_key_operation l d op) (fun d => execute_key_operation r d op);
    create_subscriber d := pick d (create_subscriber l) (create_subscriber r);
    publish_bytes d topic payload := pick d (fun d => publish_bytes l d topic payload) (fun d => publish_bytes r d topic payload);
    publish_bytes_to_all d topics payload := pick d (fun d => publish_bytes_to_all l d topics payload) (fun d => publish_bytes_to_all r d topics payload)
  |}.
  (* 35-240 *)
  Definition any_storage : storage_ops W (H + client) (D + remote_database) :=
    let l := server_storage admin_schema admin_name L in let r := remote_storage in {|
    admin c := pick c (fun h => map_ok inl (admin l h)) (fun c => map_ok inr (admin r c));
    database c DB n := pick c (fun h => map_ok inl (database l h DB n)) (fun c => map_ok inr (database r c DB n));
    create_database_with_schema c n schema only_if_needed :=
      pick c (fun h => create_database_with_schema l h n schema only_if_needed) (fun c => create_database_with_schema r c n schema only_if_needed);
    delete_database c n := pick c (fun h => delete_database l h n) (fun c => delete_database r c n);
    list_databases c := pick c (list_databases l) (list_databases r);
    list_available_schemas c := pick c (list_available_schemas l) (list_available_schemas r);
    create_user c username := pick c (fun h => create_user l h username) (fun c => create_user r c username);
    delete_user c user := pick c (fun h => delete_user l h user) (fun c => delete_user r c user);
    set_user_password c user password := pick c (fun h => set_user_password l h user password) (fun c => set_user_password r c user password);
    authenticate c authentication := pick c (fun h => map_ok inl (authenticate l h authentication)) (fun c => map_ok inr (authenticate r c authentication));
    assume_identity c identity := pick c (fun h => map_ok inl (assume_identity l h identity)) (fun c => map_ok inr (assume_identity r c identity));
    add_permission_group_to_user c user group :=
      pick c (fun h => add_permission_group_to_user l h user group) (fun c => add_permission_group_to_user r c user group);
    remove_permission_group_from_user c user group :=
      pick c (fun h => remove_permission_group_from_user l h user group) (fun c => remove_permission_group_from_user r c user group);
    add_role_to_user c user role := pick c (fun h => add_role_to_user l h user role) (fun c => add_role_to_user r c user role);
    remove_role_from_user c user role := pick c (fun h => remove_role_from_user l h user role) (fun c => remove_role_from_user r c user role)
  |}.
End Network.
