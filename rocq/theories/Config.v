(* What a storage and a server are opened with: crates/bonsaidb-local/src/config.rs:22-160
   (StorageConfiguration, Tasks), 340-474 (Builder and its implementation), storage.rs:265-357
   (open: what becomes of each setting), 371-425 (lookup_or_create_id: which file), 442-444,
   492-510 (register_schema); crates/bonsaidb-server/src/config.rs:20-336 (ServerConfiguration,
   its own Builder implementation, BonsaiListenConfig); server.rs:106-205 (open); cli/serve.rs.
   Simplified: paths, keys, ids and the like are byte strings or numbers; permissions are a list of
   statements, each a number; a schema is the number of its opener, or none if its schematic is
   invalid; features encryption, compression, password-hashing and acme are on. *)
From Verif Require Import Base.
From Coq Require String Ascii.
Import String.StringSyntax.
Local Open Scope string_scope.
Definition text (s : String.string) : bytes := map Ascii.N_of_ascii (String.list_ascii_of_string s).
Definition s_db : bytes := Eval compute in text "db.bonsaidb".
Definition s_vault_keys : bytes := Eval compute in text "vault-keys".
Definition s_master_keys : bytes := Eval compute in text "master-keys".
Definition s_storage_id : bytes := Eval compute in text "storage-id".
Definition s_server_id : bytes := Eval compute in text "server-id".
Definition s_bonsaidb : bytes := Eval compute in text "bonsaidb".
Definition s_letsencrypt : bytes := Eval compute in text "https://acme-v02.api.letsencrypt.org/directory".
Local Open Scope N_scope.

(* a HashMap and its insert *)
Definition insert {V} (n : bytes) (v : V) (l : list (bytes * V)) : list (bytes * V) :=
  (n, v) :: filter (fun p : bytes * V => negb (bytes_eqb (fst p) n)) l.
Definition lookup {V} (n : bytes) (l : list (bytes * V)) : option V :=
  option_map snd (find (fun p : bytes * V => bytes_eqb (fst p) n) l).

(* sysinfo: the cores, if known, and the logical processors *)
Record system := mk_system { physical : option N; logical : N }.
(* Tasks::default_for, config.rs:161-173 *)
Definition num_cpus (y : system) : N := N.max (N.max (match physical y with Some n => n | None => 0 end) (logical y)) 1.

(* StorageConfiguration, config.rs:25-82; c_argon: None is the default *)
Record storage_config := mk_storage {
  c_path : option bytes; c_memory : bool; c_id : option N; c_vault : option N; c_key : option N;
  c_workers : N; c_parallel : N; c_check : bool; c_persist : N; c_compression : option N;
  c_permissions : list N; c_argon : option N; c_schemas : list (bytes * N) }.
Section Defaults.
Variable immediate : N.    (* KeyValuePersistence::default() *)
(* 84-111 *)
Definition default_storage (y : system) : storage_config :=
  mk_storage None false None None None (num_cpus y * 2) (num_cpus y) false immediate None [] None [].
End Defaults.
Inductive setting :=
| WithSchema (n : bytes) (opener : option N) | MemoryOnly | Path (p : bytes) | UniqueId (i : N) | VaultKeyStorage (v : N)
| EncryptionKey (k : N) | DefaultCompression (a : N) | WorkerCount (n : N) | Parallelization (n : N) | CheckOnOpen (b : bool)
| Persistence (p : N) | AuthenticatedPermissions (l : list N) | Argon (a : N).
(* impl Builder for StorageConfiguration, config.rs:397-474; None: the error of with_schema *)
Definition set (c : storage_config) (o : setting) : option storage_config :=
  let '(mk_storage p m i v k w x b s z a g h) := c in
  match o with
  | WithSchema n (Some u) => Some (mk_storage p m i v k w x b s z a g (insert n u h))
  | WithSchema n None => None
  | MemoryOnly => Some (mk_storage p true i v k w x b s z a g h)
  | Path p => Some (mk_storage (Some p) m i v k w x b s z a g h)
  | UniqueId i => Some (mk_storage p m (Some i) v k w x b s z a g h)
  | VaultKeyStorage v => Some (mk_storage p m i (Some v) k w x b s z a g h)
  | EncryptionKey k => Some (mk_storage p m i v (Some k) w x b s z a g h)
  | DefaultCompression z => Some (mk_storage p m i v k w x b s (Some z) a g h)
  | WorkerCount w => Some (mk_storage p m i v k w x b s z a g h)
  | Parallelization x => Some (mk_storage p m i v k w x b s z a g h)
  | CheckOnOpen b => Some (mk_storage p m i v k w x b s z a g h)
  | Persistence s => Some (mk_storage p m i v k w x b s z a g h)
  | AuthenticatedPermissions a => Some (mk_storage p m i v k w x b s z a g h)
  | Argon g => Some (mk_storage p m i v k w x b s z a (Some g) h)
  end.
Fixpoint configure (c : storage_config) (l : list setting) : option storage_config :=
  match l with [] => Some c | o :: r => match set c o with Some d => configure d r | None => None end end.

(* ---------- the server's configuration ---------- *)
(* DefaultPermissions, server config.rs:226-265 *)
Inductive default_permissions := AllowAll | Only (l : list N).
Record server_config := mk_server {
  s_storage : storage_config; s_name : bytes; s_limit : N; s_requests : N; s_permissions : default_permissions;
  s_email : option bytes; s_directory : bytes; s_apis : list (bytes * N) }.
(* default_for, 50-66, 202-209 *)
Definition default_server (d : storage_config) : server_config := mk_server d s_bonsaidb 16 16 (Only []) None s_letsencrypt [].
Inductive server_setting :=
| OfStorage (o : setting)    (* a method of Builder *)
| ServerName (n : bytes) | RequestLimit (n : N) | RequestWorkers (n : N) | DefaultPermissions (p : default_permissions)
| AcmeEmail (e : bytes) | AcmeDirectory (d : bytes) | WithApi (n : bytes) (h : N).
(* impl Builder for ServerConfiguration, 267-343: each method assigns the field itself *)
Definition set_builder (c : storage_config) (o : setting) : option storage_config :=
  match o with
  | WithSchema n None => None
  | WithSchema n (Some u) => Some (mk_storage (c_path c) (c_memory c) (c_id c) (c_vault c) (c_key c) (c_workers c) (c_parallel c) (c_check c) (c_persist c) (c_compression c) (c_permissions c) (c_argon c) (insert n u (c_schemas c)))
  | MemoryOnly => Some (mk_storage (c_path c) true (c_id c) (c_vault c) (c_key c) (c_workers c) (c_parallel c) (c_check c) (c_persist c) (c_compression c) (c_permissions c) (c_argon c) (c_schemas c))
  | Path p => Some (mk_storage (Some p) (c_memory c) (c_id c) (c_vault c) (c_key c) (c_workers c) (c_parallel c) (c_check c) (c_persist c) (c_compression c) (c_permissions c) (c_argon c) (c_schemas c))
  | UniqueId i => Some (mk_storage (c_path c) (c_memory c) (Some i) (c_vault c) (c_key c) (c_workers c) (c_parallel c) (c_check c) (c_persist c) (c_compression c) (c_permissions c) (c_argon c) (c_schemas c))
  | VaultKeyStorage v => Some (mk_storage (c_path c) (c_memory c) (c_id c) (Some v) (c_key c) (c_workers c) (c_parallel c) (c_check c) (c_persist c) (c_compression c) (c_permissions c) (c_argon c) (c_schemas c))
  | EncryptionKey k => Some (mk_storage (c_path c) (c_memory c) (c_id c) (c_vault c) (Some k) (c_workers c) (c_parallel c) (c_check c) (c_persist c) (c_compression c) (c_permissions c) (c_argon c) (c_schemas c))
  | DefaultCompression z => Some (mk_storage (c_path c) (c_memory c) (c_id c) (c_vault c) (c_key c) (c_workers c) (c_parallel c) (c_check c) (c_persist c) (Some z) (c_permissions c) (c_argon c) (c_schemas c))
  | WorkerCount w => Some (mk_storage (c_path c) (c_memory c) (c_id c) (c_vault c) (c_key c) w (c_parallel c) (c_check c) (c_persist c) (c_compression c) (c_permissions c) (c_argon c) (c_schemas c))
  | Parallelization x => Some (mk_storage (c_path c) (c_memory c) (c_id c) (c_vault c) (c_key c) (c_workers c) x (c_check c) (c_persist c) (c_compression c) (c_permissions c) (c_argon c) (c_schemas c))
  | CheckOnOpen b => Some (mk_storage (c_path c) (c_memory c) (c_id c) (c_vault c) (c_key c) (c_workers c) (c_parallel c) b (c_persist c) (c_compression c) (c_permissions c) (c_argon c) (c_schemas c))
  | Persistence s => Some (mk_storage (c_path c) (c_memory c) (c_id c) (c_vault c) (c_key c) (c_workers c) (c_parallel c) (c_check c) s (c_compression c) (c_permissions c) (c_argon c) (c_schemas c))
  | AuthenticatedPermissions a => Some (mk_storage (c_path c) (c_memory c) (c_id c) (c_vault c) (c_key c) (c_workers c) (c_parallel c) (c_check c) (c_persist c) (c_compression c) a (c_argon c) (c_schemas c))
  | Argon g => Some (mk_storage (c_path c) (c_memory c) (c_id c) (c_vault c) (c_key c) (c_workers c) (c_parallel c) (c_check c) (c_persist c) (c_compression c) (c_permissions c) (Some g) (c_schemas c))
  end.
(* and the server's own methods, 73-160 *)
Definition set_server (c : server_config) (o : server_setting) : option server_config :=
  let '(mk_server d n l w p e u a) := c in
  match o with
  | OfStorage o => option_map (fun d => mk_server d n l w p e u a) (set_builder d o)
  | ServerName n => Some (mk_server d n l w p e u a)
  | RequestLimit l => Some (mk_server d n l w p e u a)
  | RequestWorkers w => Some (mk_server d n l w p e u a)
  | DefaultPermissions p => Some (mk_server d n l w p e u a)
  | AcmeEmail e => Some (mk_server d n l w p (Some e) u a)
  | AcmeDirectory u => Some (mk_server d n l w p e u a)
  | WithApi m h => Some (mk_server d n l w p e u (insert m h a))
  end.
Fixpoint configure_server (c : server_config) (l : list server_setting) : option server_config :=
  match l with [] => Some c | o :: r => match set_server c o with Some d => configure_server d r | None => None end end.

(* ---------- opening ---------- *)
(* what the storage is given. o_files: the files and folders it uses on the disk besides the
   folders of the databases; o_disk: the databases are on the disk *)
Record opened := mk_opened {
  o_path : bytes; o_disk : bool; o_files : list (list bytes); o_vault : option N; o_workers : N; o_parallel : N;
  o_check : bool; o_schemas : list (bytes * N) }.
Section Open.
Variables (admin_name : bytes) (admin : N).
(* Storage::open, 265-357; [old]: the folder has a server-id. None: the Admin schema's name is taken *)
Definition open (old : bool) (c : storage_config) : option opened :=
  let path := match c_path c with Some p => p | None => s_db end in
  match lookup admin_name (c_schemas c) with
  | Some _ => None
  | None => Some (mk_opened path (negb (c_memory c))
      ([path] :: [path; if old then s_server_id else s_storage_id] :: [path; s_master_keys] ::
       match c_vault c with Some _ => [] | None => [[path; s_vault_keys]] end)
      (c_vault c) (c_workers c) (c_parallel c) (c_check c) (insert admin_name admin (c_schemas c)))
  end.
(* CustomServer::open, server.rs:106-205: Hosted is registered, then the storage opened *)
Variables (hosted_name : bytes) (hosted : N).
Record server := mk_running { r_storage : opened; r_unauthenticated : option (list N); (* None: everything *) r_limit : N; r_domain : bytes }.
Definition open_server (old : bool) (c : server_config) : option server :=
  match set_builder (s_storage c) (WithSchema hosted_name (Some hosted)) with
  | None => None
  | Some d =>
      match open old d with
      | None => None
      | Some o => Some (mk_running o (match s_permissions c with AllowAll => None | Only l => Some l end) (s_limit c) (s_name c))
      end
  end.
End Open.

(* ---------- serve, cli/serve.rs:50-108 ---------- *)
Inductive host := Unspecified | Host (h : bytes).
Record address := mk_address { a_host : host; a_port : N }.
Record flags := mk_flags { f_listen : option address; f_reuse : option bool; f_http : option address; f_https : option address }.
(* the three sockets; BonsaiListenConfig::default is config.rs:308-315 *)
Definition sockets (f : flags) : list address :=
  [ match f_http f with Some a => a | None => mk_address Unspecified 80 end;
    match f_https f with Some a => a | None => mk_address Unspecified 443 end;
    match f_listen f with Some a => a | None => mk_address Unspecified 5645 end ].
Definition reuses (f : flags) : bool := match f_reuse f with Some b => b | None => false end.
(* the sockets that are bound, and the result of serve when the server is told to shut down
   ([down]: the result of that). Each listener runs in a task of its own whose result is dropped *)
Definition serve (bindable : address -> bool) (f : flags) (down : bool) : list address * bool := (filter bindable (sockets f), down).
