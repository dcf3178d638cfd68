(* Model of bonsaidb-local/src/storage/backup.rs: backing up the databases of a
   storage to a location and restoring them. Collections and schemas are named by
   their encoded names (Names.v). Serialization of key-value entries (pot) is not
   modelled: the location keeps the entry itself. *)
From Verif Require Import Base Key KeyPrefix DocId Tree View Docs.
From Verif Require Kv.
Local Open Scope N_scope.

(* a database's schema: backup.rs:107, 143: name, schematic().collections() (in the
   order of a hash map: any order) *)
Record schema := mk_schema { sc_name : bytes; sc_colls : list bytes; sc_env : env }.
(* one database: its documents and its key-value store *)
Record dbase := mk_dbase { b_docs : dbstate; b_kv : Kv.kst }.

Inductive object := Contents (b : bytes) | KvEntry (e : Kv.entry).
(* where an object is stored: schema, database, container, name (backup.rs:22-28) *)
Record lkey := mk_lkey { l_schema : bytes; l_db : bytes; l_cont : bytes; l_name : bytes }.
Definition lkey_eqb (a b : lkey) : bool :=
  bytes_eqb (l_schema a) (l_schema b) && bytes_eqb (l_db a) (l_db b)
  && bytes_eqb (l_cont a) (l_cont b) && bytes_eqb (l_name a) (l_name b).
(* a location that keeps the contract of BackupLocation, backup.rs:15-52: storing
   replaces, listing gives what was stored, loading returns it *)
Definition location := list (lkey * object).
Definition load (l : location) (k : lkey) : option object :=
  option_map snd (find (fun p => lkey_eqb k (fst p)) l).
Definition store (l : location) (k : lkey) (o : object) : location :=
  (k, o) :: filter (fun p => negb (lkey_eqb k (fst p))) l.
Definition list_stored (l : location) (sc db c : bytes) : list bytes :=
  map (fun p => l_name (fst p))
    (filter (fun p => bytes_eqb (l_schema (fst p)) sc && bytes_eqb (l_db (fst p)) db && bytes_eqb (l_cont (fst p)) c) l).
Definition list_schemas (l : location) : list bytes := nodup (list_eq_dec N.eq_dec) (map (fun p => l_schema (fst p)) l).
Definition list_databases (l : location) (sc : bytes) : list bytes :=
  nodup (list_eq_dec N.eq_dec) (map (fun p => l_db (fst p)) (filter (fun p => bytes_eqb (l_schema (fst p)) sc) l)).

Definition kv_container : bytes := [95; 107; 118]. (* "_kv", backup.rs:131, 172 *)
Definition sep : bytes := [46; 95; 107; 101; 121; 46; 95]. (* "._key._", backup.rs:127, 173 *)
Definition ns_text (ns : option bytes) : bytes := match ns with Some n => n | None => [] end.
Definition kv_name (ns : option bytes) (key : bytes) : bytes := ns_text ns ++ sep ++ key. (* backup.rs:127 *)

(* str::split_once(pattern): before and after the first occurrence *)
Fixpoint split_once (pat s : bytes) : option (bytes * bytes) :=
  if starts_with pat s then Some ([], skipn (length pat) s)
  else match s with
       | [] => None
       | c :: r => match split_once pat r with Some (a, b) => Some (c :: a, b) | None => None end
       end.

(* backup_database, backup.rs:103-138: what it stores, in order. The key-value
   entries are stored once for each collection. Without a session nothing is
   refused, so listing the documents cannot fail. *)
Definition doc_writes (sc : schema) (name : bytes) (d : dbase) (c : bytes) : list (lkey * object) :=
  map (fun x => (mk_lkey (sc_name sc) name c (display (h_id (d_header (snd x)))), Contents (d_contents (snd x))))
    (t_range Unbounded Unbounded (w_docs (db_work (b_docs d)) c)).
Definition kv_writes (sc : schema) (name : bytes) (d : dbase) : list (lkey * object) :=
  flat_map (fun x => match Kv.split_key (fst x) with
                     | Some (ns, key) => [(mk_lkey (sc_name sc) name kv_container (kv_name ns key), KvEntry (snd x))]
                     | None => []
                     end) (Kv.all_entries (b_kv d)).
Definition db_writes (sc : schema) (name : bytes) (d : dbase) : list (lkey * object) :=
  flat_map (fun c => doc_writes sc name d c ++ kv_writes sc name d) (sc_colls sc).
Definition store_all (l : location) (ws : list (lkey * object)) : location :=
  fold_left (fun l w => store l (fst w) (snd w)) ws l.
Definition backup_database (sc : schema) (name : bytes) (d : dbase) (l : location) : location :=
  store_all l (db_writes sc name d).

Inductive rerr := RDocs (e : terr) | RKv (e : Kv.kerror) | RMissing | RUnknownSchema.

(* restore_database, backup.rs:140-184. [ord]: the order in which the location
   lists names. admin_databases: the collection of databases, which is skipped. *)
Section Restore.
Context (ord : list bytes -> list bytes) (admin_databases : bytes).

(* backup.rs:156-168 *)
Definition restore_ops (l : location) (sc name c : bytes) : outcome (list operation) rerr :=
  fold_right (fun n acc =>
      match acc with
      | Done ops =>
          match from_str n with
          | Done id => match load l (mk_lkey sc name c n) with
                       | Some (Contents b) => Done (mk_op c (Insert (Some id) b) :: ops)
                       | _ => Fail RMissing
                       end
          | _ => Done ops
          end
      | e => e
      end) (Done []) (ord (list_stored l sc name c)).
(* backup.rs:149-169 *)
Definition restore_tx (l : location) (sc name : bytes) (colls : list bytes) : outcome (list operation) rerr :=
  fold_right (fun c acc =>
      match acc with
      | Done ops => match restore_ops l sc name c with Done o => Done (o ++ ops) | e => e end
      | e => e
      end) (Done []) (filter (fun c => negb (bytes_eqb c admin_databases)) colls).
(* Entry::restore, keyvalue.rs:36-55 *)
Definition restore_cmd (e : Kv.entry) : Kv.command := Kv.CSet (Kv.SetCmd (Kv.e_val e) (Kv.e_exp e) false None false).
(* backup.rs:172-183; each set reads the clock *)
Fixpoint restore_kv (l : location) (sc name : bytes) (names : list bytes) (clock : nat -> Kv.ts) (s : Kv.kst)
  : outcome Kv.kst rerr :=
  match names with
  | [] => Done s
  | n :: r =>
      match split_once sep n with
      | Some (ns, key) =>
          match load l (mk_lkey sc name kv_container n) with
          | Some (KvEntry e) =>
              match Kv.perform s (match ns with [] => None | _ => Some ns end) key (restore_cmd e) (clock (length r)) with
              | Some (Kv.KOk _, s') => restore_kv l sc name r clock s'
              | Some (Kv.KErr e', _) => Fail (RKv e')
              | None => Panic
              end
          | _ => Fail RMissing
          end
      | None => restore_kv l sc name r clock s
      end
  end.
Definition restore_database (sc : schema) (name : bytes) (l : location) (clock : nat -> Kv.ts) (d : dbase)
  : outcome dbase rerr :=
  match restore_tx l (sc_name sc) name (sc_colls sc) with
  | Done ops =>
      match apply_transaction (sc_env sc) (fun _ _ _ => true) (b_docs d) ops with
      | (docs, Done _) =>
          match restore_kv l (sc_name sc) name (ord (list_stored l (sc_name sc) name kv_container)) clock (b_kv d) with
          | Done kv => Done (mk_dbase docs kv)
          | Fail e => Fail e
          | Panic => Panic
          end
      | (_, Fail e) => Fail (RDocs e)
      | (_, Panic) => Panic
      end
  | Fail e => Fail e
  | Panic => Panic
  end.

(* ---------- the whole storage ---------- *)
(* the databases of a storage: name, schema and contents (available_databases) *)
Definition storage := list (bytes * (schema * dbase)).
Definition find_db (s : storage) (n : bytes) : option (schema * dbase) :=
  option_map snd (find (fun p => bytes_eqb n (fst p)) s).
Definition set_db (s : storage) (n : bytes) (x : schema * dbase) : storage :=
  (n, x) :: filter (fun p => negb (bytes_eqb n (fst p))) s.
(* Storage::backup, backup.rs:55-74 *)
Definition backup (s : storage) (l : location) : location :=
  fold_left (fun l p => backup_database (fst (snd p)) (fst p) (snd (snd p)) l) s l.
(* create_database_with_schema(name, schema, only_if_needed = true), see Databases.v:
   an existing database is left alone, whatever its schema is *)
Definition create_if_needed (registered : bytes -> option schema) (fresh : dbase) (s : storage) (n sc : bytes)
  : outcome storage rerr :=
  match find_db s n with
  | Some _ => Done s
  | None => match registered sc with Some x => Done (set_db s n (x, fresh)) | None => Fail RUnknownSchema end
  end.
(* one step of Storage::restore, backup.rs:83-93 *)
Definition restore_one (registered : bytes -> option schema) (fresh : dbase) (l : location) (clock : bytes -> nat -> Kv.ts)
  (o : outcome storage rerr) (w : bytes * bytes) : outcome storage rerr :=
  match o with
  | Done s =>
      match create_if_needed registered fresh s (snd w) (fst w) with
      | Done s1 =>
          match find_db s1 (snd w) with
          | Some (sc, d) => match restore_database sc (snd w) l (clock (snd w)) d with
                            | Done d' => Done (set_db s1 (snd w) (sc, d'))
                            | Fail e => Fail e
                            | Panic => Panic
                            end
          | None => Fail RUnknownSchema
          end
      | e => e
      end
  | e => e
  end.
(* Storage::restore, backup.rs:77-97 *)
Definition restore_list (l : location) : list (bytes * bytes) :=
  flat_map (fun sc => map (pair sc) (ord (list_databases l sc))) (ord (list_schemas l)).
Definition restore (registered : bytes -> option schema) (fresh : dbase) (l : location) (clock : bytes -> nat -> Kv.ts) (s : storage)
  : outcome storage rerr :=
  fold_left (restore_one registered fresh l clock) (restore_list l) (Done s).
End Restore.
