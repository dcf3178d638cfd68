(* Creating, opening, listing and deleting databases of one storage
   (crates/bonsaidb-local/src/storage.rs), with the file system below it.
   A name is a list of characters (code points). A file is a list of path
   components with its contents; directories exist exactly when a file lies in
   them (empty directories are not modelled), links are not modelled, and file
   names are case-sensitive. Schemas are numbers; 0 is the Admin schema. *)
From Verif Require Import Base.
Local Open Scope N_scope.

Definition name := list N.
Definition path := list name.
Definition schema := N.
Definition admin_schema : schema := 0.
(* storage.rs:41 ADMIN_DATABASE_NAME: "_admin" *)
Definition admin_name : name := [95; 97; 100; 109; 105; 110].

Inductive dberr :=
| EInvalidName | ESchemaNotRegistered | ENameTaken | ENotFound | EMismatch
| EAlreadyRegistered | EUnique | EIo.

(* char::is_ascii_alphanumeric *)
Definition alnum (c : N) : bool :=
  ((48 <=? c) && (c <=? 57)) || ((65 <=? c) && (c <=? 90)) || ((97 <=? c) && (c <=? 122)).

(* storage.rs:515-528 validate_name *)
Definition name_char (first : bool) (c : N) : bool :=
  alnum c || (first && (c =? 95)) || (negb first && ((c =? 46) || (c =? 45))).
Fixpoint all_from (first : bool) (l : name) : bool :=
  match l with
  | [] => true
  | c :: l' => name_char first c && all_from false l'
  end.
Definition validate_name (n : name) : bool := all_from true n.

Definition path_eqb (a b : path) : bool := if list_eq_dec (list_eq_dec N.eq_dec) a b then true else false.
Definition name_eqb (a b : name) : bool := if list_eq_dec N.eq_dec a b then true else false.

(* Path::join followed by the kernel's path resolution: split at '/', empty and
   "." components skipped, ".." goes up, an absolute name replaces the base, a
   NUL cannot be looked up at all. *)
Fixpoint split_slash (acc : name) (l : name) : list name :=
  match l with
  | [] => [rev acc]
  | c :: l' => if c =? 47 then rev acc :: split_slash [] l' else split_slash (c :: acc) l'
  end.
Definition step_component (base : path) (c : name) : path :=
  if name_eqb c [] then base
  else if name_eqb c [46] then base
  else if name_eqb c [46; 46] then removelast base
  else base ++ [c].
Definition join (base : path) (n : name) : option path :=
  if existsb (N.eqb 0) n then None
  else Some (fold_left step_component (split_slash [] n)
               (match n with 47 :: _ => [] | _ => base end)).

Fixpoint under (dir p : path) : bool :=
  match dir, p with
  | [], _ => true
  | d :: dir', c :: p' => name_eqb d c && under dir' p'
  | _ :: _, [] => false
  end.

Record st := mk {
  root : path;                            (* Data.path *)
  fs : list (path * list N);              (* the file system *)
  records : list (N * (name * schema));   (* documents of the admin database's Database collection *)
  avail : list (name * schema);           (* Data.available_databases *)
  schemas : list schema                   (* Data.schemas *)
}.

Definition mem (n : name) (l : list (name * schema)) : bool := existsb (fun e => name_eqb n (fst e)) l.
Definition lookup (n : name) (l : list (name * schema)) : option schema :=
  option_map snd (find (fun e => name_eqb n (fst e)) l).
Definition without (n : name) (l : list (name * schema)) : list (name * schema) :=
  filter (fun e => negb (name_eqb n (fst e))) l.

Definition fresh_id (l : list (N * (name * schema))) : N := fold_right (fun r m => N.max (fst r + 1) m) 0 l.

(* push of an admin::Database record: the ByName view (admin/database.rs:17-30) is unique *)
Definition push_record (s : st) (n : name) (sc : schema) : outcome st dberr :=
  if mem n (map snd (records s)) then Fail EUnique
  else Done (mk (root s) (fs s) (records s ++ [(fresh_id (records s), (n, sc))]) (avail s) (schemas s)).

(* storage.rs:977-1008 create_database_with_schema *)
Definition create_database (s : st) (n : name) (sc : schema) (only_if_needed : bool) : st * outcome unit dberr :=
  if negb (validate_name n) then (s, Fail EInvalidName)
  else if negb (existsb (N.eqb sc) (schemas s)) then (s, Fail ESchemaNotRegistered)
  else if negb (mem n (avail s)) then
    match push_record s n sc with
    | Done s' => (mk (root s') (fs s') (records s') (avail s' ++ [(n, sc)]) (schemas s'), Done tt)
    | Fail e => (s, Fail e)
    | Panic => (s, Panic)
    end
  else if only_if_needed then (s, Done tt)
  else (s, Fail ENameTaken).

(* storage.rs:678-720 database_without_schema (with an expected schema) *)
Definition open_database (s : st) (n : name) (expected : schema) : outcome unit dberr :=
  match lookup n (avail s) with
  | None => Fail ENotFound
  | Some sc =>
      if negb (sc =? expected) then Fail EMismatch
      else if existsb (N.eqb sc) (schemas s) then Done tt
      else Fail ESchemaNotRegistered
  end.

(* The folder of a database: storage.rs:648 and 1025, path.join(name). *)
Definition folder (s : st) (n : name) : option path := join (root s) n.

(* database_folder.exists() *)
Definition exists_path (f : list (path * list N)) (p : path) : bool :=
  existsb (fun e => under p (fst e)) f.
Definition is_file (f : list (path * list N)) (p : path) : bool :=
  existsb (fun e => path_eqb p (fst e)) f.

(* FileManager::delete_directory: remove_dir_all. An error is reported for a
   regular file or when the system fails; [survives] says which files are left
   behind when it failed or the process died half way. *)
Definition delete_directory (f : list (path * list N)) (p : path) (survives : path -> bool) :=
  filter (fun e => negb (under p (fst e)) || survives (fst e)) f.

(* storage.rs:1016-1045 delete_database. [io_error = Some survives]: the
   directory could not be removed completely. *)
Definition delete_database (s : st) (n : name) (io_error : option (path -> bool)) : st * outcome unit dberr :=
  let avail' := without n (avail s) in
  let finish f :=
    match find (fun r => name_eqb n (fst (snd r))) (records s) with
    | Some r =>
        (mk (root s) f (filter (fun r' => negb (fst r' =? fst r)) (records s)) avail' (schemas s), Done tt)
    | None => (mk (root s) f (records s) avail' (schemas s), Fail ENotFound)
    end in
  match folder s n with
  | Some p =>
      if exists_path (fs s) p then
        if is_file (fs s) p then (mk (root s) (fs s) (records s) avail' (schemas s), Fail EIo)
        else match io_error with
             | Some survives =>
                 (mk (root s) (delete_directory (fs s) p survives) (records s) avail' (schemas s), Fail EIo)
             | None => finish (delete_directory (fs s) p (fun _ => false))
             end
      else finish (fs s)
  | None => finish (fs s)
  end.

(* storage.rs:1047-1057 list_databases *)
Definition list_databases (s : st) : list (name * schema) := avail s.

(* storage.rs:429-440 cache_available_databases: a query of the ByName view *)
Definition cache_available (s : st) : st :=
  mk (root s) (fs s) (records s) (map snd (records s)) (schemas s).

(* storage.rs:492-510 register_schema *)
Definition register_schema (s : st) (sc : schema) : outcome st dberr :=
  if existsb (N.eqb sc) (schemas s) then Fail EAlreadyRegistered
  else Done (mk (root s) (fs s) (records s) (avail s) (sc :: schemas s)).

(* storage.rs:442-453 create_admin_database_if_needed *)
Definition create_admin_if_needed (s : st) : outcome st dberr :=
  match register_schema s admin_schema with
  | Done s1 =>
      match open_database s1 admin_name admin_schema with
      | Done _ => Done s1
      | Fail ENotFound =>
          match create_database s1 admin_name admin_schema true with
          | (s2, Done _) => Done s2
          | (_, Fail e) => Fail e
          | (_, Panic) => Panic
          end
      | Fail e => Fail e
      | Panic => Panic
      end
  | Fail e => Fail e
  | Panic => Panic
  end.

(* storage.rs:265-357 Storage::open, over what an earlier process left on disk:
   the configured schemas, then the two calls above. *)
Definition open_storage (s : st) (configured : list schema) : outcome st dberr :=
  create_admin_if_needed (cache_available (mk (root s) (fs s) (records s) [] configured)).

(* Everything an open Database does to the disk is to write files below its
   folder (storage.rs:642-672 open_roots). *)
Definition write_file (f : list (path * list N)) (p : path) (d : list N) :=
  (p, d) :: filter (fun e => negb (path_eqb p (fst e))) f.
Definition write_in_database (s : st) (n : name) (p : path) (d : list N) : st * outcome unit dberr :=
  if mem n (avail s) then
    match folder s n with
    | Some q => (mk (root s) (write_file (fs s) (q ++ p) d) (records s) (avail s) (schemas s), Done tt)
    | None => (s, Fail EIo)
    end
  else (s, Fail ENotFound).

(* One call, or the process dying (in the middle of a deletion, or between
   calls) and the storage being opened again. *)
Inductive op :=
| OCreate (n : name) (sc : schema) (only_if_needed : bool)
| ODelete (n : name) (io_error : option (path -> bool))
| OOpen (n : name) (sc : schema)
| OWrite (n : name) (p : path) (d : list N)
| ORestart (configured : list schema)
| OCrashDelete (n : name) (survives : path -> bool) (configured : list schema).

Definition restart (s : st) (configured : list schema) : st * outcome unit dberr :=
  match open_storage s configured with
  | Done s' => (s', Done tt)
  | Fail e => (mk (root s) (fs s) (records s) [] [], Fail e)
  | Panic => (mk (root s) (fs s) (records s) [] [], Panic)
  end.

Definition step (s : st) (o : op) : st * outcome unit dberr :=
  match o with
  | OCreate n sc b => create_database s n sc b
  | ODelete n io => delete_database s n io
  | OOpen n sc => (s, open_database s n sc)
  | OWrite n p d => write_in_database s n p d
  | ORestart c => restart s c
  | OCrashDelete n survives c => restart (fst (delete_database s n (Some survives))) c
  end.

Fixpoint run (s : st) (l : list op) : st * list (outcome unit dberr) :=
  match l with
  | [] => (s, [])
  | o :: l' => let '(s1, r) := step s o in let '(s2, rs) := run s1 l' in (s2, r :: rs)
  end.

(* Files the storage itself keeps beside the databases: storage.rs:292 and
   377-381, vault.rs:194. *)
Definition reserved_names : list name :=
  [ [115;101;114;118;101;114;45;105;100];        (* server-id *)
    [115;116;111;114;97;103;101;45;105;100];     (* storage-id *)
    [118;97;117;108;116;45;107;101;121;115];     (* vault-keys *)
    [109;97;115;116;101;114;45;107;101;121;115]  (* master-keys *) ].
Definition new_storage (r : path) (own_files : list (path * list N)) : st := mk r own_files [] [] [].
