(* Which trees a transaction opens, how its operations find them again, and with which
   at-rest settings: crates/bonsaidb-local/src/open_trees.rs, database.rs:257-303
   (open_trees_for_transaction), 380-740 (the lookups of apply_transaction_to_roots),
   835-897 (collection_tree), tasks/compactor.rs:137-145. Names are those of Names.v, the
   schema is Schematic.v, the settings are those of Vault.v (both features enabled). *)
From Verif Require Import Base Names Schematic Vault.
Local Open Scope nat_scope.

(* an opened database: schema, what the numbers used for names stand for, the keys, and the
   storage's default key and compression *)
Record env := Env { e_schema : schematic; e_cn : N -> qname; e_vn : N -> vname; e_key : N -> keyid; e_storage : settings }.

(* nebari's Versioned and Unversioned roots *)
Inductive kind := KVersioned | KUnversioned.
Definition kind_eqb (a b : kind) : bool := match a, b with KVersioned, KVersioned | KUnversioned, KUnversioned => true | _, _ => false end.
Record troot := TRoot { t_name : bytes; t_kind : kind; t_vault : option settings }.
(* open_trees.rs:14-18; the HashMap is a list of pairs *)
Record open_trees := OpenTrees { trees : list troot; index : list (bytes * nat) }.
Definition no_trees : open_trees := OpenTrees [] [].
Fixpoint look (n : bytes) (l : list (bytes * nat)) : option nat :=
  match l with [] => None | (m, i) :: r => if bytes_eqb n m then Some i else look n r end.
(* OpenTrees::open_tree, open_trees.rs:23-40 *)
Definition open_tree (k : kind) (n : bytes) (vault : option settings) (o : open_trees) : open_trees :=
  match look n (index o) with
  | Some _ => o
  | None => OpenTrees (trees o ++ [TRoot n k vault]) ((n, length (trees o)) :: index o)
  end.
(* open_trees_for_document_change, open_trees.rs:43-76: the loop's body *)
Definition open_view (e : env) (vault : option settings) (o : open_trees) (v : view_inst) : open_trees :=
  let n := e_vn e (vi_name v) in
  if is_eager (vi_policy v)
  then open_tree KUnversioned (tree_name (ViewEntries n)) vault (open_tree KUnversioned (tree_name (ViewDocumentMap n)) vault o)
  else open_tree KUnversioned (tree_name (ViewInvalidated n)) vault o.
Definition open_for_change (e : env) (c : N) (vault : option settings) (o : open_trees) : open_trees :=
  fold_left (open_view e vault) (views_in_collection c (e_schema e))
    (open_tree KVersioned (tree_name (Documents (e_cn e c))) vault o).

(* collection_encryption_key, database.rs:835-839 *)
Definition own_key (e : env) (c : N) : option keyid :=
  match encryption_key c (e_schema e) with Some k => Some (e_key e k) | None => s_key (e_storage e) end.
Inductive terr := CollectionNotFound.
(* open_trees_for_transaction, database.rs:257-303; an operation is its collection here *)
Fixpoint open_for_transaction (e : env) (ops : list N) (o : open_trees) : outcome open_trees terr :=
  match ops with
  | [] => Done o
  | c :: r =>
      match key_description c (e_schema e) with
      | None => Fail CollectionNotFound
      | Some _ => open_for_transaction e r (open_for_change e c (write_settings (e_storage e) (own_key e c)) o)
      end
  end.
(* tree_index_map[..] panics for an unknown name, ExecutingTransaction::tree::<R>(i).unwrap()
   (and the lock::<Unversioned> of the view trees) for a tree of the other kind *)
Definition find_tree (o : open_trees) (k : kind) (x : object) : outcome troot terr :=
  match look (tree_name x) (index o) with
  | Some i => match nth_error (trees o) i with
              | Some t => if kind_eqb k (t_kind t) then Done t else Panic
              | None => Panic
              end
  | None => Panic
  end.
Fixpoint find_trees (o : open_trees) (l : list (kind * object)) : outcome (list troot) terr :=
  match l with
  | [] => Done []
  | (k, x) :: r =>
      match find_tree o k x with
      | Done t => match find_trees o r with Done ts => Done (t :: ts) | f => f end
      | Fail f => Fail f
      | Panic => Panic
      end
  end.
(* what an operation on c looks up: the documents (execute_insert, _update, _delete, _check,
   database.rs:469-472, 581-584, 633-636, 733-736), and if it changes a document the eager views
   (update_eager_views 682-698) and, at the end of the transaction, the lists of invalidated
   documents of the others (invalidate_changed_documents 387-412) *)
Definition lookups (e : env) (c : N) (changes : bool) : list (kind * object) :=
  (KVersioned, Documents (e_cn e c)) ::
  if changes
  then flat_map (fun v => [(KUnversioned, ViewDocumentMap (e_vn e (vi_name v))); (KUnversioned, ViewEntries (e_vn e (vi_name v)))]) (eager_views_in_collection c (e_schema e)) ++
       map (fun v => (KUnversioned, ViewInvalidated (e_vn e (vi_name v)))) (filter (fun v => negb (is_eager (vi_policy v))) (views_in_collection c (e_schema e)))
  else [].
Fixpoint find_all (e : env) (o : open_trees) (ops : list (N * bool)) : outcome (list (list troot)) terr :=
  match ops with
  | [] => Done []
  | (c, b) :: r =>
      match find_trees o (lookups e c b) with
      | Done ts => match find_all e o r with Done tss => Done (ts :: tss) | f => f end
      | Fail f => Fail f
      | Panic => Panic
      end
  end.
(* apply_transaction_to_roots, database.rs:305-378, as far as trees are concerned: the trees it
   locks and, for each operation, the ones it uses *)
Definition apply_trees (e : env) (ops : list (N * bool)) : outcome (list troot * list (list troot)) terr :=
  match open_for_transaction e (map fst ops) no_trees with
  | Done o => match find_all e o ops with Done tss => Done (trees o, tss) | Fail f => Fail f | Panic => Panic end
  | Fail f => Fail f
  | Panic => Panic
  end.
(* Database::collection_tree, database.rs:851-897: the settings of the tree a read, a view
   query, the view mapper (views/mapper.rs:44-76) and the integrity scanner
   (views/integrity_scanner.rs:46-90) open *)
Definition collection_tree (e : env) (c : N) (k : kind) (x : object) : troot :=
  TRoot (tree_name x) k (read_settings (e_storage e) (own_key e c)).
(* compact_tree, compactor.rs:137-145: R::tree(name) has no vault of its own, so nebari uses
   the one the database's Roots were opened with (open_roots, storage.rs:641-658) *)
Definition roots_settings (e : env) : option settings := new_if_needed (e_storage e).
(* ASSUMED OF NEBARI (not in /repo): compaction reads every live chunk through the settings
   the tree was opened with and writes it through the same settings to the new file. One nonce
   per chunk. *)
Fixpoint compact_chunks (P : primitives) (s : option settings) (l : list (bytes * bytes)) : outcome (list bytes) verr :=
  match l with
  | [] => Done []
  | (nonce, b) :: r =>
      match load_block P s b with
      | Done p => match store_block P s nonce p with
                  | Done b' => match compact_chunks P s r with Done bs => Done (b' :: bs) | f => f end
                  | Fail f => Fail f
                  | Panic => Panic
                  end
      | Fail f => Fail f
      | Panic => Panic
      end
  end.
(* the files of a database: the chunks of each tree, and the transaction log, whose entries
   nebari stores through the Roots' settings *)
Record disk := Disk { d_trees : object -> list bytes; d_log : list bytes }.
Inductive devent :=
| DWrite (c : N) (x : object) (nonce p : bytes)        (* a transaction, or a view job, writes a chunk of a tree of c *)
| DLog (nonce p : bytes)                               (* a committed transaction's entry, database.rs:366-375 *)
| DCompact (x : object) (nonces : nat -> bytes).       (* compact_tree *)
Definition upd (x : object) (l : list bytes) (f : object -> list bytes) (y : object) : list bytes :=
  if bytes_eqb (tree_name x) (tree_name y) then l else f y.
Definition dstep (P : primitives) (e : env) (d : disk) (v : devent) : outcome disk verr :=
  match v with
  | DWrite c x nonce p =>
      match store_block P (write_settings (e_storage e) (own_key e c)) nonce p with
      | Done b => Done (Disk (upd x (d_trees d x ++ [b]) (d_trees d)) (d_log d))
      | Fail f => Fail f
      | Panic => Panic
      end
  | DLog nonce p =>
      match store_block P (roots_settings e) nonce p with
      | Done b => Done (Disk (d_trees d) (d_log d ++ [b]))
      | Fail f => Fail f
      | Panic => Panic
      end
  | DCompact x nonces =>
      match compact_chunks P (roots_settings e) (combine (map nonces (seq 0 (length (d_trees d x)))) (d_trees d x)) with
      | Done bs => Done (Disk (upd x bs (d_trees d)) (d_log d))
      | Fail f => Fail f
      | Panic => Panic
      end
  end.
Fixpoint drun (P : primitives) (e : env) (d : disk) (l : list devent) : outcome disk verr :=
  match l with
  | [] => Done d
  | v :: r => match dstep P e d v with Done d' => drun P e d' r | f => f end
  end.
Definition empty_disk : disk := Disk (fun _ => []) [].
