(* Model of transactions that overlap in time: apply_transaction_to_roots
   (bonsaidb-local/src/database.rs:305-378) and the transactions of the view mapper
   (views/mapper.rs:119-156) are taken apart into steps that any number of threads
   interleave. nebari is not in the sandbox, its contract is assumed here: Roots::
   transaction waits until the named trees are unlocked and locks all of them (no
   deadlock), a transaction works on private copies, commit adds one entry to the
   transaction log and publishes the trees one after the other (whether the entry is
   visible before or after the trees is left open), the locks are held until the
   commit or the rollback is over. Readers do not lock. Failing writes are not
   modelled. *)
From Verif Require Import Base Key KeyPrefix DocId Tree View Docs.
Local Open Scope N_scope.

(* the trees of a collection and of a view: document_tree_name (database.rs),
   view_document_map_tree_name, view_entries_tree_name and
   view_invalidated_docs_tree_name (views.rs:26-37); distinct names: C92 *)
Inductive tname := TDocs (c : bytes) | TMap (v : bytes) | TEntries (v : bytes) | TInvalid (v : bytes).
Definition tname_eqb (a b : tname) : bool :=
  match a, b with
  | TDocs x, TDocs y | TMap x, TMap y | TEntries x, TEntries y | TInvalid x, TInvalid y => bytes_eqb x y
  | _, _ => false
  end.
Definition tmem (t : tname) (l : list tname) : bool := existsb (tname_eqb t) l.

(* a transaction: the operations of a Transaction, or one pass of the loop of
   map_view over these ids (read before the trees are locked, mapper.rs:113-119) *)
Inductive job :=
| JTx (ops : list operation)
| JMap (v : view) (sh : list mapped -> list mapped) (ids : list bytes).

(* open_trees_for_document_change, open_trees.rs:41-77 *)
Definition coll_trees (E : env) (c : bytes) : list tname :=
  TDocs c ::
  flat_map (fun v => if bytes_eqb (vw_coll v) c
                     then if is_eager (vd_policy (vw_def v)) then [TMap (vw_name v); TEntries (vw_name v)]
                          else [TInvalid (vw_name v)]
                     else []) (ev_views E).
(* the trees that are locked: database.rs:257-303 and 312-316, mapper.rs:120-127 *)
Definition job_trees (E : env) (j : job) : list tname :=
  match j with
  | JTx ops => flat_map (fun o => coll_trees E (op_coll o)) ops
  | JMap v _ _ => [TInvalid (vw_name v); TMap (vw_name v); TDocs (vw_coll v); TEntries (vw_name v)]
  end.
(* CollectionNotFound comes before any tree is locked, database.rs:257-268 *)
Definition job_defined (E : env) (j : job) : bool :=
  match j with JTx ops => colls_defined E ops | JMap _ _ _ => true end.

(* where a transaction is: in the loop over the operations (database.rs:322-356),
   about to map (mapper.rs:128-154), committing with these trees still to be
   published and the log entry written or not (358-374, mapper.rs:155), or rolled
   back because of an error (the ? and the drop of the transaction) *)
Inductive phase :=
| PRun (rest : list operation) (ch : changes) (rs : list opres)
| PMap
| PReady (data : option changes) (todo : list tname) (logged : bool) (rs : list opres)
| PFailed (r : outcome (list opres) terr).
(* x_work: the private trees *)
Record txn := mk_txn { x_job : job; x_locks : list tname; x_work : work; x_phase : phase }.
(* c_pub and c_log are what readers see; c_fin: the results given to the callers *)
Record cs := mk_cs {
  c_pub : work;
  c_log : list (N * option changes);
  c_run : list (N * txn);
  c_fin : list (N * job * outcome (list opres) terr) }.
Definition cs_start (s : dbstate) : cs := mk_cs (db_work s) (db_log s) [] [].

Inductive event :=
| Begin (i : N) (j : job)
| Step (i : N)
| Publish (i : N) (t : tname)
| Log (i : N)
| End_ (i : N).

(* publishing one tree of a transaction: nebari *)
Definition copy_tree (t : tname) (from to : work) : work :=
  match t with
  | TDocs c => set_docs to c (w_docs from c)
  | TMap v => let o := w_views to v in set_view to v (mk_vs (vs_entries o) (vs_docmap (w_views from v)) (vs_invalid o))
  | TEntries v => let o := w_views to v in set_view to v (mk_vs (vs_entries (w_views from v)) (vs_docmap o) (vs_invalid o))
  | TInvalid v => let o := w_views to v in set_view to v (mk_vs (vs_entries o) (vs_docmap o) (vs_invalid (w_views from v)))
  end.

Definition locked (s : cs) (t : tname) : bool := existsb (fun p => tmem t (x_locks (snd p))) (c_run s).
Definition known_id (s : cs) (i : N) : bool :=
  existsb (fun p => fst p =? i) (c_run s) || existsb (fun p => fst (fst p) =? i) (c_fin s).
Fixpoint get_txn (i : N) (l : list (N * txn)) : option txn :=
  match l with [] => None | (j, x) :: r => if j =? i then Some x else get_txn i r end.
Definition put_txn (i : N) (x : txn) (l : list (N * txn)) : list (N * txn) :=
  map (fun p => if fst p =? i then (i, x) else p) l.
Definition drop_txn (i : N) (l : list (N * txn)) : list (N * txn) := filter (fun p => negb (fst p =? i)) l.

(* one turn of private work: an operation with the bookkeeping of its result
   (database.rs:323-355), invalidate_changed_documents (358-363), or the mapping of
   the ids and their removal from the invalidated set (mapper.rs:128-154) *)
Definition work_step (E : env) (x : txn) : option txn :=
  let become w p := Some (mk_txn (x_job x) (x_locks x) w p) in
  match x_phase x with
  | PRun (o :: r) ch rs =>
      match exec_op E (x_work x) o with
      | Done (w, res) =>
          match record_result ch res with
          | Done ch' => become w (PRun r ch' (rs ++ [res]))
          | Fail e => become (x_work x) (PFailed (Fail e))
          | Panic => become (x_work x) (PFailed Panic)
          end
      | Fail e => become (x_work x) (PFailed (Fail e))
      | Panic => become (x_work x) (PFailed Panic)
      end
  | PRun [] ch rs =>
      match invalidate E ch (x_work x) with
      | Done w => become w (PReady (Some ch) (x_locks x) false rs)
      | Fail e => become (x_work x) (PFailed (Fail e))
      | Panic => become (x_work x) (PFailed Panic)
      end
  | PMap =>
      match x_job x with
      | JMap v sh ids =>
          match map_chunk sh (vw_def v) (w_docs (x_work x) (vw_coll v)) ids (w_views (x_work x) (vw_name v)) with
          | Done vs => become (set_view (x_work x) (vw_name v) vs) (PReady None (x_locks x) false [])
          | Fail e => become (x_work x) (PFailed (Fail (ViewError e)))
          | Panic => become (x_work x) (PFailed Panic)
          end
      | JTx _ => None
      end
  | _ => None
  end.

(* None: the step is not possible (a thread waits for a lock, or is elsewhere) *)
Definition cstep (E : env) (s : cs) (e : event) : option cs :=
  match e with
  | Begin i j =>
      if known_id s i then None
      else if job_defined E j then
        if existsb (locked s) (job_trees E j) then None
        else Some (mk_cs (c_pub s) (c_log s)
                     (c_run s ++ [(i, mk_txn j (job_trees E j) (c_pub s)
                                        (match j with JTx ops => PRun ops (mk_changes [] []) [] | JMap _ _ _ => PMap end))])
                     (c_fin s))
      else Some (mk_cs (c_pub s) (c_log s) (c_run s ++ [(i, mk_txn j [] (c_pub s) (PFailed (Fail CollectionNotFound)))]) (c_fin s))
  | Step i =>
      match get_txn i (c_run s) with
      | Some x => match work_step E x with
                  | Some x' => Some (mk_cs (c_pub s) (c_log s) (put_txn i x' (c_run s)) (c_fin s))
                  | None => None
                  end
      | None => None
      end
  | Publish i t =>
      match get_txn i (c_run s) with
      | Some x =>
          match x_phase x with
          | PReady d todo lg rs =>
              if tmem t todo then
                Some (mk_cs (copy_tree t (x_work x) (c_pub s)) (c_log s)
                        (put_txn i (mk_txn (x_job x) (x_locks x) (x_work x)
                                      (PReady d (filter (fun u => negb (tname_eqb t u)) todo) lg rs)) (c_run s)) (c_fin s))
              else None
          | _ => None
          end
      | None => None
      end
  | Log i =>
      match get_txn i (c_run s) with
      | Some x =>
          match x_phase x with
          | PReady d todo false rs =>
              Some (mk_cs (c_pub s) (c_log s ++ [(next_tx (c_log s), d)])
                      (put_txn i (mk_txn (x_job x) (x_locks x) (x_work x) (PReady d todo true rs)) (c_run s)) (c_fin s))
          | _ => None
          end
      | None => None
      end
  | End_ i =>
      match get_txn i (c_run s) with
      | Some x =>
          match x_phase x with
          | PReady _ [] true rs => Some (mk_cs (c_pub s) (c_log s) (drop_txn i (c_run s)) (c_fin s ++ [(i, x_job x, Done rs)]))
          | PFailed r => Some (mk_cs (c_pub s) (c_log s) (drop_txn i (c_run s)) (c_fin s ++ [(i, x_job x, r)]))
          | _ => None
          end
      | None => None
      end
  end.
Fixpoint crun (E : env) (s : cs) (l : list event) : option cs :=
  match l with
  | [] => Some s
  | e :: r => match cstep E s e with Some s' => crun E s' r | None => None end
  end.
