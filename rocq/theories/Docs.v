(* Model of document storage: the LowLevelConnection implementation of
   bonsaidb-local/src/database.rs, over the tree contract of Tree.v. Collections and
   views are named by their encoded names (Names.v: distinct names have distinct
   encodings). Serialization of documents (pot) is not modelled. *)
From Verif Require Import Base Key KeyPrefix DocId Tree View.
Local Open Scope N_scope.

(* a schema: the primary key type of each defined collection, and the views.
   ev_hash is SHA-256 (revision.rs:75-79) *)
Record view := mk_view { vw_name : bytes; vw_coll : bytes; vw_def : vdef }.
Record env := mk_env { ev_hash : bytes -> bytes; ev_pk : bytes -> option kty; ev_views : list view }.

(* Command, core/src/transaction.rs:330-; Operation: with its collection *)
Inductive command :=
| Insert (id : option bytes) (contents : bytes)
| Update (h : header) (contents : bytes)
| Overwrite (id : bytes) (contents : bytes)
| Delete (h : header)
| Check (id : bytes) (rev : option revision).
Record operation := mk_op { op_coll : bytes; op_cmd : command }.

(* OperationResult, transaction.rs *)
Inductive opres :=
| RSuccess
| RUpdated (coll : bytes) (h : header)
| RDeleted (coll id : bytes).

Inductive terr :=
| PermissionDenied
| CollectionNotFound
| DocumentConflict (coll : bytes) (h : header)
| DocumentNotFound (coll id : bytes)
| DocumentPush
| KeyError
| IdTooLong
| ViewError (e : verr)
| TransactionTooLarge.

(* DocumentChanges, transaction.rs:454-459: collections and (collection index, id, deleted) *)
Record changes := mk_changes { ch_colls : list bytes; ch_docs : list (N * bytes * bool) }.

(* the trees of a transaction *)
Record work := mk_work { w_docs : bytes -> tree doc; w_views : bytes -> vstate }.
(* the published trees and the transaction log; entries of other transactions
   (key-value, mapper) carry no document changes *)
Record dbstate := mk_db { db_work : work; db_log : list (N * option changes) }.

Definition upd {A} (f : bytes -> A) (k : bytes) (v : A) : bytes -> A := fun j => if bytes_eqb j k then v else f j.
Definition set_docs (w : work) (c : bytes) (t : tree doc) : work := mk_work (upd (w_docs w) c t) (w_views w).
Definition set_view (w : work) (n : bytes) (v : vstate) : work := mk_work (w_docs w) (upd (w_views w) n v).

(* Revision::new 17-29 and next_revision 36-51 of revision.rs; the u32 id: panics on overflow *)
Definition rev_eqb (a b : revision) : bool := (r_id a =? r_id b) && bytes_eqb (r_sha a) (r_sha b).
Definition header_eqb (a b : header) : bool := bytes_eqb (h_id a) (h_id b) && rev_eqb (h_rev a) (h_rev b).
Definition new_rev (E : env) (contents : bytes) : revision := mk_rev 0 (ev_hash E contents).
Definition next_revision (E : env) (r : revision) (contents : bytes) : outcome (option revision) terr :=
  let h := ev_hash E contents in
  if bytes_eqb h (r_sha r) then Done None
  else if r_id r + 1 <? 2 ^ 32 then Done (Some (mk_rev (r_id r + 1) h))
  else Panic.
(* BorrowedDocument::new, core/src/document.rs *)
Definition new_doc (E : env) (id contents : bytes) : doc := mk_doc (mk_header id (new_rev E contents)) contents.

(* update_eager_views, database.rs:675-714: each eager view of the collection maps
   the one document within the transaction *)
Fixpoint update_eager (views : list view) (c id : bytes) (w : work) : outcome work terr :=
  match views with
  | [] => Done w
  | v :: r =>
      if bytes_eqb (vw_coll v) c && is_eager (vd_policy (vw_def v)) then
        match map_request (fun l => l) (vw_def v) (w_docs w c) [id] (w_views w (vw_name v)) with
        | Done vs => update_eager r c id (set_view w (vw_name v) vs)
        | Fail e => Fail (ViewError e)
        | Panic => Panic
        end
      else update_eager r c id w
  end.

(* next_id_for_collection, schematic.rs:128-138, KeyIdGenerator::next_id 302-315 and
   DocumentId::new / try_from *)
Definition next_id (t : kty) (last : option bytes) : outcome bytes terr :=
  let key := match last with
             | Some b => match decode t b with Done v => Done v | Fail _ => Fail KeyError | Panic => Panic end
             | None => match first_value t with Some v => Done v | None => Fail DocumentPush end
             end in
  match key with
  | Done v => match next_value t v with
              | Some n => match encode t n with
                          | Done b => match try_from_bytes b with Done i => Done i | _ => Fail IdTooLong end
                          | Fail _ => Fail KeyError
                          | Panic => Panic
                          end
              | None => Fail DocumentPush
              end
  | Fail e => Fail e
  | Panic => Panic
  end.

Definition finish (E : env) (c id : bytes) (w : work) (res : opres) : outcome (work * opres) terr :=
  match update_eager (ev_views E) c id w with
  | Done w' => Done (w', res)
  | Fail e => Fail e
  | Panic => Panic
  end.

(* execute_insert, database.rs:575-620 *)
Definition exec_insert (E : env) (w : work) (c : bytes) (oid : option bytes) (contents : bytes) : outcome (work * opres) terr :=
  let docs := w_docs w c in
  let id := match oid with
            | Some i => Done i
            | None => match ev_pk E c with Some t => next_id t (t_last docs) | None => Fail CollectionNotFound end
            end in
  match id with
  | Done i =>
      let d := new_doc E i contents in
      match t_get i docs with
      | Some old => Fail (DocumentConflict c (d_header old))
      | None => finish E c i (set_docs w c (t_set i d docs)) (RUpdated c (d_header d))
      end
  | Fail e => Fail e
  | Panic => Panic
  end.

(* execute_update, database.rs:461-561; check = None for Overwrite *)
Definition exec_update (E : env) (w : work) (c id : bytes) (check : option revision) (contents : bytes)
  : outcome (work * opres) terr :=
  let docs := w_docs w c in
  match t_get id docs with
  | Some old =>
      if match check with None => true | Some r => rev_eqb (h_rev (d_header old)) r end then
        match next_revision E (h_rev (d_header old)) contents with
        | Done (Some r) =>
            let d := mk_doc (mk_header id r) contents in
            finish E c id (set_docs w c (t_set id d docs)) (RUpdated c (d_header d))
        | Done None => Done (w, RUpdated c (d_header old))
        | Fail e => Fail e
        | Panic => Panic
        end
      else Fail (DocumentConflict c (d_header old))
  | None =>
      match check with
      | None => let d := new_doc E id contents in
                finish E c id (set_docs w c (t_set id d docs)) (RUpdated c (d_header d))
      | Some _ => Fail (DocumentNotFound c id)
      end
  end.

(* execute_delete, database.rs:627-662 *)
Definition exec_delete (E : env) (w : work) (c : bytes) (h : header) : outcome (work * opres) terr :=
  let docs := w_docs w c in
  match t_get (h_id h) docs with
  | Some old =>
      let w' := set_docs w c (t_remove (h_id h) docs) in
      if header_eqb (d_header old) h then finish E c (h_id (d_header old)) w' (RDeleted c (h_id h))
      else Fail (DocumentConflict c h)
  | None => Fail (DocumentNotFound c (h_id h))
  end.

(* execute_check, database.rs:727-757 *)
Definition exec_check (w : work) (c id : bytes) (rev : option revision) : outcome (work * opres) terr :=
  match t_get id (w_docs w c) with
  | Some old =>
      match rev with
      | Some r => if rev_eqb (h_rev (d_header old)) r then Done (w, RSuccess)
                  else Fail (DocumentConflict c (mk_header id r))
      | None => Done (w, RSuccess)
      end
  | None => Fail (DocumentNotFound c id)
  end.

(* execute_operation, database.rs:415-446 *)
Definition exec_op (E : env) (w : work) (o : operation) : outcome (work * opres) terr :=
  match op_cmd o with
  | Insert id contents => exec_insert E w (op_coll o) id contents
  | Update h contents => exec_update E w (op_coll o) (h_id h) (Some (h_rev h)) contents
  | Overwrite id contents => exec_update E w (op_coll o) id None contents
  | Delete h => exec_delete E w (op_coll o) h
  | Check id rev => exec_check w (op_coll o) id rev
  end.

(* collection_indexes / collections, database.rs:325-353 *)
Fixpoint index_of (c : bytes) (l : list bytes) (i : N) : option N :=
  match l with [] => None | x :: r => if bytes_eqb c x then Some i else index_of c r (i + 1) end.
Definition record_change (ch : changes) (c id : bytes) (deleted : bool) : outcome changes terr :=
  match index_of c (ch_colls ch) 0 with
  | Some i => Done (mk_changes (ch_colls ch) (ch_docs ch ++ [(i, id, deleted)]))
  | None =>
      let n := N.of_nat (length (ch_colls ch)) in
      if n <? 65536 then Done (mk_changes (ch_colls ch ++ [c]) (ch_docs ch ++ [(n, id, deleted)]))
      else Fail TransactionTooLarge
  end.
Definition record_result (ch : changes) (r : opres) : outcome changes terr :=
  match r with
  | RUpdated c h => record_change ch c (h_id h) false
  | RDeleted c id => record_change ch c id true
  | RSuccess => Done ch
  end.

(* the loop of apply_transaction_to_roots, database.rs:317-356 *)
Fixpoint run_ops (E : env) (ops : list operation) (w : work) (ch : changes) (rs : list opres)
  : outcome (work * changes * list opres) terr :=
  match ops with
  | [] => Done (w, ch, rs)
  | o :: r =>
      match exec_op E w o with
      | Done (w', res) =>
          match record_result ch res with
          | Done ch' => run_ops E r w' ch' (rs ++ [res])
          | Fail e => Fail e
          | Panic => Panic
          end
      | Fail e => Fail e
      | Panic => Panic
      end
  end.

(* &collections[usize::from(doc.collection)], database.rs:391 *)
Definition change_coll (ch : changes) (d : N * bytes * bool) : option bytes :=
  nth_error (ch_colls ch) (N.to_nat (fst (fst d))).
(* invalidate_changed_documents, database.rs:381-413 (the grouping only avoids
   repeated look-ups) *)
Fixpoint invalidate_views (views : list view) (c id : bytes) (w : work) : work :=
  match views with
  | [] => w
  | v :: r =>
      invalidate_views r c id
        (if bytes_eqb (vw_coll v) c && negb (is_eager (vd_policy (vw_def v)))
         then let vs := w_views w (vw_name v) in
              set_view w (vw_name v) (mk_vs (vs_entries vs) (vs_docmap vs) (t_set id tt (vs_invalid vs)))
         else w)
  end.
Definition inv_step (E : env) (ch : changes) (o : outcome work terr) (d : N * bytes * bool) : outcome work terr :=
  match o with
  | Done w => match change_coll ch d with
              | Some c => Done (invalidate_views (ev_views E) c (snd (fst d)) w)
              | None => Panic
              end
  | x => x
  end.
Definition invalidate (E : env) (ch : changes) (w : work) : outcome work terr :=
  fold_left (inv_step E ch) (ch_docs ch) (Done w).

(* transaction ids grow (nebari's transaction log) *)
Definition next_tx (log : list (N * option changes)) : N := match last (map fst log) 0 with 0 => 1 | n => n + 1 end.

(* open_trees_for_transaction, database.rs:257-268 *)
Definition colls_defined (E : env) (ops : list operation) : bool :=
  forallb (fun o => match ev_pk E (op_coll o) with Some _ => true | None => false end) ops.

(* apply_transaction_to_roots, database.rs:306-376: the work is done on the trees of
   a nebari transaction, only its commit publishes them *)
Definition apply_to_roots (E : env) (s : dbstate) (ops : list operation) : dbstate * outcome (list opres) terr :=
  if colls_defined E ops then
    match run_ops E ops (db_work s) (mk_changes [] []) [] with
    | Done (w, ch, rs) =>
        match invalidate E ch w with
        | Done w' => (mk_db w' (db_log s ++ [(next_tx (db_log s), Some ch)]), Done rs)
        | Fail e => (s, Fail e)
        | Panic => (s, Panic)
        end
    | Fail e => (s, Fail e)
    | Panic => (s, Panic)
    end
  else (s, Fail CollectionNotFound).

(* apply_transaction, database.rs:1128-1157. A session is the predicate of the
   allowed actions; None as document: the collection's resource. The integrity
   checks of eager views that follow (1158-1192) are modelled separately. *)
Inductive action := ActInsert | ActUpdate | ActOverwrite | ActDelete | ActGet | ActList | ActListHeaders | ActCount.
Definition session := action -> bytes -> option bytes -> bool.
Definition op_allowed (p : session) (o : operation) : bool :=
  match op_cmd o with
  | Insert _ _ => p ActInsert (op_coll o) None
  | Update h _ => p ActUpdate (op_coll o) (Some (h_id h))
  | Overwrite id _ => p ActOverwrite (op_coll o) (Some id)
  | Delete h => p ActDelete (op_coll o) (Some (h_id h))
  | Check id _ => p ActGet (op_coll o) (Some id)
  end.
Definition apply_transaction (E : env) (p : session) (s : dbstate) (ops : list operation)
  : dbstate * outcome (list opres) terr :=
  if forallb (op_allowed p) ops then apply_to_roots E s ops else (s, Fail PermissionDenied).

(* ---------- reading ---------- *)
(* get_from_collection, database.rs:1204-1226 *)
Definition get_doc (p : session) (s : dbstate) (c id : bytes) : outcome (option doc) terr :=
  if p ActGet c (Some id) then Done (t_get id (w_docs (db_work s) c)) else Fail PermissionDenied.
(* tree.scan with the limit counted in the key callback, database.rs:1254-1284 *)
Definition scan {V} (lo hi : bound) (ascending : bool) (limit : option N) (t : tree V) : list (bytes * V) :=
  let l := t_range lo hi t in
  let l := if ascending then l else rev l in
  match limit with Some n => firstn (N.to_nat n) l | None => l end.
(* list_from_collection, database.rs:1235-1286 *)
Definition list_docs (p : session) (s : dbstate) (c : bytes) (lo hi : bound) (ascending : bool) (limit : option N)
  : outcome (list doc) terr :=
  if p ActList c None then Done (map snd (scan lo hi ascending limit (w_docs (db_work s) c))) else Fail PermissionDenied.
(* list_headers_from_collection, database.rs:1298-1347 *)
Definition list_headers (p : session) (s : dbstate) (c : bytes) (lo hi : bound) (ascending : bool) (limit : option N)
  : outcome (list header) terr :=
  if p ActListHeaders c None
  then Done (map (fun e => d_header (snd e)) (scan lo hi ascending limit (w_docs (db_work s) c))) else Fail PermissionDenied.
(* count_from_collection, database.rs:1361-1379 (nebari's reduce counts the live keys) *)
Definition count_docs (p : session) (s : dbstate) (c : bytes) (lo hi : bound) : outcome N terr :=
  if p ActCount c None then Done (N.of_nat (length (t_range lo hi (w_docs (db_work s) c)))) else Fail PermissionDenied.
(* get_multiple_from_collection, database.rs:1391-1418 *)
Fixpoint insert_sorted (k : bytes) (l : list bytes) : list bytes :=
  match l with [] => [k] | j :: r => if lex_leb k j then k :: l else j :: insert_sorted k r end.
Definition sort_ids (l : list bytes) : list bytes := fold_right insert_sorted [] l.
Definition get_multiple_tree {V} (t : tree V) (ids : list bytes) : list V :=
  flat_map (fun i => match t_get i t with Some v => [v] | None => [] end) (sort_ids ids).
Definition get_multiple (p : session) (s : dbstate) (c : bytes) (ids : list bytes) : outcome (list doc) terr :=
  if forallb (fun i => p ActGet c (Some i)) ids
  then Done (get_multiple_tree (w_docs (db_work s) c) ids)
  else Fail PermissionDenied.

(* DocumentChanges::get and iter, transaction.rs:464-523: ends at the first change
   whose collection index is invalid *)
Fixpoint iter_changes (colls : list bytes) (ds : list (N * bytes * bool)) : list (bytes * bytes * bool) :=
  match ds with
  | [] => []
  | (i, id, del) :: r => match nth_error colls (N.to_nat i) with
                         | Some c => (c, id, del) :: iter_changes colls r
                         | None => []
                         end
  end.
Definition changes_iter (ch : changes) : list (bytes * bytes * bool) := iter_changes (ch_colls ch) (ch_docs ch).

(* list_executed_transactions, database.rs:1010-1062: default 100, at most 1000 *)
Definition list_executed (log : list (N * option changes)) (start : option N) (limit : option N) : list (N * changes) :=
  let n := N.min (match limit with Some l => l | None => 100 end) 1000 in
  firstn (N.to_nat n)
    (flat_map (fun e => match snd e with Some c => [(fst e, c)] | None => [] end)
      (filter (fun e => match start with Some s => s <=? fst e | None => true end) log)).
