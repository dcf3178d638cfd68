(* The handlers of document and view requests of a server, as the `exec` of Remote.v:
   /repo/crates/bonsaidb-server/src/dispatch.rs over the local database of Docs.v and
   Query.v. Every connection's requests go through the client's worker, the network and
   the server's queues and workers of Remote.v. A handler is one atomic action here
   (C95 is about overlapping transactions, C34 about queries that overlap with
   transactions and mapper jobs). One database; the views' integrity checks (C33) have
   been done. Sessions: what a session may do is fixed while it is used (C56, C65). *)
From Verif Require Import Base Key KeyPrefix DocId Tree View Docs Query.
Local Open Scope N_scope.

(* networking.rs, the requests that are modelled *)
Inductive request :=
| QGet (c id : bytes)
| QList (c : bytes) (lo hi : bound) (ascending : bool) (limit : option N)
| QApply (ops : list operation)
| QQuery (view : bytes) (q : option qkey) (ascending : bool) (limit : option N)
| QDeleteDocs (view : bytes) (q : option qkey)
| QLog (start limit : option N).
(* Result<T, networking error> for each of them; a payload that is not a request, or
   that names an unknown view, is answered with an error *)
Inductive response :=
| SGet (o : outcome (option doc) terr)
| SList (o : outcome (list doc) terr)
| SApply (o : outcome (list opres) terr)
| SQuery (o : outcome (list emission) terr)
| SDeleted (o : outcome N terr)
| SLog (l : list (N * changes))
| SMalformed
| SNoView.

(* map_view, bonsaidb-local/src/views/mapper.rs:104-156, as the transactions it makes:
   chunks of the invalidated ids from the end of the list (View.map_view_fuel); when one
   fails, the earlier ones stay *)
Fixpoint map_all (fuel : nat) (v : view) (ids : list bytes) (s : dbstate) : dbstate * outcome unit verr :=
  match fuel, ids with
  | _, [] => (s, Done tt)
  | O, _ => (s, Done tt)
  | S f, _ =>
      let n := (length ids - view_chunk)%nat in
      match map_chunk (fun l => l) (vw_def v) (w_docs (db_work s) (vw_coll v)) (skipn n ids) (w_views (db_work s) (vw_name v)) with
      | Done vs => map_all f v (firstn n ids) (mk_db (set_view (db_work s) (vw_name v) vs) (db_log s ++ [(next_tx (db_log s), None)]))
      | Fail e => (s, Fail e)
      | Panic => (s, Panic)
      end
  end.
(* update_view_if_needed with block_until_updated, bonsaidb-local/src/tasks.rs:55-113:
   the mapper job runs here to its end *)
Definition update_view (v : view) (s : dbstate) : dbstate * outcome unit verr :=
  let vs := w_views (db_work s) (vw_name v) in
  map_all (length (vs_invalid vs)) v (t_keys (vs_invalid vs)) s.
(* view_by_name, bonsaidb-core/src/schema/schematic.rs *)
Definition view_named (E : env) (n : bytes) : option view := find (fun v => bytes_eqb (vw_name v) n) (ev_views E).

Section Handle.
Variable E : env.
Variable perm : option N -> session.        (* of the request's session *)
Variable vperm : option N -> vsession.

(* Handler::handle: Get dispatch.rs:305-318, List 336-353, Query 391-409, ApplyTransaction
   466-481, DeleteDocs 483-498, ListExecutedTransactions 500-515; with the access policy
   UpdateBefore for queries (bonsaidb-local/src/database.rs:209-213, 1456-1486,
   1605-1625). ListExecutedTransactions' own permission is in C78. *)
Definition handle (s : dbstate) (se : option N) (r : request) : dbstate * response :=
  match r with
  | QGet c id => (s, SGet (get_doc (perm se) s c id))
  | QList c lo hi asc limit => (s, SList (list_docs (perm se) s c lo hi asc limit))
  | QApply ops => let (s', o) := apply_transaction E (perm se) s ops in (s', SApply o)
  | QQuery n q asc limit =>
      match view_named E n with
      | None => (s, SNoView)
      | Some v =>
          if vperm se VQuery n then
            match update_view v s with
            | (s', Done _) => (s', SQuery (query (vperm se) s' v q asc limit))
            | (s', Fail e) => (s', SQuery (Fail (ViewError e)))
            | (s', Panic) => (s', SQuery Panic)
            end
          else (s, SQuery (Fail PermissionDenied))
      end
  | QDeleteDocs n q =>
      match view_named E n with
      | None => (s, SNoView)
      | Some v =>
          match update_view v s with
          | (s', Done _) => let (s2, o) := delete_docs E (perm se) s' v q in (s2, SDeleted o)
          | (s', Fail e) => (s', SDeleted (Fail (ViewError e)))
          | (s', Panic) => (s', SDeleted Panic)
          end
      end
  | QLog start limit => (s, SLog (list_executed (db_log s) start limit))
  end.

(* requests and responses on the wire: Remote.v's payloads are numbers *)
Variable dec : N -> option request.
Variable enc : response -> N.
Definition exec (s : dbstate) (se : option N) (n : N) : dbstate * N :=
  match dec n with
  | Some r => let (s', a) := handle s se r in (s', enc a)
  | None => (s, enc SMalformed)
  end.
End Handle.
