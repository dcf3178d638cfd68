(* Model of view queries: bonsaidb-local/src/database.rs:759-832 and 1466-1634. The
   waiting of for_each_in_view (200-224) is in ViewSync.v: these functions read the
   stored entries of the moment. *)
From Verif Require Import Base Key KeyPrefix DocId Tree View Docs.
Local Open Scope N_scope.

(* SerializedQueryKey, core/src/connection.rs; None: all entries *)
Inductive qkey := QRange (lo hi : bound) | QMatches (k : bytes) | QMultiple (ks : list bytes).

(* create_view_iterator, database.rs:759-832. nebari's get_multiple is taken to look
   up each of the (sorted) keys. *)
Definition view_entries (t : tree entry) (q : option qkey) (ascending : bool) (limit : option N) : list (bytes * entry) :=
  match q with
  | None => scan Unbounded Unbounded ascending limit t
  | Some (QRange lo hi) => scan lo hi ascending limit t
  | Some (QMatches k) => match t_get k t with Some e => [(k, e)] | None => [] end
  | Some (QMultiple ks) => flat_map (fun k => match t_get k t with Some e => [(k, e)] | None => [] end) (sort_ids ks)
  end.

(* the actions of a session on a view: Query, Reduce; DeleteDocs is not checked *)
Inductive vaction := VQuery | VReduce.
Definition vsession := vaction -> bytes -> bool.

Definition entries_of (s : dbstate) (v : view) : tree entry := vs_entries (w_views (db_work s) (vw_name v)).
(* map::Serialized *)
Definition entry_mappings (e : bytes * entry) : list emission :=
  map (fun m => mk_em (fst e) (m_src m) (m_value m)) (e_maps (snd e)).
(* query_by_name, database.rs:1456-1486 *)
Definition query (p : vsession) (s : dbstate) (v : view) (q : option qkey) (ascending : bool) (limit : option N)
  : outcome (list emission) terr :=
  if p VQuery (vw_name v)
  then Done (flat_map entry_mappings (view_entries (entries_of s v) q ascending limit))
  else Fail PermissionDenied.
(* query_by_name_with_docs, database.rs:1498-1525, when nothing happens between its
   two reads; the documents are collected in a map by id *)
Definition query_with_docs (p : vsession) (ps : session) (s : dbstate) (v : view) (q : option qkey) (ascending : bool) (limit : option N)
  : outcome (list emission * tree doc) terr :=
  match query p s v q ascending limit with
  | Done ms =>
      match get_multiple ps s (vw_coll v) (map (fun m => h_id (em_src m)) ms) with
      | Done ds => Done (ms, fold_left (fun t d => t_set (h_id (d_header d)) d t) ds [])
      | Fail e => Fail e
      | Panic => Panic
      end
  | Fail e => Fail e
  | Panic => Panic
  end.
(* reduce_grouped_by_name, database.rs:1574-1596 *)
Definition reduce_grouped (p : vsession) (s : dbstate) (v : view) (q : option qkey) : outcome (list (bytes * bytes)) terr :=
  if p VReduce (vw_name v)
  then Done (map (fun e => (fst e, e_reduced (snd e))) (view_entries (entries_of s v) q true None))
  else Fail PermissionDenied.
(* reduce_by_name, database.rs:1537-1561 *)
Definition reduce (p : vsession) (s : dbstate) (v : view) (q : option qkey) : outcome bytes terr :=
  match reduce_grouped p s v q with
  | Done [m] => Done (snd m)
  | Done ms => match vd_rereduce (vw_def v) ms with
               | Done r => Done r
               | Fail e => Fail (ViewError e)
               | Panic => Panic
               end
  | Fail e => Fail e
  | Panic => Panic
  end.
(* delete_docs_by_name, database.rs:1608-1633 *)
Definition delete_ops (s : dbstate) (v : view) (q : option qkey) : list operation :=
  flat_map (fun e => map (fun m => mk_op (vw_coll v) (Delete (m_src m))) (e_maps (snd e)))
    (view_entries (entries_of s v) q true None).
Definition delete_docs (E : env) (ps : session) (s : dbstate) (v : view) (q : option qkey) : dbstate * outcome N terr :=
  match apply_transaction E ps s (delete_ops s v q) with
  | (s', Done rs) => (s', Done (N.of_nat (length rs)))
  | (s', Fail e) => (s', Fail e)
  | (s', Panic) => (s', Panic)
  end.
