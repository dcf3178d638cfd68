(* Typed view queries: what SerializedView::entries(…) with its builder (bonsaidb-core
   connection.rs:640-1030), LowLevelConnection's query, query_with_docs,
   query_with_collection_docs, reduce, reduce_grouped and delete_docs (connection/lowlevel.rs:
   262-470), the adapter of a view's map and reduce functions (schema/schematic.rs:231-290)
   and the types Mappings and MappedDocuments (schema/view/map.rs) do with the stored
   entries of Query.v. The waiting that the access policy asks for is in ViewSync.v. The async
   methods are the same with .await. *)
From Verif Require Import Base Key KeySpec KeyPrefix DocId Tree View Docs Query Typed.
Local Open Scope N_scope.

(* iter.map(f).collect::<Result<Vec<_>, _>>(): stops at the first error *)
Fixpoint collect {X Y F} (f : X -> outcome Y F) (l : list X) : outcome (list Y) F :=
  match l with
  | [] => Done []
  | x :: r => match f x with
              | Done y => match collect f r with Done ys => Done (y :: ys) | Fail e => Fail e | Panic => Panic end
              | Fail e => Fail e
              | Panic => Panic
              end
  end.

(* Mappings, schema/view/map.rs:77-84 *)
Inductive mappings (X : Type) := Simple (o : option X) | ListOf (l : list X).
Arguments Simple {X}. Arguments ListOf {X}.
(* Mappings::none, 94-96 *)
Definition m_none {X} : mappings X := Simple None.
(* Mappings::push, 99-111 *)
Definition m_push {X} (m : mappings X) (x : X) : mappings X :=
  match m with
  | Simple (Some y) => ListOf [y; x]
  | Simple None => Simple (Some x)
  | ListOf l => ListOf (l ++ [x])
  end.
(* into_iter and next, 171-215, until it gives None *)
Definition m_iter {X} (m : mappings X) : list X :=
  match m with Simple (Some y) => [y] | Simple None => [] | ListOf l => l end.
(* extend, 138-145 *)
Definition m_extend {X} (m : mappings X) (l : list X) : mappings X := fold_left m_push l m.
(* and, 114-117 *)
Definition m_and {X} (m n : mappings X) : mappings X := m_extend m (m_iter n).
(* from_iter of maps, 147-153 *)
Definition m_of_list {X} (l : list X) : mappings X := m_extend m_none l.
(* from_iter of Mappings, 155-167 *)
Definition m_concat {X} (l : list (mappings X)) : mappings X :=
  match l with m :: r => fold_left m_and r m | [] => m_none end.
(* len, 125-131 *)
Definition m_len {X} (m : mappings X) : N :=
  match m with Simple None => 0 | Simple (Some _) => 1 | ListOf l => N.of_nat (length l) end.
(* is_empty, 134-136 *)
Definition m_is_empty {X} (m : mappings X) : bool := m_len m =? 0.
(* emit_key_and_value, document/header.rs:70-76 and 100-107: the source is the header of the
   document, which is not kept here; emit_if with a key and value in place of () *)
Definition emit {X} (x : X) : mappings X := Simple (Some x).
Definition emit_if {X} (b : bool) (x : X) : mappings X := if b then emit x else m_none.

(* a view of the collection [tv_coll] with typed keys and values. The map function is that
   of CollectionMapReduce (schema/view.rs), called with the document's contents. Its results
   are taken to have the header of this document as source. *)
Record tview (A B : Type) := mk_tview {
  tv_coll : collection A;
  tv_name : bytes;
  tv_policy : policy;
  tv_key : kty;
  tv_ser : B -> option bytes;
  tv_de : bytes -> option B;
  tv_map : tdoc A -> option (mappings (kval * B));
  tv_reduce : list (kval * B) -> bool -> outcome B verr
}.
Arguments mk_tview {A B}. Arguments tv_coll {A B}. Arguments tv_name {A B}. Arguments tv_policy {A B}. Arguments tv_key {A B}.
Arguments tv_ser {A B}. Arguments tv_de {A B}. Arguments tv_map {A B}. Arguments tv_reduce {A B}.

(* Map::serialized, map.rs:25-40 *)
Definition ser_pair {A B} (V : tview A B) (p : kval * B) : outcome (bytes * bytes) verr :=
  match encode (tv_key V) (fst p) with
  | Done k => match tv_ser V (snd p) with Some b => Done (k, b) | None => Fail MapError end
  | Fail _ => Fail MapError
  | Panic => Panic
  end.
(* ViewInstance::map, schematic.rs:258-267; all errors are one (None), and so are panics of
   the encoding *)
Definition ser_map {A B} (V : tview A B) (d : doc) : option (list (bytes * bytes)) :=
  match typed_doc (tv_coll V) d with
  | Done x => match tv_map V x with
              | Some m => match collect (ser_pair V) (m_iter m) with Done l => Some l | _ => None end
              | None => None
              end
  | _ => None
  end.
Definition de_pair {A B} (V : tview A B) (p : bytes * bytes) : outcome (kval * B) verr :=
  match decode (tv_key V) (fst p) with
  | Done k => match tv_de V (snd p) with Some b => Done (k, b) | None => Fail ReduceError end
  | Fail _ => Fail ReduceError
  | Panic => Panic
  end.
(* ViewInstance::reduce, schematic.rs:269-287 *)
Definition ser_reduce {A B} (V : tview A B) (rereduce : bool) (l : list (bytes * bytes)) : outcome bytes verr :=
  match collect (de_pair V) l with
  | Done ps => match tv_reduce V ps rereduce with
               | Done r => match tv_ser V r with Some b => Done b | None => Fail ReduceError end
               | Fail e => Fail e
               | Panic => Panic
               end
  | Fail e => Fail e
  | Panic => Panic
  end.
(* the view as the storage sees it, schematic.rs:231-288 *)
Definition to_view {A B} (V : tview A B) : view :=
  mk_view (tv_name V) (co_name (tv_coll V)) (mk_vdef (tv_policy V) (ser_map V) (ser_reduce V false) (ser_reduce V true)).

(* QueryKey, connection.rs:2264-2278 *)
Inductive tkey := TMatches (v : kval) | TMultiple (vs : list kval) | TRange (lo hi : kbound).
Definition key_bytes (t : kty) (v : kval) : outcome bytes cerr :=
  match encode t v with Done b => Done b | Fail _ => Fail (Other KeyError) | Panic => Panic end.
Definition bound_bytes (t : kty) (b : kbound) : outcome bound cerr :=
  match b with
  | KUnbounded => Done Unbounded
  | KIncluded v => match key_bytes t v with Done i => Done (Included i) | Fail e => Fail e | Panic => Panic end
  | KExcluded v => match key_bytes t v with Done i => Done (Excluded i) | Fail e => Fail e | Panic => Panic end
  end.
(* QueryKey::serialized, connection.rs:2286-2313 *)
Definition serialize_key (t : kty) (q : tkey) : outcome qkey cerr :=
  match q with
  | TMatches v => match key_bytes t v with Done b => Done (QMatches b) | Fail e => Fail e | Panic => Panic end
  | TMultiple vs => match collect (key_bytes t) vs with Done l => Done (QMultiple l) | Fail e => Fail e | Panic => Panic end
  | TRange lo hi => match bound_bytes t lo with
                    | Done l => match bound_bytes t hi with Done h => Done (QRange l h) | Fail e => Fail e | Panic => Panic end
                    | Fail e => Fail e
                    | Panic => Panic
                    end
  end.
(* key.map(|key| key.serialized()).transpose()? *)
Definition with_query {R} (t : kty) (q : option tkey) (f : option qkey -> outcome R cerr) : outcome R cerr :=
  match q with
  | None => f None
  | Some k => match serialize_key t k with Done k' => f (Some k') | Fail e => Fail e | Panic => Panic end
  end.

(* CollectionMap, map.rs:53-62 *)
Record tmap (B : Type) := mk_tm { tm_src : theader; tm_key : kval; tm_value : B }.
Arguments mk_tm {B}. Arguments tm_src {B}. Arguments tm_key {B}. Arguments tm_value {B}.
(* lowlevel.rs:292-301 *)
Definition typed_mapping {A B} (V : tview A B) (m : emission) : outcome (tmap B) cerr :=
  match decode (tv_key V) (em_key m) with
  | Done k =>
      match tv_de V (em_value m) with
      | Some b => match typed_header (co_key (tv_coll V)) (em_src m) with Done h => Done (mk_tm h k b) | Fail e => Fail e | Panic => Panic end
      | None => Fail Serialization
      end
  | Fail _ => Fail (Other KeyError)
  | Panic => Panic
  end.
(* LowLevelConnection::query, lowlevel.rs:271-303 *)
Definition tquery {A B} (p : vsession) (V : tview A B) (s : dbstate) (q : option tkey) (ascending : bool) (limit : option N)
  : outcome (list (tmap B)) cerr :=
  with_query (tv_key V) q (fun q' =>
    match query p s (to_view V) q' ascending limit with
    | Done ms => collect (typed_mapping V) ms
    | Fail e => Fail (Other e)
    | Panic => Panic
    end).

(* BTreeMap by primary key *)
Fixpoint bt_insert {D} (k : kval) (d : D) (l : list (kval * D)) : list (kval * D) :=
  match l with
  | [] => [(k, d)]
  | (j, e) :: r => match kcmp k j with
                   | Lt => (k, d) :: l
                   | Eq => (j, d) :: r
                   | Gt => (j, e) :: bt_insert k d r
                   end
  end.
Fixpoint bt_get {D} (k : kval) (l : list (kval * D)) : option D :=
  match l with
  | [] => None
  | (j, d) :: r => match kcmp k j with Eq => Some d | _ => bt_get k r end
  end.
Definition bt_of {D} (l : list (kval * D)) : list (kval * D) := fold_left (fun t p => bt_insert (fst p) (snd p) t) l [].
(* MappedDocuments, map.rs:231-239 *)
Record mapped_docs (D B : Type) := mk_md { md_maps : list (tmap B); md_docs : list (kval * D) }.
Arguments mk_md {D B}. Arguments md_maps {D B}. Arguments md_docs {D B}.
(* MappedDocuments::get, map.rs:259-276; a missing document panics *)
Definition md_get {D B} (m : mapped_docs D B) (i : nat) : outcome (option (kval * B * D)) unit :=
  match nth_error (md_maps m) i with
  | Some t => match bt_get (th_id (tm_src t)) (md_docs m) with
              | Some d => Done (Some (tm_key t, tm_value t, d))
              | None => Panic
              end
  | None => Done None
  end.
(* the iterator, map.rs:279-285, 303-327: everything it gives until the first None *)
Fixpoint md_drain {D B} (fuel : nat) (m : mapped_docs D B) (i : nat) : outcome (list (kval * B * D)) unit :=
  match fuel with
  | O => Done []
  | S f => match md_get m i with
           | Done (Some x) => match md_drain f m (S i) with Done l => Done (x :: l) | Fail e => Fail e | Panic => Panic end
           | Done None => Done []
           | Fail e => Fail e
           | Panic => Panic
           end
  end.
Definition md_iter {D B} (m : mapped_docs D B) : outcome (list (kval * B * D)) unit := md_drain (S (length (md_maps m))) m 0.

(* query_with_docs, lowlevel.rs:316-350, when nothing happens between its two reads *)
Definition tquery_with_docs {A B} (p : vsession) (ps : session) (V : tview A B) (s : dbstate) (q : option tkey) (ascending : bool) (limit : option N)
  : outcome (mapped_docs doc B) cerr :=
  match tquery p V s q ascending limit with
  | Done ms =>
      match doc_ids (co_key (tv_coll V)) (map (fun m => th_id (tm_src m)) ms) with
      | Done is =>
          match get_multiple ps s (co_name (tv_coll V)) is with
          | Done ds =>
              match collect (fun d => match decode (co_key (tv_coll V)) (h_id (d_header d)) with
                                      | Done v => Done (v, d) | Fail _ => Fail (Other KeyError) | Panic => Panic end) ds with
              | Done l => Done (mk_md ms (bt_of l))
              | Fail e => Fail e
              | Panic => Panic
              end
          | Fail e => Fail (Other e)
          | Panic => Panic
          end
      | Fail e => Fail e
      | Panic => Panic
      end
  | Fail e => Fail e
  | Panic => Panic
  end.
(* query_with_collection_docs, lowlevel.rs:363-388 *)
Definition tquery_with_collection_docs {A B} (p : vsession) (ps : session) (V : tview A B) (s : dbstate) (q : option tkey) (ascending : bool) (limit : option N)
  : outcome (mapped_docs (tdoc A) B) cerr :=
  match tquery_with_docs p ps V s q ascending limit with
  | Done m =>
      match collect (fun e => match typed_doc (tv_coll V) (snd e) with Done x => Done (fst e, x) | Fail e => Fail e | Panic => Panic end) (md_docs m) with
      | Done l => Done (mk_md (md_maps m) (bt_of l))
      | Fail e => Fail e
      | Panic => Panic
      end
  | Fail e => Fail e
  | Panic => Panic
  end.
(* LowLevelConnection::reduce, lowlevel.rs:399-416 *)
Definition treduce {A B} (p : vsession) (V : tview A B) (s : dbstate) (q : option tkey) : outcome B cerr :=
  with_query (tv_key V) q (fun q' =>
    match reduce p s (to_view V) q' with
    | Done b => match tv_de V b with Some r => Done r | None => Fail Serialization end
    | Fail e => Fail (Other e)
    | Panic => Panic
    end).
(* LowLevelConnection::reduce_grouped, lowlevel.rs:418-442 *)
Definition treduce_grouped {A B} (p : vsession) (V : tview A B) (s : dbstate) (q : option tkey) : outcome (list (kval * B)) cerr :=
  with_query (tv_key V) q (fun q' =>
    match reduce_grouped p s (to_view V) q' with
    | Done gs => collect (fun g => match decode (tv_key V) (fst g) with
                                   | Done k => match tv_de V (snd g) with Some b => Done (k, b) | None => Fail Serialization end
                                   | Fail _ => Fail (Other KeyError)
                                   | Panic => Panic
                                   end) gs
    | Fail e => Fail (Other e)
    | Panic => Panic
    end).
(* LowLevelConnection::delete_docs, lowlevel.rs:453-469 *)
Definition tdelete_docs {A B} (E : env) (ps : session) (V : tview A B) (s : dbstate) (q : option tkey) : dbstate * outcome N cerr :=
  match with_query (tv_key V) q (fun q' => Done q') with
  | Done q' => match delete_docs E ps s (to_view V) q' with
               | (s', Done n) => (s', Done n)
               | (s', Fail e) => (s', Fail (Other e))
               | (s', Panic) => (s', Panic)
               end
  | Fail e => (s, Fail e)
  | Panic => (s, Panic)
  end.

(* the builder, connection.rs:676-905; with_access_policy is in ViewSync.v *)
Inductive vsetting := WithKey (v : kval) | WithKeys (vs : list kval) | WithRange (r : range) | InOrder (ascending : bool) | AtMost (n : N).
Record vquery := mk_vq { vq_key : option tkey; vq_asc : bool; vq_limit : option N }.
Definition vset (c : vquery) (x : vsetting) : vquery :=
  match x with
  | WithKey v => mk_vq (Some (TMatches v)) (vq_asc c) (vq_limit c)
  | WithKeys vs => mk_vq (Some (TMultiple vs)) (vq_asc c) (vq_limit c)
  | WithRange r => mk_vq (Some (TRange (fst (range_bounds r)) (snd (range_bounds r)))) (vq_asc c) (vq_limit c)
  | InOrder b => mk_vq (vq_key c) b (vq_limit c)
  | AtMost n => mk_vq (vq_key c) (vq_asc c) (Some n)
  end.
Definition vconfigure (l : list vsetting) : vquery := fold_left vset l (mk_vq None true None).
Definition ventries {A B} (p : vsession) (V : tview A B) (s : dbstate) (l : list vsetting) : outcome (list (tmap B)) cerr :=
  tquery p V s (vq_key (vconfigure l)) (vq_asc (vconfigure l)) (vq_limit (vconfigure l)).
