(* Typed collections: what the methods of SerializedCollection (bonsaidb-core
   schema/collection.rs:344-1200), CollectionDocument (document/collection.rs:94-313), the
   collection builder (connection.rs:180-470) and LowLevelConnection (connection/lowlevel.rs:
   44-262) do with the transactions and reads of Docs.v. The async methods are the same
   with .await. A collection is given by its name, the type of its primary key and its
   serialization format; contents are values of any type [A]. *)
From Verif Require Import Base Key KeyPrefix DocId Tree View Docs.
Local Open Scope N_scope.

Record collection (A : Type) := mk_coll {
  co_name : bytes;
  co_key : kty;
  co_ser : A -> option bytes;       (* SerializedCollection::serialize, None: an error *)
  co_de : bytes -> option A;        (* deserialize *)
  co_nat : A -> option kval         (* natural_id *)
}.
Arguments mk_coll {A}. Arguments co_name {A}. Arguments co_key {A}. Arguments co_ser {A}. Arguments co_de {A}. Arguments co_nat {A}.
Inductive cerr := Other (e : terr) | Serialization | Missing (id : bytes).

(* CollectionDocument<C> and CollectionHeader<PrimaryKey> *)
Record theader := mk_th { th_id : kval; th_rev : revision }.
Record tdoc (A : Type) := mk_td { td_header : theader; td_contents : A }.
Arguments mk_td {A}. Arguments td_header {A}. Arguments td_contents {A}.

(* DocumentId::new, document/id.rs:234-241 *)
Definition doc_id (t : kty) (v : kval) : outcome bytes cerr :=
  match encode t v with
  | Done b => match try_from_bytes b with Done i => Done i | _ => Fail (Other IdTooLong) end
  | Fail _ => Fail (Other KeyError)
  | Panic => Panic
  end.
(* CollectionHeader::try_from(Header), document/header.rs:135-162 *)
Definition typed_header (t : kty) (h : header) : outcome theader cerr :=
  match decode t (h_id h) with
  | Done v => Done (mk_th v (h_rev h))
  | Fail _ => Fail (Other KeyError)
  | Panic => Panic
  end.
(* Header::try_from(CollectionHeader), header.rs:164-188 *)
Definition plain_header (t : kty) (h : theader) : outcome header cerr :=
  match doc_id t (th_id h) with Done i => Done (mk_header i (th_rev h)) | Fail e => Fail e | Panic => Panic end.
(* CollectionDocument::try_from(&OwnedDocument), document/collection.rs:50-55 *)
Definition typed_doc {A} (C : collection A) (d : doc) : outcome (tdoc A) cerr :=
  match co_de C (d_contents d) with
  | None => Fail Serialization
  | Some a => match typed_header (co_key C) (d_header d) with Done h => Done (mk_td h a) | Fail e => Fail e | Panic => Panic end
  end.
(* OwnedDocuments::collection_documents, document/collection.rs:425-432: stops at the first error *)
Fixpoint typed_docs {A} (C : collection A) (ds : list doc) : outcome (list (tdoc A)) cerr :=
  match ds with
  | [] => Done []
  | d :: r =>
      match typed_doc C d with
      | Done x => match typed_docs C r with Done xs => Done (x :: xs) | Fail e => Fail e | Panic => Panic end
      | Fail e => Fail e
      | Panic => Panic
      end
  end.

(* one operation through apply_transaction; the result must be DocumentUpdated
   (lowlevel.rs:62-68, 92-99, 118-125), else unreachable!() *)
Definition one_update (E : env) (p : session) (s : dbstate) (o : operation) : dbstate * outcome header cerr :=
  match apply_transaction E p s [o] with
  | (s', Done (RUpdated _ h :: _)) => (s', Done h)
  | (s', Done _) => (s', Panic)
  | (s', Fail e) => (s', Fail (Other e))
  | (s', Panic) => (s', Panic)
  end.
Definition with_header {A} (C : collection A) (r : dbstate * outcome header cerr) : dbstate * outcome theader cerr :=
  match r with
  | (s', Done h) => (s', typed_header (co_key C) h)
  | (s', Fail e) => (s', Fail e)
  | (s', Panic) => (s', Panic)
  end.
(* LowLevelConnection::insert, lowlevel.rs:44-69 *)
Definition ll_insert {A} (E : env) (p : session) (C : collection A) (s : dbstate) (id : option kval) (contents : bytes) : dbstate * outcome theader cerr :=
  match match id with None => Done None | Some v => match doc_id (co_key C) v with Done i => Done (Some i) | Fail e => Fail e | Panic => Panic end end with
  | Done i => with_header C (one_update E p s (mk_op (co_name C) (Insert i contents)))
  | Fail e => (s, Fail e)
  | Panic => (s, Panic)
  end.
(* LowLevelConnection::overwrite, lowlevel.rs:106-126 *)
Definition ll_overwrite {A} (E : env) (p : session) (C : collection A) (s : dbstate) (id : kval) (contents : bytes) : dbstate * outcome theader cerr :=
  match doc_id (co_key C) id with
  | Done i => with_header C (one_update E p s (mk_op (co_name C) (Overwrite i contents)))
  | Fail e => (s, Fail e)
  | Panic => (s, Panic)
  end.
(* InsertError, schema/collection.rs:1262-1270: the error with the contents *)
Definition wrap {A} (a : A) (r : dbstate * outcome theader cerr) : dbstate * outcome (tdoc A) (A * cerr) :=
  match r with
  | (s, Done h) => (s, Done (mk_td h a))
  | (s, Fail e) => (s, Fail (a, e))
  | (s, Panic) => (s, Panic)
  end.
(* SerializedCollection::push, schema/collection.rs:682-695, with Collection::push, connection.rs:180-193 *)
Definition push {A} (E : env) (p : session) (C : collection A) (s : dbstate) (a : A) : dbstate * outcome (tdoc A) (A * cerr) :=
  match co_ser C a with
  | None => (s, Fail (a, Serialization))
  | Some b => wrap a (ll_insert E p C s (co_nat C a) b)
  end.
(* SerializedCollection::insert, 978-994, with Collection::insert, connection.rs:238-250 *)
Definition insert {A} (E : env) (p : session) (C : collection A) (s : dbstate) (id : kval) (a : A) : dbstate * outcome (tdoc A) (A * cerr) :=
  match co_ser C a with
  | None => (s, Fail (a, Serialization))
  | Some b => wrap a (ll_insert E p C s (Some id) b)
  end.
(* SerializedCollection::overwrite, 1122-1142 *)
Definition overwrite {A} (E : env) (p : session) (C : collection A) (s : dbstate) (id : kval) (a : A) : dbstate * outcome (tdoc A) (A * cerr) :=
  match co_ser C a with
  | None => (s, Fail (a, Serialization))
  | Some b => wrap a (ll_overwrite E p C s id b)
  end.
(* SerializedCollection::get, 344-357 *)
Definition get {A} (p : session) (C : collection A) (s : dbstate) (id : kval) : outcome (option (tdoc A)) cerr :=
  match doc_id (co_key C) id with
  | Done i =>
      match get_doc p s (co_name C) i with
      | Done (Some d) => match typed_doc C d with Done x => Done (Some x) | Fail e => Fail e | Panic => Panic end
      | Done None => Done None
      | Fail e => Fail (Other e)
      | Panic => Panic
      end
  | Fail e => Fail e
  | Panic => Panic
  end.
(* ids.map(DocumentId::new).collect(), lowlevel.rs:160-163 *)
Fixpoint doc_ids (t : kty) (vs : list kval) : outcome (list bytes) cerr :=
  match vs with
  | [] => Done []
  | v :: r => match doc_id t v with
              | Done i => match doc_ids t r with Done l => Done (i :: l) | Fail e => Fail e | Panic => Panic end
              | Fail e => Fail e
              | Panic => Panic
              end
  end.
(* get_multiple, 403-419 *)
Definition get_many {A} (p : session) (C : collection A) (s : dbstate) (ids : list kval) : outcome (list (tdoc A)) cerr :=
  match doc_ids (co_key C) ids with
  | Done is => match get_multiple p s (co_name C) is with Done ds => typed_docs C ds | Fail e => Fail (Other e) | Panic => Panic end
  | Fail e => Fail e
  | Panic => Panic
  end.
(* Rust's range expressions, connection.rs:2615-2820 *)
Inductive range := Between (a b : kval) | From (a : kval) | To (b : kval) | BetweenIncl (a b : kval) | ToIncl (b : kval) | Full.
Inductive kbound := KIncluded (v : kval) | KExcluded (v : kval) | KUnbounded.
Definition range_bounds (r : range) : kbound * kbound :=
  match r with
  | Between a b => (KIncluded a, KExcluded b)
  | From a => (KIncluded a, KUnbounded)
  | To b => (KUnbounded, KExcluded b)
  | BetweenIncl a b => (KIncluded a, KIncluded b)
  | ToIncl b => (KUnbounded, KIncluded b)
  | Full => (KUnbounded, KUnbounded)
  end.
(* Bound::map_result *)
Definition bound_id (t : kty) (b : kbound) : outcome bound cerr :=
  match b with
  | KUnbounded => Done Unbounded
  | KIncluded v => match doc_id t v with Done i => Done (Included i) | Fail e => Fail e | Panic => Panic end
  | KExcluded v => match doc_id t v with Done i => Done (Excluded i) | Fail e => Fail e | Panic => Panic end
  end.
(* the list builder, connection.rs:500-606: ascending(), descending(), limit(n) in any order *)
Inductive setting := Ascending | Descending | Limit (n : N).
Definition configure (l : list setting) : bool * option N :=
  fold_left (fun c x => match x with Ascending => (true, snd c) | Descending => (false, snd c) | Limit n => (fst c, Some n) end) l (true, None).
Definition with_range {A B} (C : collection A) (r : range) (f : bound -> bound -> outcome B cerr) : outcome B cerr :=
  match bound_id (co_key C) (fst (range_bounds r)) with
  | Done lo => match bound_id (co_key C) (snd (range_bounds r)) with Done hi => f lo hi | Fail e => Fail e | Panic => Panic end
  | Fail e => Fail e
  | Panic => Panic
  end.
(* SerializedCollection::list(range).…settings….query(), schema/collection.rs:475-485, 2155-2175 *)
Definition list_query {A} (p : session) (C : collection A) (s : dbstate) (r : range) (l : list setting) : outcome (list (tdoc A)) cerr :=
  with_range C r (fun lo hi =>
    match list_docs p s (co_name C) lo hi (fst (configure l)) (snd (configure l)) with
    | Done ds => typed_docs C ds
    | Fail e => Fail (Other e)
    | Panic => Panic
    end).
(* .count(), connection.rs:545-560: order and limit are ignored *)
Definition list_count {A} (p : session) (C : collection A) (s : dbstate) (r : range) : outcome N cerr :=
  with_range C r (fun lo hi => match count_docs p s (co_name C) lo hi with Done n => Done n | Fail e => Fail (Other e) | Panic => Panic end).

(* CollectionDocument::to_document, document/collection.rs:308-313 *)
Definition to_document {A} (C : collection A) (d : tdoc A) : outcome doc cerr :=
  match co_ser C (td_contents d) with
  | None => Fail Serialization
  | Some b => match plain_header (co_key C) (td_header d) with Done h => Done (mk_doc h b) | Fail e => Fail e | Panic => Panic end
  end.
(* CollectionDocument::update, 94-101; the document afterwards and the result *)
Definition update {A} (E : env) (p : session) (C : collection A) (s : dbstate) (d : tdoc A) : dbstate * tdoc A * outcome unit cerr :=
  match to_document C d with
  | Done x =>
      match one_update E p s (mk_op (co_name C) (Update (d_header x) (d_contents x))) with
      | (s', Done h) => match typed_header (co_key C) h with
                        | Done th => (s', mk_td th (td_contents d), Done tt)
                        | Fail e => (s', d, Fail e)
                        | Panic => (s', d, Panic)
                        end
      | (s', Fail e) => (s', d, Fail e)
      | (s', Panic) => (s', d, Panic)
      end
  | Fail e => (s, d, Fail e)
  | Panic => (s, d, Panic)
  end.
(* CollectionDocument::delete, 251-254, with lowlevel.rs:246-262 *)
Definition delete {A} (E : env) (p : session) (C : collection A) (s : dbstate) (d : tdoc A) : dbstate * outcome unit cerr :=
  match plain_header (co_key C) (td_header d) with
  | Done h =>
      match apply_transaction E p s [mk_op (co_name C) (Delete h)] with
      | (s', Done (RDeleted _ _ :: _)) => (s', Done tt)
      | (s', Done _) => (s', Panic)
      | (s', Fail e) => (s', Fail (Other e))
      | (s', Panic) => (s', Panic)
      end
  | Fail e => (s, Fail e)
  | Panic => (s, Panic)
  end.
(* CollectionDocument::refresh, 287-292 *)
Definition refresh {A} (p : session) (C : collection A) (s : dbstate) (d : tdoc A) : tdoc A * outcome unit cerr :=
  match doc_id (co_key C) (th_id (td_header d)) with
  | Done i =>
      (* the DocumentId is a key encoding of itself: get does not encode again *)
      match get_doc p s (co_name C) i with
      | Done (Some x) => match typed_doc C x with Done y => (y, Done tt) | Fail e => (d, Fail e) | Panic => (d, Panic) end
      | Done None => (d, Fail (Missing i))
      | Fail e => (d, Fail (Other e))
      | Panic => (d, Panic)
      end
  | Fail e => (d, Fail e)
  | Panic => (d, Panic)
  end.
(* Operation::push_serialized, transaction.rs:203-208 *)
Definition push_op {A} (C : collection A) (a : A) : outcome operation cerr :=
  match match co_nat C a with None => Done None | Some v => match doc_id (co_key C) v with Done i => Done (Some i) | Fail e => Fail e | Panic => Panic end end with
  | Done i => match co_ser C a with Some b => Done (mk_op (co_name C) (Insert i b)) | None => Fail Serialization end
  | Fail e => Fail e
  | Panic => Panic
  end.
Fixpoint push_ops {A} (C : collection A) (l : list A) : outcome (list operation) cerr :=
  match l with
  | [] => Done []
  | a :: r => match push_op C a with
              | Done o => match push_ops C r with Done os => Done (o :: os) | Fail e => Fail e | Panic => Panic end
              | Fail e => Fail e
              | Panic => Panic
              end
  end.
(* the loop over results.zip(documents), 793-800 *)
Fixpoint fill {A} (C : collection A) (rs : list opres) (l : list A) : outcome (list (tdoc A)) cerr :=
  match rs, l with
  | RUpdated _ h :: rs', a :: l' =>
      match typed_header (co_key C) h with
      | Done th => match fill C rs' l' with Done ds => Done (mk_td th a :: ds) | Fail e => Fail e | Panic => Panic end
      | Fail e => Fail e
      | Panic => Panic
      end
  | _ :: _, _ :: _ => Panic
  | _, _ => Done []
  end.
(* SerializedCollection::push_all, 769-803. The documents for which there is no result would
   keep their default header; there is a result for each (C22), so [fill] leaves none out. *)
Definition push_all {A} (E : env) (p : session) (C : collection A) (s : dbstate) (l : list A) : dbstate * outcome (list (tdoc A)) cerr :=
  match push_ops C l with
  | Done os =>
      match apply_transaction E p s os with
      | (s', Done rs) => (s', fill C rs l)
      | (s', Fail e) => (s', Fail (Other e))
      | (s', Panic) => (s', Panic)
      end
  | Fail e => (s, Fail e)
  | Panic => (s, Panic)
  end.
