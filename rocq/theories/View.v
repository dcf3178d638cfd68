(* Model of bonsaidb-local/src/views/mapper.rs: how the stored entries of one view
   follow the documents of its collection. *)
From Verif Require Import Base Key KeyPrefix Tree.
Local Open Scope N_scope.

(* Revision, core/src/document/revision.rs:8-14; Header, header.rs:12-19;
   documents are stored as header and contents (serialization is not modelled) *)
Record revision := mk_rev { r_id : N; r_sha : bytes }.
Record header := mk_header { h_id : bytes; h_rev : revision }.
Record doc := mk_doc { d_header : header; d_contents : bytes }.

(* ViewUpdatePolicy, core/src/schema/view.rs *)
Inductive policy := Lazy | Eager | Unique.
Definition is_eager (p : policy) : bool := match p with Lazy => false | _ => true end.
Definition is_unique (p : policy) : bool := match p with Unique => true | _ => false end.

Inductive verr :=
| MapError
| ReduceUnimplemented
| ReduceError
| UniqueKeyViolation (conflicting existing : header).

(* view::Serialized: the user's map and reduce functions. map gives the emitted
   keys and values (None: it fails); every mapping has the document's header as
   source (Emit, header.rs:34-). reduce gets the key with each value, vd_reduce
   models a call with rereduce = false (mapper.rs:450, 519) and vd_rereduce one with
   rereduce = true (database.rs:1549). *)
Record vdef := mk_vdef {
  vd_policy : policy;
  vd_map : doc -> option (list (bytes * bytes));
  vd_reduce : list (bytes * bytes) -> outcome bytes verr;
  vd_rereduce : list (bytes * bytes) -> outcome bytes verr }.

(* EntryMapping and ViewEntry, local/src/views.rs:8-22. The key and the
   view_version of an entry are not modelled: the key is the tree's key, and the
   version is never read. *)
Record mapping := mk_map { m_src : header; m_value : bytes }.
Record entry := mk_entry { e_maps : list mapping; e_reduced : bytes }.

(* the three trees of a view, views.rs:26-37; document_map holds a set of keys *)
Record vstate := mk_vs { vs_entries : tree entry; vs_docmap : tree (list bytes); vs_invalid : tree unit }.
Definition empty_vs : vstate := mk_vs [] [] [].

Definition m_id (m : mapping) : bytes := h_id (m_src m).
Definition mem (k : bytes) (l : list bytes) : bool := existsb (bytes_eqb k) l.

(* map::Serialized *)
Record emission := mk_em { em_key : bytes; em_src : header; em_value : bytes }.

(* update an existing mapping of the document, else push, mapper.rs:481-499.
   (Only the revision of the source is replaced, its id is equal.) *)
Fixpoint put_mapping (src : header) (v : bytes) (l : list mapping) : list mapping :=
  match l with
  | [] => [mk_map src v]
  | m :: r => if bytes_eqb (m_id m) (h_id src) then mk_map src v :: r else m :: put_mapping src v r
  end.

(* the loop over the new mappings of a key with the unique check, mapper.rs:465-500 *)
Fixpoint add_mappings (vd : vdef) (news : list emission) (l : list mapping) : outcome (list mapping) verr :=
  match news with
  | [] => Done l
  | n :: r =>
      match l with
      | m :: _ =>
          if is_unique (vd_policy vd) && negb (bytes_eqb (m_id m) (h_id (em_src n)))
          then Fail (UniqueKeyViolation (em_src n) (m_src m))
          else add_mappings vd r (put_mapping (em_src n) (em_value n) l)
      | [] => add_mappings vd r (put_mapping (em_src n) (em_value n) l)
      end
  end.

Inductive keyop := KSkip | KSet (e : entry) | KRemove.

Definition pairs (key : bytes) (l : list mapping) : list (bytes * bytes) := map (fun m => (key, m_value m)) l.

(* calling reduce if it is still believed to be implemented, mapper.rs:443-461 and
   512-531. Result: the new reduced value, the flag, or an error. *)
Definition try_reduce (vd : vdef) (flag : bool) (key : bytes) (l : list mapping) (old : bytes)
  : outcome (bytes * bool) verr :=
  if flag then
    match vd_reduce vd (pairs key l) with
    | Done r => Done (r, flag)
    | Fail ReduceUnimplemented => Done (old, false)
    | Fail e => Fail e
    | Panic => Panic
    end
  else Done (old, flag).

(* compare_swap_view_entry, mapper.rs:422-537. [clean]: the documents whose
   mappings of this key are to be removed, [news]: the new mappings (None when the
   maps have no entry for the key). Result: operation, flag, error. *)
Definition swap_entry (vd : vdef) (flag : bool) (key : bytes) (clean : option (list bytes))
  (news : option (list emission)) (old : option entry) : outcome (keyop * bool * option verr) verr :=
  let e := match old with Some e => e | None => mk_entry [] [] end in
  let step1 : outcome (option (list mapping * bytes * bool)) verr :=
    match clean with
    | Some ids =>
        let l := filter (fun m => negb (mem (m_id m) ids)) (e_maps e) in
        if match l, news with [], None => true | _, _ => false end then Done None
        else match try_reduce vd flag key l (e_reduced e) with
             | Done (r, f) => Done (Some (l, r, f))
             | Fail x => Fail x
             | Panic => Panic
             end
    | None => Done (Some (e_maps e, e_reduced e, flag))
    end in
  match step1 with
  | Done None => Done (KRemove, flag, None)
  | Done (Some (l, r, f)) =>
      match news with
      | None => Done (KSet (mk_entry l r), f, None)
      | Some ns =>
          match add_mappings vd ns l with
          | Done l' =>
              match try_reduce vd f key l' r with
              | Done (r', f') => Done (KSet (mk_entry l' r'), f', None)
              | Fail x => Done (KSkip, f, Some x)
              | Panic => Panic
              end
          | Fail x => Done (KSkip, f, Some x)
          | Panic => Panic
          end
      end
  | Fail x => Done (KSkip, flag, Some x)
  | Panic => Panic
  end.

(* view_entries.modify(all_keys, CompareSwap), mapper.rs:301-326: every key in
   order; the error of the last failing key is reported in the end *)
Fixpoint swap_all (vd : vdef) (clean : bytes -> option (list bytes)) (news : bytes -> option (list emission))
  (keys : list bytes) (flag : bool) (err : option verr) (t : tree entry) : outcome (tree entry) verr :=
  match keys with
  | [] => match err with None => Done t | Some e => Fail e end
  | k :: ks =>
      match swap_entry vd flag k (clean k) (news k) (t_get k t) with
      | Done (op, f, er) =>
          swap_all vd clean news ks f (match er with Some e => Some e | None => err end)
            (match op with KSkip => t | KSet e => t_set k e t | KRemove => t_remove k t end)
      | Fail x => Fail x
      | Panic => Panic
      end
  end.

(* what a batch knows about one document: its id and what it emits now *)
Definition mapped := (bytes * list emission)%type.

Definition em_keys (l : list emission) : list bytes := map em_key l.
(* view_entries_to_clean, mapper.rs:284-297: keys in the old but not in the new key
   set of a document *)
Definition stale (dm : tree (list bytes)) (rs : list mapped) : list (bytes * bytes) :=
  flat_map (fun m => match t_get (fst m) dm with
                     | Some old => map (fun k => (k, fst m)) (filter (fun k => negb (mem k (em_keys (snd m)))) old)
                     | None => []
                     end) rs.
Definition clean_of (st : list (bytes * bytes)) (k : bytes) : option (list bytes) :=
  match filter (fun p => bytes_eqb k (fst p)) st with
  | [] => None
  | l => Some (map snd l)
  end.
(* new_mappings, mapper.rs:252-258 *)
Definition news_of (rs : list mapped) (k : bytes) : option (list emission) :=
  match filter (fun e => bytes_eqb k (em_key e)) (flat_map snd rs) with
  | [] => None
  | l => Some l
  end.
(* all_keys is a BTreeSet, mapper.rs:247-249, 290 *)
Definition key_set (l : list bytes) : list bytes := t_keys (fold_right (fun k t => t_set k tt t) [] l).
Definition batch_keys (st : list (bytes * bytes)) (rs : list mapped) : list bytes :=
  key_set (em_keys (flat_map snd rs) ++ map fst st).

(* save_mappings of one batch, mapper.rs:328-361: update_document_map 267-299, then
   update_view_entries 301-326 *)
Definition apply_batch (vd : vdef) (vs : vstate) (rs : list mapped) : outcome vstate verr :=
  let st := stale (vs_docmap vs) rs in
  match swap_all vd (clean_of st) (news_of rs) (batch_keys st rs) true None (vs_entries vs) with
  | Done t =>
      Done (mk_vs t (fold_left (fun dm m => t_set (fst m) (em_keys (snd m)) dm) rs (vs_docmap vs)) (vs_invalid vs))
  | Fail e => Fail e
  | Panic => Panic
  end.

(* generate_batches, mapper.rs:184-198: the documents found, sorted by id, are
   popped from the end while the ids are visited backwards *)
Fixpoint pair_docs (ids : list bytes) (found : tree doc) : list (bytes * option doc) :=
  match ids with
  | [] => []
  | i :: r => match found with
              | (j, d) :: f => if bytes_eqb j i then (i, Some d) :: pair_docs r f else (i, None) :: pair_docs r found
              | [] => (i, None) :: pair_docs r found
              end
  end.
(* get_multiple(chunk) sorted by key, mapper.rs:184-185 *)
Definition found_docs (docs : tree doc) (ids : list bytes) : tree doc := filter (fun p => mem (fst p) ids) docs.
Definition load_docs (docs : tree doc) (ids : list bytes) : list (bytes * option doc) :=
  pair_docs (rev ids) (rev (found_docs docs ids)).
(* mapping one document, mapper.rs:214-233: a missing document emits nothing;
   None: the map function failed *)
Definition map_doc (vd : vdef) (p : bytes * option doc) : option mapped :=
  match snd p with
  | None => Some (fst p, [])
  | Some d => match vd_map vd d with
              | Some l => Some (fst p, map (fun q => mk_em (fst q) (d_header d) (snd q)) l)
              | None => None
              end
  end.
Fixpoint map_docs (vd : vdef) (ps : list (bytes * option doc)) : option (list mapped) :=
  match ps with
  | [] => Some []
  | p :: r => match map_doc vd p, map_docs vd r with
              | Some m, Some ms => Some (m :: ms)
              | _, _ => None
              end
  end.
(* One batch of DocumentRequest::map, mapper.rs:363-395. The documents of a batch
   are mapped by parallel workers: [shuffle] is the order in which their results
   arrive. *)
Definition map_batch (shuffle : list mapped -> list mapped) (vd : vdef) (docs : tree doc) (ids : list bytes) (vs : vstate)
  : outcome vstate verr :=
  match map_docs vd (load_docs docs ids) with
  | Some rs => apply_batch vd vs (shuffle rs)
  | None => Fail MapError
  end.

(* slices::chunks(n) *)
Fixpoint chunks_fuel {A} (fuel : nat) (n : nat) (l : list A) : list (list A) :=
  match fuel, l with
  | O, _ | _, [] => []
  | S f, _ => firstn n l :: chunks_fuel f n (skipn n l)
  end.
Definition chunks {A} (n : nat) (l : list A) : list (list A) := chunks_fuel (length l) n l.

(* DocumentRequest::map, mapper.rs:363-395: batches of 1024 in order *)
Fixpoint map_batches (shuffle : list mapped -> list mapped) (vd : vdef) (docs : tree doc) (bs : list (list bytes)) (vs : vstate)
  : outcome vstate verr :=
  match bs with
  | [] => Done vs
  | b :: r => match map_batch shuffle vd docs b vs with
              | Done vs' => map_batches shuffle vd docs r vs'
              | e => e
              end
  end.
Definition batch_size : nat := 1024.
Definition map_request (shuffle : list mapped -> list mapped) (vd : vdef) (docs : tree doc) (ids : list bytes) (vs : vstate) :=
  map_batches shuffle vd docs (chunks batch_size ids) vs.

(* one transaction of map_view, mapper.rs:119-152: map these documents and remove
   them from the invalidated set *)
Definition remove_all {V} (ids : list bytes) (t : tree V) : tree V := fold_left (fun t i => t_remove i t) ids t.
Definition map_chunk (shuffle : list mapped -> list mapped) (vd : vdef) (docs : tree doc) (ids : list bytes) (vs : vstate) :=
  match map_request shuffle vd docs ids vs with
  | Done v => Done (mk_vs (vs_entries v) (vs_docmap v) (remove_all ids (vs_invalid v)))
  | e => e
  end.
(* map_view, mapper.rs:104-156, when no other transaction runs in between: chunks
   of 100000 ids taken from the end of the list of invalidated ids *)
Definition view_chunk : nat := N.to_nat 100000.
Fixpoint map_view_fuel (shuffle : list mapped -> list mapped) (fuel : nat) (vd : vdef) (docs : tree doc) (ids : list bytes) (vs : vstate)
  : outcome vstate verr :=
  match fuel, ids with
  | _, [] => Done vs
  | O, _ => Done vs
  | S f, _ =>
      let n := (length ids - view_chunk)%nat in
      match map_chunk shuffle vd docs (skipn n ids) vs with
      | Done vs' => map_view_fuel shuffle f vd docs (firstn n ids) vs'
      | e => e
      end
  end.
Definition map_view (shuffle : list mapped -> list mapped) (vd : vdef) (docs : tree doc) (vs : vstate) : outcome vstate verr :=
  map_view_fuel shuffle (length (vs_invalid vs)) vd docs (t_keys (vs_invalid vs)) vs.
