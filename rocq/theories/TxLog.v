(* Model of how executed transactions are stored, read back and upgraded.

   /repo/crates/bonsaidb-local/src/database/compat.rs:35-152,
   /repo/crates/bonsaidb-local/src/database.rs:1010-1062 (list_executed_transactions),
   /repo/crates/bonsaidb-core/src/transaction.rs:405-551 (Changes, DocumentChanges and its
   iterators), document/id.rs:190-256.

   The crates pot, bincode and transmog_versions are not in /repo: their functions are
   parameters (record [codec]). *)
From Verif Require Import Base Key DocId Docs.
Local Open Scope N_scope.

(* transaction.rs:405-419 Changes; a changed key is an opaque piece of data here *)
Inductive any_changes := Documents (d : changes) | Keys (k : list bytes).

(* compat.rs:139-144 LegacyDocumentId *)
Inductive legacy_id := U64 (n : N) | Raw (b : bytes).
(* compat.rs:126-136 ChangedDocumentV0 *)
Definition legacy_doc := (bytes * legacy_id * bool)%type.
(* compat.rs:83-88 ChangesV0 *)
Inductive legacy := LDocuments (l : list legacy_doc) | LKeys (k : list bytes).

Inductive logerr := UnknownVersion | Malformed | IdTooLong.
(* what pot::from_slice says about bytes: a value, "not a pot", another error *)
Inductive potres (A : Type) := PotOk (a : A) | NotAPot | PotErr.
Arguments PotOk {A} a. Arguments NotAPot {A}. Arguments PotErr {A}.

Record codec := mkCodec {
  header : N -> bytes;                        (* transmog_versions::write_header *)
  unwrap_version : bytes -> N * bytes;        (* transmog_versions::unwrap_version *)
  pot : any_changes -> bytes;                 (* pot::to_writer *)
  from_pot : bytes -> potres any_changes;     (* pot::from_slice::<Changes> *)
  from_pot_v0 : bytes -> potres legacy;       (* pot::from_slice::<ChangesV0> *)
  from_bincode : bytes -> option (list legacy_doc)  (* bincode::deserialize *)
}.

(* compat.rs:146-152 TryFrom<LegacyDocumentId> for DocumentId; from_u64: id.rs:248-250 *)
Definition upgrade_id (i : legacy_id) : outcome bytes logerr :=
  match i with
  | Raw b => match try_from_bytes b with Done x => Done x | Fail _ => Fail IdTooLong | Panic => Panic end
  | U64 n => match try_from_bytes (be 8 n) with Done x => Done x | _ => Panic end
  end.

(* compat.rs:95-118: `indexes` is the hash map from a collection's name to its index.  The
   unwrap of u16::try_from panics at the 65537th collection. *)
Fixpoint lookup_index (c : bytes) (m : list (bytes * N)) : option N :=
  match m with [] => None | (x, i) :: r => if bytes_eqb c x then Some i else lookup_index c r end.
Fixpoint upgrade_docs (l : list legacy_doc) (indexes : list (bytes * N)) (colls : list bytes)
  (docs : list (N * bytes * bool)) : outcome changes logerr :=
  match l with
  | [] => Done (mk_changes colls docs)
  | (c, i, deleted) :: r =>
      match lookup_index c indexes with
      | Some n =>
          match upgrade_id i with
          | Done id => upgrade_docs r indexes colls (docs ++ [(n, id, deleted)])
          | Fail e => Fail e
          | Panic => Panic
          end
      | None =>
          let n := N.of_nat (length colls) in
          if n <? 65536 then
            match upgrade_id i with
            | Done id => upgrade_docs r ((c, n) :: indexes) (colls ++ [c]) (docs ++ [(n, id, deleted)])
            | Fail e => Fail e
            | Panic => Panic
            end
          else Panic
      end
  end.
(* compat.rs:90-122 TryFrom<ChangesV0> for Changes *)
Definition upgrade (v : legacy) : outcome any_changes logerr :=
  match v with
  | LDocuments l => match upgrade_docs l [] [] [] with
                    | Done ch => Done (Documents ch) | Fail e => Fail e | Panic => Panic
                    end
  | LKeys k => Done (Keys k)
  end.

(* compat.rs:35-57: ChangesVersions *)
Definition version_legacy : N := 0.
Definition version_v1 : N := 1.

(* compat.rs:59-72 deserialize_executed_transaction_changes *)
Definition deserialize (k : codec) (data : bytes) : outcome any_changes logerr :=
  let '(v, d) := unwrap_version k data in
  if v =? version_legacy then
    match from_pot_v0 k d with
    | PotOk l => upgrade l
    | NotAPot => match from_bincode k d with Some l => upgrade (LDocuments l) | None => Fail Malformed end
    | PotErr => Fail Malformed
    end
  else if v =? version_v1 then
    match from_pot k d with PotOk c => Done c | _ => Fail Malformed end
  else Fail UnknownVersion.

(* compat.rs:74-79 serialize_executed_transaction_changes *)
Definition serialize (k : codec) (c : any_changes) : bytes := header k version_v1 ++ pot k c.

(* list_executed_transactions after its permission check, database.rs:1017-1062: entries of
   the log with and without data, from `starting_id`, at most min(limit or 100, 1000) *)
Fixpoint take_with_data (n : nat) (log : list (N * option bytes)) : list (N * bytes) :=
  match n, log with
  | O, _ => []
  | _, [] => []
  | S m, (i, Some d) :: r => (i, d) :: take_with_data m r
  | _, (_, None) :: r => take_with_data n r
  end.
Fixpoint decode_all (k : codec) (l : list (N * bytes)) : outcome (list (N * any_changes)) logerr :=
  match l with
  | [] => Done []
  | (i, d) :: r =>
      match deserialize k d with
      | Done c => match decode_all k r with Done x => Done ((i, c) :: x) | Fail e => Fail e | Panic => Panic end
      | Fail e => Fail e
      | Panic => Panic
      end
  end.
Definition list_transactions (k : codec) (log : list (N * option bytes)) (start : option N) (limit : option N)
  : outcome (list (N * any_changes)) logerr :=
  let n := N.to_nat (N.min (match limit with Some l => l | None => 100 end) 1000) in
  decode_all k (take_with_data n
    (filter (fun e => match start with Some s => s <=? fst e | None => true end) log)).

(* DocumentChanges::get, transaction.rs:465-471 *)
Definition get_change (ch : changes) (i : nat) : option (bytes * bytes * bool) :=
  match nth_error (ch_docs ch) i with
  | Some (n, id, del) => match nth_error (ch_colls ch) (N.to_nat n) with
                         | Some c => Some (c, id, del)
                         | None => None
                         end
  | None => None
  end.
(* len, is_empty: transaction.rs:475-483 *)
Definition len (ch : changes) : nat := length (ch_docs ch).
Definition is_empty (ch : changes) : bool := match ch_docs ch with [] => true | _ => false end.
(* DocumentChangesIter::next, transaction.rs:514-522: the index stays where get fails *)
Definition iter_next (ch : changes) (i : nat) : option (bytes * bytes * bool) * nat :=
  match get_change ch i with Some x => (Some x, S i) | None => (None, i) end.
(* DocumentChangesIntoIter::next, transaction.rs:533-539: a change with a bad index is consumed *)
Definition into_next (colls : list bytes) (docs : list (N * bytes * bool))
  : option (bytes * bytes * bool) * list (N * bytes * bool) :=
  match docs with
  | [] => (None, [])
  | (n, id, del) :: r =>
      (match nth_error colls (N.to_nat n) with Some c => Some (c, id, del) | None => None end, r)
  end.
(* a for loop: until next says None (usize::MAX changes cannot exist: checked_add) *)
Fixpoint iterate {A B} (next : A -> option B * A) (fuel : nat) (a : A) : list B :=
  match fuel with
  | O => []
  | S f => match next a with (Some b, a') => b :: iterate next f a' | (None, _) => [] end
  end.
