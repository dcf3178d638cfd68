(* bonsaidb-files: blocks, truncation, reading and appending.
   crates/bonsaidb-files/src/schema/block.rs, schema/file.rs, direct.rs (the
   blocking versions; the async ones of create/append/truncate/delete are the
   same code with await points).
   The database below it is used through the contract established for it by the
   properties C19-C34: a transaction is atomic (all or nothing), inserting
   without an id takes the first id after the last one, a view query with a key
   returns exactly the documents whose map emits the key. Byte counts are nat:
   conversions between usize and u64 and sums of lengths do not overflow for data
   that exists. *)
From Verif Require Import Base Key.
Local Open Scope N_scope.

(* ---------- the database as the files crate sees it ---------- *)
(* schema/file.rs:29-41 (File): path and name; created_at and metadata are not
   modelled. Strings are lists of code points. *)
Record file := File { f_path : option (list N); f_name : list N }.
(* files: ids are u32; blocks: ids are u64, contents with the trailer. Both
   collections list their documents in order of id. *)
Record fdb := FDb { files : list (N * file); blocks : list (N * bytes) }.

Fixpoint lookup {A} (id : N) (l : list (N * A)) : option A :=
  match l with [] => None | (i, a) :: r => if id =? i then Some a else lookup id r end.
Definition delete_id {A} (id : N) (l : list (N * A)) : list (N * A) := filter (fun p => negb (id =? fst p)) l.
Definition last_id {A} (l : list (N * A)) : option N := last (map (fun p => Some (fst p)) l) None.
(* insert(None, ..): next_id_for_collection, schematic.rs:128-138 and 302-315 (C10):
   1 for an empty collection (the value after the first one), else the last id plus one, else an overflow error *)
Definition next_id (bound : N) (last : option N) : option N :=
  match last with None => Some 1 | Some n => if n + 1 <? bound then Some (n + 1) else None end.
Definition u32_mod : N := 256 ^ 4.
Definition u64_mod : N := 256 ^ 8.

Inductive ferr := DocumentNotFound | DocumentConflict | IdOverflow | AlreadyExists | InvalidName | InvalidPath | InvalidKey | Deleted.

(* slice::chunks (core): n > 0 *)
Fixpoint chunks_aux (fuel n : nat) (l : bytes) : list bytes :=
  match fuel with
  | O => []
  | S k => match l with [] => [] | _ => firstn n l :: chunks_aux k n (skipn n l) end
  end.
Definition chunks (n : nat) (l : bytes) : list bytes := chunks_aux (length l) n l.

(* ---------- schema/block.rs ---------- *)
(* the trailer: file id (u32) and timestamp (i64), both big endian, 46-51 *)
Definition block_bytes (chunk : bytes) (file_id : N) (now : Z) : bytes :=
  chunk ++ be 4 file_id ++ be 8 (to_unsigned 8 now).
(* the inserts of one transaction, each without an id *)
Fixpoint insert_blocks (bs : list bytes) (l : list (N * bytes)) : option (list (N * bytes)) :=
  match bs with
  | [] => Some l
  | b :: r => match next_id u64_mod (last_id l) with Some id => insert_blocks r (l ++ [(id, b)]) | None => None end
  end.
(* Block::append 31-57. chunks(0) panics. *)
Definition append (block_size : nat) (data : bytes) (file_id : N) (now : Z) (db : fdb) : outcome fdb ferr :=
  match data with
  | [] => Done db
  | _ =>
      match block_size with
      | O => Panic
      | _ =>
        match lookup file_id (files db) with
        | None => Fail DocumentNotFound
        | Some _ =>
            match insert_blocks (map (fun c => block_bytes c file_id now) (chunks block_size data)) (blocks db) with
            | None => Fail IdOverflow
            | Some l => Done (FDb (files db) l)
            end
        end
      end
  end.
(* ByFile::map block.rs:292-313: key file_id, value (length, timestamp). Underflow of
   contents.len() - 12 panics; blocks written by append have the trailer. *)
Definition map_file_id (b : bytes) : N := of_be (firstn 4 (skipn (length b - 12) b)).
Definition map_length (b : bytes) : nat := (length b - 12)%nat.
Definition map_timestamp (b : bytes) : Z := to_signed 8 (of_be (skipn (length b - 8) b)).
(* BlockInfo, direct.rs:1190-1196; the header's revision is the hash of the
   contents: bi_rev keeps the contents themselves (hash collisions ignored) *)
Record block_info := BI { bi_offset : nat; bi_length : nat; bi_time : Z; bi_id : N; bi_rev : bytes }.
(* view::<ByFile>().with_key(&file_id).query() *)
Definition by_file (file_id : N) (db : fdb) : list block_info :=
  map (fun p => BI 0 (map_length (snd p)) (map_timestamp (snd p)) (fst p) (snd p))
      (filter (fun p => map_file_id (snd p) =? file_id) (blocks db)).
(* sort_by id (stable merge sort; here insertion) *)
Fixpoint insert_info (b : block_info) (l : list block_info) : list block_info :=
  match l with [] => [b] | c :: r => if bi_id b <=? bi_id c then b :: l else c :: insert_info b r end.
Definition sort_infos (l : list block_info) : list block_info := fold_right insert_info [] l.
Fixpoint set_offsets (offset : nat) (l : list block_info) : list block_info :=
  match l with
  | [] => []
  | b :: r => BI offset (bi_length b) (bi_time b) (bi_id b) (bi_rev b) :: set_offsets (offset + bi_length b) r
  end.
(* Block::for_file block.rs:134-157 on the query's result *)
Definition for_file_of (mappings : list block_info) : list block_info := set_offsets 0 (sort_infos mappings).
Definition for_file (file_id : N) (db : fdb) : list block_info := for_file_of (by_file file_id db).
(* summary_for_file block.rs:159-168: reduce 315-330 (sum of lengths, newest timestamp) *)
Definition summary (file_id : N) (db : fdb) : nat * option Z :=
  let l := by_file file_id db in
  (fold_right (fun b a => (bi_length b + a)%nat) O l,
   fold_right (fun b a => match a with None => Some (bi_time b) | Some t => Some (Z.max (bi_time b) t) end) None l).
(* Operation::delete with a header: the document must exist with this revision *)
Fixpoint delete_blocks (l : list block_info) (bs : list (N * bytes)) : outcome (list (N * bytes)) ferr :=
  match l with
  | [] => Done bs
  | b :: r =>
      match lookup (bi_id b) bs with
      | None => Fail DocumentNotFound
      | Some c => if bytes_eqb c (bi_rev b) then delete_blocks r (delete_id (bi_id b) bs) else Fail DocumentConflict
      end
  end.
Definition apply_deletes (l : list block_info) (db : fdb) : outcome fdb ferr :=
  match delete_blocks l (blocks db) with Done bs => Done (FDb (files db) bs) | Fail e => Fail e | Panic => Panic end.
(* Block::delete_for_file block.rs:234-244; local/src/database.rs:1605-1625 *)
Definition delete_for_file (file_id : N) (db : fdb) : outcome fdb ferr := apply_deletes (by_file file_id db) db.
(* CollectionDocument::delete on the file document (direct.rs:177) *)
Definition delete_file_doc (file_id : N) (db : fdb) : outcome fdb ferr :=
  match lookup file_id (files db) with
  | None => Fail DocumentNotFound
  | Some _ => Done (FDb (delete_id file_id (files db)) (blocks db))
  end.
(* File::delete direct.rs:174-179: two transactions *)
Definition delete_file (file_id : N) (db : fdb) : outcome fdb ferr :=
  match delete_for_file file_id db with Done db' => delete_file_doc file_id db' | o => o end.

(* ---------- truncation, schema/file.rs:295-345 ---------- *)
Inductive truncate_from := RemovingStart | RemovingEnd.
Fixpoint truncate_loop (fuel to_remove : nat) (from : truncate_from) (l : list block_info) : list block_info :=
  match fuel with
  | O => []
  | S k =>
      if (0 <? to_remove)%nat && negb (match l with [] => true | _ => false end) then
        let offset := match from with RemovingStart => O | RemovingEnd => (length l - 1)%nat end in
        match nth_error l offset with
        | None => []
        | Some b =>
            if (bi_length b <=? to_remove)%nat
            then b :: truncate_loop k (to_remove - bi_length b) from (firstn offset l ++ skipn (S offset) l)
            else []
        end
      else []
  end.
(* create_truncate_transaction 311-345: the blocks to delete *)
Definition truncate_ops (l : list block_info) (new_length : nat) (from : truncate_from) : list block_info :=
  let total := fold_right (fun b a => (bi_length b + a)%nat) O l in
  if (new_length <=? total)%nat then truncate_loop (S (length l)) (total - new_length) from l else [].
(* truncate 295-309 *)
Definition truncate (file_id : N) (new_length : nat) (from : truncate_from) (db : fdb) : outcome fdb ferr :=
  apply_deletes (truncate_ops (for_file file_id db) new_length from) db.

(* ---------- reading: Contents, direct.rs:690-1078 ---------- *)
(* Contents 690-701 (database passed separately; async_blocks is not modelled) *)
Record contents := Contents {
  c_blocks : list block_info;
  c_loaded : list (nat * bytes);  (* LoadedBlock 728-732: index, contents *)
  c_current : nat;
  c_offset : nat;
  c_buffer : nat
}.
(* File::contents 218-234 *)
Definition open_contents (block_size : nat) (infos : list block_info) : contents := Contents infos [] 0 0 (block_size * 10).
(* with_buffer_size 916-919; clone 711-726 *)
Definition with_buffer_size (n : nat) (c : contents) : contents := Contents (c_blocks c) (c_loaded c) (c_current c) (c_offset c) n.
Definition clone_contents (c : contents) : contents := Contents (c_blocks c) [] (c_current c) (c_offset c) (c_buffer c).

(* next_blocks 894-911: from current on as many blocks as fit the buffer, at
   least one. [count] is last_block + 1 - current. *)
Fixpoint blocks_that_fit (buffer requesting : nat) (l : list block_info) : nat :=
  match l with
  | [] => O
  | b :: r => if (buffer <? bi_length b + requesting)%nat then O else S (blocks_that_fit buffer (bi_length b + requesting) r)
  end.
Definition next_blocks (c : contents) : list block_info :=
  let rest := skipn (c_current c) (c_blocks c) in
  firstn (Nat.max 1 (blocks_that_fit (c_buffer c) 0 rest)) rest.
(* Block::load, block.rs:88-108: the documents found, without trailer, in a
   BTreeMap by id *)
Fixpoint insert_loaded (p : N * bytes) (l : list (N * bytes)) : list (N * bytes) :=
  match l with [] => [p] | q :: r => if fst p <=? fst q then p :: l else q :: insert_loaded p r end.
Definition load (ids : list N) (db : fdb) : list (N * bytes) :=
  fold_right insert_loaded []
    (flat_map (fun id => match lookup id (blocks db) with Some b => [(id, firstn (length b - 12) b)] | None => [] end) ids).
Fixpoint number_from (i : nat) (l : list bytes) : list (nat * bytes) :=
  match l with [] => [] | b :: r => (i, b) :: number_from (S i) r end.
(* load_blocks 763-779 *)
Definition load_blocks (db : fdb) (c : contents) : contents :=
  Contents (c_blocks c) (number_from (c_current c) (map snd (load (map bi_id (next_blocks c)) db))) (c_current c) (c_offset c) (c_buffer c).

(* len 924-929 *)
Definition contents_len (c : contents) : nat :=
  match last (map Some (c_blocks c)) None with None => O | Some b => (bi_offset b + bi_length b)%nat end.

Inductive read_result := NeedBlocks | ReadBytes (l : bytes) | Eof.
(* the condition of 960-963 and 976-980 *)
Definition more (c : contents) : bool :=
  (c_current c <? length (c_blocks c))%nat ||
  ((c_current c + 1 =? length (c_blocks c))%nat &&
   match last (map Some (c_blocks c)) None with Some b => (c_offset c <? bi_length b)%nat | None => false end).
(* the inner loop 986-997 with the callback of read 1018-1022, which copies
   min(n, available) bytes. block.contents[offset..] panics if offset is beyond
   the block: None. inr = a read happened *)
Fixpoint consume (n : nat) (loaded : list (nat * bytes)) (current offset : nat) : option (list (nat * bytes) * nat * nat * option bytes) :=
  match loaded with
  | [] => Some ([], current, offset, None)
  | (i, b) :: r =>
      if (length b <? offset)%nat then None
      else
        let out := firstn n (skipn offset b) in
        match out with
        | [] => consume n r (S current) O
        | _ => Some ((i, b) :: r, current, (offset + length out)%nat, Some out)
        end
  end.
(* non_blocking_read 970-999. Fuel bounds the outer loop (after the inner loop
   the queue is empty, so the second round returns). *)
Definition non_blocking_read (n : nat) (c : contents) : option (contents * read_result) :=
  let need := match c_loaded c with [] => true | (i, _) :: _ => negb (i =? c_current c)%nat end in
  if need then Some (c, if more c then NeedBlocks else Eof)
  else
    match consume n (c_loaded c) (c_current c) (c_offset c) with
    | None => None
    | Some (l, cur, off, Some out) => Some (Contents (c_blocks c) l cur off (c_buffer c), ReadBytes out)
    | Some (l, cur, off, None) =>
        let c' := Contents (c_blocks c) l cur off (c_buffer c) in
        Some (c', if more c' then NeedBlocks else Eof)
    end.
(* Read::read 1016-1029: loops until data or the end; [fuel] bounds the number
   of times blocks are loaded. Done None: not finished within the fuel. *)
Fixpoint read (fuel n : nat) (db : fdb) (c : contents) : outcome (option (contents * bytes)) ferr :=
  match fuel with
  | O => Done None
  | S k =>
      match non_blocking_read n c with
      | None => Panic
      | Some (c', ReadBytes l) => Done (Some (c', l))
      | Some (c', Eof) => Done (Some (c', []))
      | Some (c', NeedBlocks) => read k n db (load_blocks db c')
      end
  end.
(* non_blocking_read_block 944-968; [splice(..offset)] panics beyond the end *)
Definition read_block (c : contents) : option (contents * read_result) :=
  match c_loaded c with
  | (i, b) :: r =>
      if (i =? c_current c)%nat then
        if (length b <? c_offset c)%nat then None
        else Some (Contents (c_blocks c) r (S (c_current c)) O (c_buffer c), ReadBytes (skipn (c_offset c) b))
      else
        let c' := Contents (c_blocks c) r (c_current c) (c_offset c) (c_buffer c) in
        Some (c', if more c' then NeedBlocks else Eof)
  | [] => Some (c, if more c then NeedBlocks else Eof)
  end.
(* Iterator::next 1148-1159; Some (_, None) is the end of the iteration *)
Fixpoint next_block (fuel : nat) (db : fdb) (c : contents) : outcome (option (contents * option bytes)) ferr :=
  match fuel with
  | O => Done None
  | S k =>
      match read_block c with
      | None => Panic
      | Some (c', ReadBytes l) => Done (Some (c', Some l))
      | Some (c', Eof) => Done (Some (c', None))
      | Some (c', NeedBlocks) => next_block k db (load_blocks db c')
      end
  end.

(* Seek 1032-1077. Arithmetic overflow panics (in a build without overflow
   checks [len - n] wraps to a huge position, which seeks to the end). *)
Inductive seek_from := SeekStart (n : nat) | SeekEnd (z : Z) | SeekCurrent (z : Z).
Definition i64_max : Z := 9223372036854775807.
Definition i64_min : Z := (-9223372036854775808)%Z.
Definition seek_target (c : contents) (from : seek_from) : outcome nat ferr :=
  match from with
  | SeekStart n => Done n
  | SeekEnd z =>
      if (z <? 0)%Z then
        let n := Z.to_nat (Z.min (- z) i64_max) in   (* saturating_abs *)
        if (n <=? contents_len c)%nat then Done (contents_len c - n)%nat else Panic
      else Done (contents_len c)
  | SeekCurrent z =>
      match nth_error (c_blocks c) (c_current c) with
      | None => Panic                                 (* index out of bounds *)
      | Some b =>
          let p := Z.of_nat (bi_offset b + c_offset c) in
          if (p <=? i64_max)%Z then                   (* i64::try_from(..).unwrap() *)
            if (i64_min <=? p + z)%Z && (p + z <=? i64_max)%Z then
              if (0 <=? p + z)%Z then Done (Z.to_nat (p + z)) else Panic  (* u64::try_from(..).unwrap() *)
            else Panic
          else Panic
      end
  end.
Fixpoint find_block (i : nat) (pos : nat) (l : list block_info) : option (nat * block_info) :=
  match l with
  | [] => None
  | b :: r => if (pos <? bi_offset b + bi_length b)%nat then Some (i, b) else find_block (S i) pos r
  end.
Definition seek_to (pos : nat) (c : contents) : outcome (contents * nat) ferr :=
  match find_block 0 pos (c_blocks c) with
  | Some (i, b) =>
      if (bi_offset b <=? pos)%nat
      then Done (Contents (c_blocks c) (c_loaded c) i (pos - bi_offset b) (c_buffer c), pos)
      else Panic
  | None =>
      match last (map Some (c_blocks c)) None with
      | Some b => Done (Contents (c_blocks c) (c_loaded c) (length (c_blocks c) - 1) (bi_length b) (c_buffer c), (bi_offset b + bi_length b)%nat)
      | None => Done (Contents (c_blocks c) (c_loaded c) O O (c_buffer c), O)
      end
  end.
Definition seek (from : seek_from) (c : contents) : outcome (contents * nat) ferr :=
  match from, c_blocks c with
  | SeekCurrent _, [] => Done (c, O)
  | _, _ => match seek_target c from with Done p => seek_to p c | Fail e => Fail e | Panic => Panic end
  end.

(* ---------- BufferedAppend, direct.rs:1198-1260 ---------- *)
(* Vec's len <= capacity; reserve_exact and with_capacity give exactly the
   requested capacity (the documentation allows more) *)
Record appender := Appender { a_file : N; a_buffer : bytes; a_capacity : nat }.
Definition append_buffered (file_id : N) : appender := Appender file_id [] O.
(* flush 1245-1251: on an error the buffer is kept *)
Definition flush (bs : nat) (now : Z) (a : appender) (db : fdb) : outcome (appender * fdb) ferr :=
  match append bs (a_buffer a) (a_file a) now db with
  | Done db' => Done (Appender (a_file a) [] (a_capacity a), db')
  | Fail e => Fail e
  | Panic => Panic
  end.
(* set_buffer_size 1213-1219 *)
Definition set_buffer_size (bs capacity : nat) (now : Z) (a : appender) (db : fdb) : outcome (appender * fdb) ferr :=
  if (0 <? a_capacity a)%nat then
    match flush bs now a db with Done (a', db') => Done (Appender (a_file a) [] capacity, db') | Fail e => Fail e | Panic => Panic end
  else Done (Appender (a_file a) [] capacity, db).
(* ONE_MEGABYTE / BLOCK_SIZE * BLOCK_SIZE 1226-1231 *)
Definition default_capacity (bs : nat) : nat := N.to_nat (1048576 / N.of_nat bs * N.of_nat bs).
(* write 1225-1243: the number of bytes accepted *)
Definition write (bs : nat) (data : bytes) (now : Z) (a : appender) (db : fdb) : outcome (appender * fdb * nat) ferr :=
  let r :=
    if (a_capacity a =? 0)%nat then Done (Appender (a_file a) (a_buffer a) (default_capacity bs), db)
    else if (a_capacity a =? length (a_buffer a))%nat then flush bs now a db
    else Done (a, db) in
  match r with
  | Done (a', db') =>
      let k := Nat.min (length data) (a_capacity a' - length (a_buffer a')) in
      Done (Appender (a_file a') (a_buffer a' ++ firstn k data) (a_capacity a'), db', k)
  | Fail e => Fail e
  | Panic => Panic
  end.
(* drop 1257-1259: flushes and ignores the result *)
Definition drop_appender (bs : nat) (now : Z) (a : appender) (db : fdb) : fdb :=
  match flush bs now a db with Done (_, db') => db' | _ => db end.
