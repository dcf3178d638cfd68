(* The key-value store: crates/bonsaidb-local/src/database/keyvalue.rs, with the
   numeric types of crates/bonsaidb-core/src/keyvalue.rs and the persistence
   rules of crates/bonsaidb-local/src/config.rs.

   Simplifications, here for the whole file:
   - keys and namespaces are the UTF-8 bytes of Rust's Strings (bytes);
   - a BTreeMap and the nebari tree "kv" are both a [tree] (Tree.v), entries are
     stored directly instead of through bincode;
   - reading the disk tree never fails (I/O errors are not modelled), writing the
     batch may fail (event EFail);
   - every section of code that runs under the state's mutex is one step. *)
From Coq Require Export SpecFloat.
From Verif Require Export Base KeyPrefix Tree.
Local Open Scope Z_scope.

(* ---------- time ---------- *)

(* core/src/keyvalue/timestamp.rs 11-17: seconds and nanoseconds, with the
   derived (lexicographic) order. *)
Record ts := Ts { t_sec : N; t_nano : N }.
Definition ts_leb (a b : ts) : bool :=
  ((t_sec a <? t_sec b) || ((t_sec a =? t_sec b) && (t_nano a <=? t_nano b)))%N.
Definition ts_ltb (a b : ts) : bool := negb (ts_leb b a).
(* core/src/keyvalue/timestamp.rs 50-54: From<Timestamp> for Duration, in nanoseconds *)
Definition ts_dur (a : ts) : N := (t_sec a * 1000000000 + t_nano a)%N.
(* core/src/keyvalue/timestamp.rs 56-62: Sub, checked *)
Definition ts_sub (a b : ts) : option N :=
  (if ts_dur b <=? ts_dur a then Some (ts_dur a - ts_dur b) else None)%N.

(* ---------- numbers ---------- *)

(* core/src/keyvalue.rs 522-529. An i64 and a u64 as an integer, an f64 as the
   standard library's model of IEEE 754 (precision 53, emax 1024). *)
Inductive numeric := NInt (z : Z) | NUInt (z : Z) | NFloat (f : spec_float).

Definition i64_min := - 2 ^ 63.
Definition i64_max := 2 ^ 63 - 1.
Definition u64_max := 2 ^ 64 - 1.
Definition is_i64 (z : Z) : bool := (i64_min <=? z) && (z <=? i64_max).
Definition is_u64 (z : Z) : bool := (0 <=? z) && (z <=? u64_max).

(* Rust's `as i64` / `as u64` between integers: two's complement *)
Definition cast_i64 (z : Z) : Z := (z + 2 ^ 63) mod 2 ^ 64 - 2 ^ 63.
Definition cast_u64 (z : Z) : Z := z mod 2 ^ 64.
(* Rust's saturating and wrapping operations on i64 / u64 *)
Definition sat_i64 (z : Z) : Z := if z <? i64_min then i64_min else if i64_max <? z then i64_max else z.
Definition sat_u64 (z : Z) : Z := if z <? 0 then 0 else if u64_max <? z then u64_max else z.

(* Rust's `as i64` / `as u64` from f64: truncate towards zero, saturate, NaN is 0. *)
Definition sf_trunc (s : bool) (m : positive) (e : Z) : Z :=
  let a := if 0 <=? e then Zpos m * 2 ^ e else Zpos m / 2 ^ (- e) in
  if s then - a else a.
Definition f_as_i64 (f : spec_float) : Z :=
  match f with
  | S754_nan => 0
  | S754_zero _ => 0
  | S754_infinity s => if s then i64_min else i64_max
  | S754_finite s m e => sat_i64 (sf_trunc s m e)
  end.
Definition f_as_u64 (f : spec_float) : Z :=
  match f with
  | S754_nan => 0
  | S754_zero _ => 0
  | S754_infinity s => if s then 0 else u64_max
  | S754_finite s m e => sat_u64 (sf_trunc s m e)
  end.
(* Rust's `as f64` from integers: round to nearest, ties to even *)
Definition z_as_f64 (z : Z) : spec_float := binary_normalize 53 1024 z 0 false.
Definition f_add : spec_float -> spec_float -> spec_float := SFadd 53 1024.
Definition f_sub : spec_float -> spec_float -> spec_float := SFsub 53 1024.
Definition f_is_nan (f : spec_float) : bool := match f with S754_nan => true | _ => false end.

(* core/src/keyvalue.rs 571-583 (as_i64_lossy) *)
Definition as_i64_lossy (x : numeric) (saturating : bool) : Z :=
  match x with
  | NInt z => z
  | NUInt z => if saturating then (if is_i64 z then z else i64_max) else cast_i64 z
  | NFloat f => f_as_i64 f
  end.
(* core/src/keyvalue.rs 608-620 (as_u64_lossy) *)
Definition as_u64_lossy (x : numeric) (saturating : bool) : Z :=
  match x with
  | NUInt z => z
  | NInt z => if saturating then (if is_u64 z then z else 0) else cast_u64 z
  | NFloat f => f_as_u64 f
  end.
(* core/src/keyvalue.rs 652-660 (as_f64_lossy) *)
Definition as_f64_lossy (x : numeric) : spec_float :=
  match x with NUInt z => z_as_f64 z | NInt z => z_as_f64 z | NFloat f => f end.

(* core/src/keyvalue.rs 538-546 (Numeric::validate); None is Error::NotANumber *)
Definition num_validate (x : numeric) : option numeric :=
  match x with NFloat f => if f_is_nan f then None else Some x | _ => Some x end.

(* keyvalue.rs 151-177 (increment) *)
Definition increment (existing amount : numeric) (saturating : bool) : numeric :=
  match amount with
  | NInt a => let x := as_i64_lossy existing saturating in
              NInt (if saturating then sat_i64 (x + a) else cast_i64 (x + a))
  | NUInt a => let x := as_u64_lossy existing saturating in
               NUInt (if saturating then sat_u64 (x + a) else cast_u64 (x + a))
  | NFloat a => NFloat (f_add (as_f64_lossy existing) a)
  end.
(* keyvalue.rs 179-205 (decrement) *)
Definition decrement (existing amount : numeric) (saturating : bool) : numeric :=
  match amount with
  | NInt a => let x := as_i64_lossy existing saturating in
              NInt (if saturating then sat_i64 (x - a) else cast_i64 (x - a))
  | NUInt a => let x := as_u64_lossy existing saturating in
               NUInt (if saturating then sat_u64 (x - a) else cast_u64 (x - a))
  | NFloat a => NFloat (f_sub (as_f64_lossy existing) a)
  end.

(* core/src/keyvalue.rs: Value *)
Inductive value := VBytes (b : bytes) | VNum (x : numeric).
(* core/src/keyvalue.rs: Value::validate *)
Definition val_validate (v : value) : option value :=
  match v with VBytes _ => Some v | VNum x => match num_validate x with Some y => Some (VNum y) | None => None end end.

(* keyvalue.rs 28-34 *)
Record entry := Entry { e_val : value; e_exp : option ts; e_upd : ts }.

(* core/src/keyvalue.rs: KeyCheck, SetCommand, Command, KeyStatus, Output *)
Inductive kcheck := OnlyIfPresent | OnlyIfVacant.
Record set_cmd := SetCmd { s_val : value; s_exp : option ts; s_keep : bool; s_check : option kcheck; s_ret : bool }.
Inductive command :=
| CSet (c : set_cmd)
| CGet (delete : bool)
| CDelete
| CIncr (amount : numeric) (saturating : bool)
| CDecr (amount : numeric) (saturating : bool).
Inductive kstatus := Inserted | Updated | Deleted | NotChanged.
Inductive output := OStatus (s : kstatus) | OValue (v : option value).
Inductive kerror := ENotANumber | ENotNumeric.
Inductive kresult := KOk (o : output) | KErr (e : kerror).

(* ---------- keys ---------- *)

(* keyvalue.rs 126-135 *)
Definition full_key (ns : option bytes) (key : bytes) : bytes :=
  match ns with Some n => n | None => [] end ++ 0%N :: key.
(* keyvalue.rs 137-149: split_once at the first NUL *)
Fixpoint split_nul (l : bytes) : option (bytes * bytes) :=
  match l with
  | [] => None
  | b :: r => if (b =? 0)%N then Some ([], r)
              else match split_nul r with Some (x, y) => Some (b :: x, y) | None => None end
  end.
Definition split_key (l : bytes) : option (option bytes * bytes) :=
  match split_nul l with
  | Some (n, k) => Some (match n with [] => None | _ => Some n end, k)
  | None => None
  end.

(* ---------- persistence rules ---------- *)

(* config.rs 318-326: a threshold has a number of changes and a duration (ns) *)
Record rule := Rule { r_changes : N; r_dur : N }.
Inductive policy := PImmediate | PLazy (rules : list rule).
Definition dur_max : N := (18446744073709551615 * 1000000000 + 999999999)%N.

(* config.rs 259-267 (lazy): a stable sort by the number of changes *)
Fixpoint rule_insert (r : rule) (l : list rule) : list rule :=
  match l with
  | [] => [r]
  | x :: t => if (r_changes r <=? r_changes x)%N then r :: l else x :: rule_insert r t
  end.
Definition lazy_policy (rules : list rule) : policy := PLazy (fold_right rule_insert [] rules).

(* config.rs 290-302: the loop over the rules, with take_while and the early break *)
Fixpoint shortest (n elapsed acc : N) (rules : list rule) : N :=
  match rules with
  | [] => acc
  | r :: t =>
      if (r_changes r <=? n)%N then
        let acc' := N.min acc (r_dur r - elapsed)%N in
        if (acc' =? 0)%N then acc' else shortest n elapsed acc' t
      else acc
  end.
(* config.rs 279-308 (duration_until_next_commit) *)
Definition until_commit (p : policy) (n elapsed : N) : option N :=
  if (n =? 0)%N then None
  else match p with
       | PImmediate => Some 0%N
       | PLazy rules => let d := shortest n elapsed dur_max rules in if (d <? dur_max)%N then Some d else None
       end.
(* config.rs 270-277 (should_commit) *)
Definition should_commit (p : policy) (n elapsed : N) : bool :=
  match until_commit p n elapsed with Some d => (d =? 0)%N | None => false end.

(* ---------- state ---------- *)

Definition batch := tree (option entry).

(* keyvalue.rs 207-219 (KeyValueState), together with the tree "kv" on disk and
   the thread spawned by commit_dirty_keys (its batch, and whether it has written
   the batch to disk). background_worker_target and last_persistence only wake
   threads up and are not modelled: the background worker may run at any time.
   k_shut: a shutdown waits for the writer; k_down: it has been signalled.
   k_load: what is left for the expiration loader (ExpirationLoader::execute). *)
Record kst := Kst {
  k_dirty : batch;
  k_pers : option batch;
  k_disk : tree entry;
  k_exp : tree ts;
  k_order : list bytes;
  k_pol : policy;
  k_last : ts;
  k_thread : option (batch * bool);
  k_shut : bool;
  k_down : bool;
  k_load : list (bytes * option ts)
}.
Definition set_dirty d s := Kst d (k_pers s) (k_disk s) (k_exp s) (k_order s) (k_pol s) (k_last s) (k_thread s) (k_shut s) (k_down s) (k_load s).
Definition set_pers p s := Kst (k_dirty s) p (k_disk s) (k_exp s) (k_order s) (k_pol s) (k_last s) (k_thread s) (k_shut s) (k_down s) (k_load s).
Definition set_disk d s := Kst (k_dirty s) (k_pers s) d (k_exp s) (k_order s) (k_pol s) (k_last s) (k_thread s) (k_shut s) (k_down s) (k_load s).
Definition set_expo e o s := Kst (k_dirty s) (k_pers s) (k_disk s) e o (k_pol s) (k_last s) (k_thread s) (k_shut s) (k_down s) (k_load s).
Definition set_last l s := Kst (k_dirty s) (k_pers s) (k_disk s) (k_exp s) (k_order s) (k_pol s) l (k_thread s) (k_shut s) (k_down s) (k_load s).
Definition set_thread t s := Kst (k_dirty s) (k_pers s) (k_disk s) (k_exp s) (k_order s) (k_pol s) (k_last s) t (k_shut s) (k_down s) (k_load s).
Definition set_shut a b s := Kst (k_dirty s) (k_pers s) (k_disk s) (k_exp s) (k_order s) (k_pol s) (k_last s) (k_thread s) a b (k_load s).
Definition set_load l s := Kst (k_dirty s) (k_pers s) (k_disk s) (k_exp s) (k_order s) (k_pol s) (k_last s) (k_thread s) (k_shut s) (k_down s) l.

(* keyvalue.rs 222-239 (KeyValueState::new), over the disk tree found there *)
Definition kv_open (p : policy) (now : ts) (disk : tree entry) : kst :=
  Kst [] None disk [] [] p now None false false [].

(* ---------- the overlay ---------- *)

(* keyvalue.rs 538-550 (get) *)
Definition kv_get (s : kst) (k : bytes) : option entry :=
  match t_get k (k_dirty s) with
  | Some e => e
  | None =>
      match match k_pers s with Some p => t_get k p | None => None end with
      | Some e => e
      | None => t_get k (k_disk s)
      end
  end.
(* keyvalue.rs 552-554 (set) *)
Definition kv_set (s : kst) (k : bytes) (e : entry) : kst := set_dirty (t_set k (Some e) (k_dirty s)) s.
(* keyvalue.rs 556-583 (replace): the previous entry and the new state *)
Definition kv_replace (s : kst) (k : bytes) (e : entry) : option entry * kst :=
  match t_get k (k_dirty s) with
  | None =>
      let stored :=
        match match k_pers s with Some p => t_get k p | None => None end with
        | Some pe => pe
        | None => t_get k (k_disk s)
        end in
      (stored, set_dirty (t_set k (Some e) (k_dirty s)) s)
  | Some old => (old, set_dirty (t_set k (Some e) (k_dirty s)) s)
  end.

(* ---------- expirations ---------- *)

(* position of the first occurrence (iter().enumerate().find_map) *)
Fixpoint find_index (f : bytes -> bool) (l : list bytes) : option nat :=
  match l with
  | [] => None
  | x :: r => if f x then Some O else option_map S (find_index f r)
  end.
Fixpoint remove_at (n : nat) (l : list bytes) : list bytes :=
  match l, n with
  | [], _ => []
  | _ :: r, O => r
  | x :: r, S n' => x :: remove_at n' r
  end.
(* keyvalue.rs 381-396: insert before the first key that expires later. None: a key
   of the order has no expiration, unwrap panics. *)
Fixpoint order_insert (exps : tree ts) (k : bytes) (t : ts) (l : list bytes) : option (list bytes) :=
  match l with
  | [] => Some [k]
  | j :: r =>
      match t_get j exps with
      | None => None
      | Some tj => if ts_ltb t tj then Some (k :: l)
                   else match order_insert exps k t r with Some r' => Some (j :: r') | None => None end
      end
  end.
(* keyvalue.rs 352-420 (update_key_expiration). None: an unwrap panics. *)
Definition update_exp (s : kst) (k : bytes) (e : option ts) : option kst :=
  match e with
  | Some t =>
      let order1 :=
        match t_get k (k_exp s) with
        | Some _ => match find_index (bytes_eqb k) (k_order s) with
                    | Some i => Some (remove_at i (k_order s))
                    | None => None
                    end
        | None => Some (k_order s)
        end in
      match order1 with
      | None => None
      | Some o1 => match order_insert (k_exp s) k t o1 with
                   | None => None
                   | Some o2 => Some (set_expo (t_set k t (k_exp s)) o2 s)
                   end
      end
  | None =>
      match t_get k (k_exp s) with
      | Some _ => match find_index (bytes_eqb k) (k_order s) with
                  | Some i => Some (set_expo (t_remove k (k_exp s)) (remove_at i (k_order s)) s)
                  | None => None
                  end
      | None => Some s
      end
  end.

(* keyvalue.rs 633-641 (remove_expired_keys). None: unwrap panics. *)
Fixpoint remove_expired (now : ts) (order : list bytes) (exps : tree ts) (dirty : batch)
  : option (list bytes * tree ts * batch) :=
  match order with
  | [] => Some ([], exps, dirty)
  | k :: r =>
      match t_get k exps with
      | None => None
      | Some t => if ts_leb t now then remove_expired now r (t_remove k exps) (t_set k None dirty)
                  else Some (order, exps, dirty)
      end
  end.
Definition kv_expire (now : ts) (s : kst) : option kst :=
  match remove_expired now (k_order s) (k_exp s) (k_dirty s) with
  | Some (o, e, d) => Some (set_dirty d (set_expo e o s))
  | None => None
  end.

(* ---------- operations ---------- *)

(* keyvalue.rs 517-536 (remove) *)
Definition kv_remove (s : kst) (k : bytes) : option (option entry * kst) :=
  match update_exp s k None with
  | None => None
  | Some s1 =>
      match t_get k (k_dirty s1) with
      | Some d => Some (d, set_dirty (t_set k None (k_dirty s1)) s1)
      | None =>
          match match k_pers s1 with Some p => t_get k p | None => None end with
          | Some pe => Some (pe, set_dirty (t_set k None (k_dirty s1)) s1)
          | None => Some (t_get k (k_disk s1), set_dirty (t_set k None (k_dirty s1)) s1)
          end
      end
  end.

(* keyvalue.rs 295-346 (execute_set_operation) *)
Definition exec_set (s : kst) (k : bytes) (c : set_cmd) (now : ts) : option (kresult * kst) :=
  match val_validate (s_val c) with
  | None => Some (KErr ENotANumber, s)
  | Some v =>
      let known :=
        if (match s_check c with Some _ => true | None => false end) || s_ret c || s_keep c
        then Some (kv_get s k) else None in
      let existing := match known with Some e => e | None => None end in
      let updating :=
        match s_check c with
        | Some OnlyIfPresent => match existing with Some _ => true | None => false end
        | Some OnlyIfVacant => match existing with Some _ => false | None => true end
        | None => true
        end in
      if updating then
        let exp := if s_keep c then match existing with Some e => e_exp e | None => s_exp c end else s_exp c in
        let entry := Entry v exp now in
        match update_exp s k exp with
        | None => None
        | Some s1 =>
            let '(prev, s2) :=
              match known with
              | Some e => (e, kv_set s1 k entry)
              | None => kv_replace s1 k entry
              end in
            Some (KOk (if s_ret c then OValue (option_map e_val prev)
                       else match prev with None => OStatus Inserted | Some _ => OStatus Updated end), s2)
        end
      else Some (KOk (OStatus NotChanged), s)
  end.
(* keyvalue.rs 423-437 (execute_get_operation) *)
Definition exec_get (s : kst) (k : bytes) (delete : bool) : option (kresult * kst) :=
  if delete then
    match kv_remove s k with
    | None => None
    | Some (e, s1) => Some (KOk (OValue (option_map e_val e)), s1)
    end
  else Some (KOk (OValue (option_map e_val (kv_get s k))), s).
(* keyvalue.rs 440-452 (execute_delete_operation) *)
Definition exec_delete (s : kst) (k : bytes) : option (kresult * kst) :=
  match kv_remove s k with
  | None => None
  | Some (Some _, s1) => Some (KOk (OStatus Deleted), s1)
  | Some (None, s1) => Some (KOk (OStatus NotChanged), s1)
  end.
(* keyvalue.rs 484-514 (execute_numeric_operation) *)
Definition exec_numeric (s : kst) (k : bytes) (amount : numeric) (saturating : bool) (now : ts)
  (op : numeric -> numeric -> bool -> numeric) : kresult * kst :=
  let e := match kv_get s k with Some e => e | None => Entry (VNum (NUInt 0)) None now end in
  match e_val e with
  | VNum x =>
      match num_validate (op x amount saturating) with
      | None => (KErr ENotANumber, s)
      | Some y => (KOk (OValue (Some (VNum y))), kv_set s k (Entry (VNum y) (e_exp e) (e_upd e)))
      end
  | VBytes _ => (KErr ENotNumeric, s)
  end.
(* keyvalue.rs 259-281: the match of perform_kv_operation *)
Definition exec (s : kst) (k : bytes) (c : command) (now : ts) : option (kresult * kst) :=
  match c with
  | CSet sc => exec_set s k sc now
  | CGet d => exec_get s k d
  | CDelete => exec_delete s k
  | CIncr a sat => Some (exec_numeric s k a sat now increment)
  | CDecr a sat => Some (exec_numeric s k a sat now decrement)
  end.

(* ---------- persistence ---------- *)

(* keyvalue.rs 643-651 (needs_commit) *)
Definition needs_commit (s : kst) (now : ts) : bool :=
  match k_pers s with
  | Some _ => false
  | None => should_commit (k_pol s) (N.of_nat (length (k_dirty s)))
              (match ts_sub now (k_last s) with Some d => d | None => 0%N end)
  end.
(* keyvalue.rs 653-661 (stage_dirty_keys) *)
Definition stage (s : kst) : option (batch * kst) :=
  match k_dirty s, k_pers s with
  | _ :: _, None => Some (k_dirty s, set_dirty [] (set_pers (Some (k_dirty s)) s))
  | _, _ => None
  end.
(* keyvalue.rs 663-676 (commit_dirty_keys): stages and spawns the writer. The
   writer is a thread of the model; last_commit is set to the caller's [now]
   instead of a slightly later clock reading. *)
Definition commit_dirty (s : kst) (now : ts) : bool * kst :=
  match stage s with
  | Some (b, s1) => (true, set_last now (set_thread (Some (b, false)) s1))
  | None => (false, s)
  end.

(* keyvalue.rs 700-731: the compare-and-swap over the disk tree, one key at a time *)
Definition cas_one (d : tree entry) (k : bytes) (new : option entry) : tree entry :=
  match new with
  | Some e => t_set k e d
  | None => match t_get k d with Some _ => t_remove k d | None => d end
  end.
Fixpoint write_batch (b : batch) (d : tree entry) : tree entry :=
  match b with
  | [] => d
  | (k, e) :: r => write_batch r (cas_one d k e)
  end.

(* keyvalue.rs 251-290 (perform_kv_operation) *)
Definition perform (s : kst) (ns : option bytes) (key : bytes) (c : command) (now : ts) : option (kresult * kst) :=
  match kv_expire now s with
  | None => None
  | Some s1 =>
      match exec s1 (full_key ns key) c now with
      | None => None
      | Some (KOk o, s2) =>
          Some (KOk o, if needs_commit s2 now then snd (commit_dirty s2 now) else s2)
      | Some (KErr e, s2) => Some (KErr e, s2)
      end
  end.

(* keyvalue.rs 814-822: one round of the background worker *)
Definition bg_round (s : kst) (now : ts) : option kst :=
  match kv_expire now s with
  | None => None
  | Some s1 => Some (if needs_commit s1 now then snd (commit_dirty s1 now) else s1)
  end.

(* keyvalue.rs 241-249 (shutdown): whether the caller waits for the writer.
   database.rs 1734-1743 (Drop for ContextData) waits for the signal if so. *)
Definition kv_shutdown (s : kst) (now : ts) : bool * kst :=
  match k_pers s with
  | Some _ => (false, s)
  | None => match commit_dirty s now with
            | (true, s1) => (true, set_shut true false s1)
            | (false, s1) => (false, s1)
            end
  end.

(* keyvalue.rs 684-741 (persist_keys), first half: the atomic nebari transaction *)
Definition thread_write (s : kst) : option kst :=
  match k_thread s with
  | Some (b, false) => Some (set_thread (Some (b, true)) (set_disk (write_batch b (k_disk s)) s))
  | _ => None
  end.
(* the same when the transaction fails: persist_keys returns early with `?`, the
   thread ends and keys_being_persisted stays *)
Definition thread_fail (s : kst) : option kst :=
  match k_thread s with
  | Some (_, false) => Some (set_thread None s)
  | _ => None
  end.
(* keyvalue.rs 743-771 (persist_keys), second half *)
Definition thread_finish (s : kst) : option kst :=
  match k_thread s with
  | Some (_, true) =>
      let s1 := set_thread None (set_pers None s) in
      Some (if k_shut s1 then
              match stage s1 with
              | Some (b, s2) => set_thread (Some (b, false)) s2
              | None => set_shut false true s1
              end
            else s1)
  | _ => None
  end.

(* keyvalue.rs 69-118 (all_key_value_entries): disk, then the batch being written,
   then the dirty keys. Listed by full key instead of by (namespace, key). *)
Definition all_entries (s : kst) : tree entry :=
  write_batch (k_dirty s) (match k_pers s with Some p => write_batch p (k_disk s) | None => k_disk s end).
(* keyvalue.rs 851-860 (ExpirationLoader::execute): the snapshot and the filter;
   the updates follow one by one, each under its own lock *)
Definition load_snapshot (launched : ts) (s : kst) : kst :=
  set_load (map (fun p => (fst p, e_exp (snd p)))
             (filter (fun p => ts_ltb (e_upd (snd p)) launched
                               && match e_exp (snd p) with Some _ => true | None => false end)
                     (all_entries s))) s.
Definition load_one (s : kst) : option kst :=
  match k_load s with
  | [] => Some s
  | (k, e) :: r => update_exp (set_load r s) k e
  end.

(* ---------- the system ---------- *)

Inductive event :=
| EOp (ns : option bytes) (key : bytes) (c : command) (now : ts)
| ETick (now : ts)
| EWrite
| EFail
| EFinish
| EShutdown (now : ts)
| ESnap (launched : ts)
| ELoad.

Inductive stepres := SPanic | SDisabled | SOk (r : option kresult) (s : kst).
Definition lift (o : option kst) : stepres := match o with Some s => SOk None s | None => SDisabled end.
Definition liftp (o : option kst) : stepres := match o with Some s => SOk None s | None => SPanic end.
Definition step (s : kst) (e : event) : stepres :=
  match e with
  | EOp ns key c now => match perform s ns key c now with Some (r, s') => SOk (Some r) s' | None => SPanic end
  | ETick now => liftp (bg_round s now)
  | EWrite => lift (thread_write s)
  | EFail => lift (thread_fail s)
  | EFinish => lift (thread_finish s)
  | EShutdown now => SOk None (snd (kv_shutdown s now))
  | ESnap l => SOk None (load_snapshot l s)
  | ELoad => liftp (load_one s)
  end.
(* a disabled event does nothing *)
Fixpoint run (s : kst) (es : list event) : option (list kresult * kst) :=
  match es with
  | [] => Some ([], s)
  | e :: r =>
      match step s e with
      | SPanic => None
      | SDisabled => run s r
      | SOk o s' => match run s' r with
                    | Some (rs, s'') => Some (match o with Some x => x :: rs | None => rs end, s'')
                    | None => None
                    end
      end
  end.
