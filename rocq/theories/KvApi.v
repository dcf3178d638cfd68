(* The calls of the key-value store as a program makes them: set, get, increment
   and namespaces (crates/bonsaidb-core/src/keyvalue.rs and
   keyvalue/implementation/{set,get,increment,namespaced}.rs), on top of the store
   of Kv.v (perform_kv_operation). The asynchronous builders send the same
   operations and read the answers in the same way (set.rs:142-334, get.rs:162-348,
   increment.rs:83-179). The encoding of values (pot) is a parameter. *)
From Verif Require Import Base Kv.
Local Open Scope Z_scope.

(* ---------- numbers ---------- *)
(* f64::fract of a finite number m * 2^e: its numerator over 2^(-e); 0 for e >= 0 *)
Definition fract_num (m : positive) (e : Z) : Z := if 0 <=? e then 0 else Zpos m mod 2 ^ (- e).
(* core/src/keyvalue.rs 548-569 (Numeric::as_i64). The fraction of an infinity is NaN. *)
Definition as_i64 (x : numeric) : option Z :=
  match x with
  | NInt z => Some z
  | NUInt z => if is_i64 z then Some z else None
  | NFloat (S754_finite s m e) => if fract_num m e =? 0 then Some (f_as_i64 (S754_finite s m e)) else None
  | NFloat f => Some (f_as_i64 f)
  end.
(* 585-606 (as_u64): fract() < f64::EPSILON = 2^-52, is_sign_positive() *)
Definition as_u64 (x : numeric) : option Z :=
  match x with
  | NUInt z => Some z
  | NInt z => if is_u64 z then Some z else None
  | NFloat (S754_finite s m e) =>
      if negb s && (fract_num m e * 2 ^ 52 <? 2 ^ Z.max 0 (- e)) then Some (f_as_u64 (S754_finite s m e)) else None
  | NFloat (S754_zero s) => if s then None else Some 0
  | NFloat _ => None
  end.
(* 622-650 (as_f64): f64::MANTISSA_DIGITS = 53 *)
Definition as_f64 (x : numeric) : option spec_float :=
  match x with
  | NUInt z => if 2 ^ 53 <? z then None else Some (z_as_f64 z)
  | NInt z => if (2 ^ 53 <? z) || (z <? - (2 ^ 53)) then None else Some (z_as_f64 z)
  | NFloat f => Some f
  end.

(* ---------- errors, values ---------- *)
Inductive aerr :=
| AStore (e : kerror)          (* what the store answered *)
| ASerialize | ADeserialize    (* pot *)
| ANotSerialized               (* "key contains numeric value, not serialized data" *)
| ALossy                       (* "value not an u64 or would lose precision ..." *)
| ANotNumeric.                 (* "value not numeric" *)
(* pot::to_vec and pot::from_slice at one type *)
Record serde (V : Type) := Serde { to_vec : V -> option bytes; from_slice : bytes -> option V }.
Arguments Serde {V}. Arguments to_vec {V}. Arguments from_slice {V}.
(* PendingValue, 338-357 *)
Inductive pending (V : Type) := PBytes (b : bytes) | PSer (v : V) | PNum (x : numeric).
Arguments PBytes {V}. Arguments PSer {V}. Arguments PNum {V}.
Definition prepare {V} (C : serde V) (p : pending V) : option value :=
  match p with
  | PBytes b => Some (VBytes b)
  | PSer v => option_map VBytes (to_vec C v)
  | PNum x => Some (VNum x)
  end.
(* Value::deserialize, 455-465 *)
Definition deserialize {V} (C : serde V) (v : value) : outcome V aerr :=
  match v with
  | VBytes b => match from_slice C b with Some x => Done x | None => Fail ADeserialize end
  | VNum _ => Fail ANotSerialized
  end.

(* ---------- namespaces ---------- *)
(* a store, or a Namespaced wrapper with its namespace string, namespaced.rs:9-19 *)
Inductive handle := Store | Namespaced (ns : bytes).
Definition key_namespace (h : handle) : option bytes := match h with Store => None | Namespaced n => Some n end.
(* keyvalue.rs:171-177, namespaced.rs:34-43: the names are joined by a NUL *)
Definition with_key_namespace (h : handle) (n : bytes) : handle :=
  match h with Store => Namespaced n | Namespaced m => Namespaced (m ++ 0%N :: n) end.

(* ---------- one operation ---------- *)
(* execute_key_operation(KeyOperation { namespace, key, command })?, then a match on
   the output; Namespaced hands it through, namespaced.rs:26-28 *)
Definition operate {A} (s : kst) (ns : option bytes) (key : bytes) (c : command) (now : ts) (read : output -> outcome A aerr)
  : kst * outcome A aerr :=
  match perform s ns key c now with
  | None => (s, Panic)
  | Some (KErr e, s') => (s', Fail (AStore e))
  | Some (KOk o, s') => (s', read o)
  end.
Definition map_result {A B} (f : A -> outcome B aerr) (r : kst * outcome A aerr) : kst * outcome B aerr :=
  (fst r, match snd r with Done a => f a | Fail e => Fail e | Panic => Panic end).

(* ---------- set ---------- *)
(* set.rs:15-25 *)
Record set_builder (V : Type) := SetB {
  b_ns : option bytes; b_key : bytes; b_value : pending V; b_exp : option ts; b_keep : bool; b_check : option kcheck }.
Arguments SetB {V}. Arguments b_ns {V}. Arguments b_key {V}. Arguments b_value {V}. Arguments b_exp {V}. Arguments b_keep {V}. Arguments b_check {V}.
(* set_key, set_binary_key, set_numeric_key, keyvalue.rs:57-106; set.rs:32-47 *)
Definition set_new {V} (h : handle) (key : bytes) (p : pending V) : set_builder V := SetB (key_namespace h) key p None false None.
Definition set_key {V} (h : handle) (key : bytes) (v : V) : set_builder V := set_new h key (PSer v).
Definition set_binary_key (h : handle) (key b : bytes) : set_builder unit := set_new h key (PBytes b).
Definition set_numeric_key (h : handle) (key : bytes) (x : numeric) : set_builder unit := set_new h key (PNum x).
(* a system time: nanoseconds since the epoch, seconds in an i64 *)
Definition sys_add (t d : Z) : outcome Z aerr := if (t + d) / 1000000000 <? 2 ^ 63 then Done (t + d) else Panic.
(* From<SystemTime> for Timestamp, timestamp.rs:38-48 *)
Definition from_system_time (t : Z) : outcome ts aerr :=
  if t <? 0 then Panic else Done (Ts (Z.to_N (t / 1000000000)) (Z.to_N (t mod 1000000000))).
(* set.rs:55-60 *)
Definition expire_at {V} (b : set_builder V) (time : Z) : outcome (set_builder V) aerr :=
  match from_system_time time with
  | Done t => Done (SetB (b_ns b) (b_key b) (b_value b) (Some t) (b_keep b) (b_check b))
  | Fail e => Fail e
  | Panic => Panic
  end.
(* set.rs:48-53; [clock]: SystemTime::now() *)
Definition expire_in {V} (b : set_builder V) (clock duration : Z) : outcome (set_builder V) aerr :=
  match sys_add clock duration with Done t => expire_at b t | Fail e => Fail e | Panic => Panic end.
(* set.rs:62-78 *)
Definition keep_existing_expiration {V} (b : set_builder V) : set_builder V :=
  SetB (b_ns b) (b_key b) (b_value b) (b_exp b) true (b_check b).
Definition only_if_exists {V} (b : set_builder V) : set_builder V :=
  SetB (b_ns b) (b_key b) (b_value b) (b_exp b) (b_keep b) (Some OnlyIfPresent).
Definition only_if_vacant {V} (b : set_builder V) : set_builder V :=
  SetB (b_ns b) (b_key b) (b_value b) (b_exp b) (b_keep b) (Some OnlyIfVacant).
(* set.rs:124-149 (execute) *)
Definition execute {V} (C : serde V) (b : set_builder V) (s : kst) (now : ts) : kst * outcome kstatus aerr :=
  match prepare C (b_value b) with
  | None => (s, Fail ASerialize)
  | Some v => operate s (b_ns b) (b_key b) (CSet (SetCmd v (b_exp b) (b_keep b) (b_check b) false)) now
                (fun o => match o with OStatus st => Done st | OValue _ => Panic end)
  end.
(* set.rs:80-110 (returning_previous) *)
Definition returning_previous {V} (C : serde V) (b : set_builder V) (s : kst) (now : ts) : kst * outcome (option value) aerr :=
  match prepare C (b_value b) with
  | None => (s, Fail ASerialize)
  | Some v => operate s (b_ns b) (b_key b) (CSet (SetCmd v (b_exp b) (b_keep b) (b_check b) true)) now
                (fun o => match o with OValue x => Done x | OStatus NotChanged => Done None | OStatus _ => Panic end)
  end.
(* set.rs:112-121; get.rs:37-39 *)
Definition decode_opt {V} (C : serde V) (o : option value) : outcome (option V) aerr :=
  match o with
  | None => Done None
  | Some v => match deserialize C v with Done x => Done (Some x) | Fail e => Fail e | Panic => Panic end
  end.
Definition returning_previous_as {V U} (C : serde V) (D : serde U) (b : set_builder V) (s : kst) (now : ts) : kst * outcome (option U) aerr :=
  map_result (decode_opt D) (returning_previous C b s now).

(* ---------- get ---------- *)
(* get.rs:9-33 *)
Record get_builder := GetB { g_ns : option bytes; g_key : bytes; g_delete : bool }.
Definition get_key (h : handle) (key : bytes) : get_builder := GetB (key_namespace h) key false.
Definition and_delete (b : get_builder) : get_builder := GetB (g_ns b) (g_key b) true.
(* get.rs:141-159 (query) *)
Definition query (b : get_builder) (s : kst) (now : ts) : kst * outcome (option value) aerr :=
  operate s (g_ns b) (g_key b) (CGet (g_delete b)) now (fun o => match o with OValue v => Done v | OStatus _ => Panic end).
Definition get_into {V} (C : serde V) (b : get_builder) (s : kst) (now : ts) : kst * outcome (option V) aerr :=
  map_result (decode_opt C) (query b s now).
(* get.rs:41-139: into_u64, into_i64, into_f64 and the lossy ones. Value::as_*,
   467-520: bytes are not numbers *)
Definition convert {A} (f : numeric -> option A) (e : aerr) (o : option value) : outcome (option A) aerr :=
  match o with
  | None => Done None
  | Some (VBytes _) => Fail e
  | Some (VNum x) => match f x with Some y => Done (Some y) | None => Fail e end
  end.
Definition into_u64 (b : get_builder) s now := map_result (convert as_u64 ALossy) (query b s now).
Definition into_i64 (b : get_builder) s now := map_result (convert as_i64 ALossy) (query b s now).
Definition into_f64 (b : get_builder) s now := map_result (convert as_f64 ALossy) (query b s now).
Definition into_u64_lossy (b : get_builder) (saturating : bool) s now :=
  map_result (convert (fun x => Some (as_u64_lossy x saturating)) ANotNumeric) (query b s now).
Definition into_i64_lossy (b : get_builder) (saturating : bool) s now :=
  map_result (convert (fun x => Some (as_i64_lossy x saturating)) ANotNumeric) (query b s now).
Definition into_f64_lossy (b : get_builder) s now :=
  map_result (convert (fun x => Some (as_f64_lossy x)) ANotNumeric) (query b s now).

(* ---------- increment, decrement, delete ---------- *)
(* increment.rs:9-47, keyvalue.rs:108-148. The type V of the value is i64, u64 or f64:
   that of the amount. *)
Record inc_builder := IncB { i_ns : option bytes; i_key : bytes; i_increment : bool; i_amount : numeric; i_saturating : bool }.
Definition increment_key_by (h : handle) (key : bytes) (x : numeric) : inc_builder := IncB (key_namespace h) key true x true.
Definition decrement_key_by (h : handle) (key : bytes) (x : numeric) : inc_builder := IncB (key_namespace h) key false x true.
Definition allow_overflow (b : inc_builder) : inc_builder := IncB (i_ns b) (i_key b) (i_increment b) (i_amount b) false.
(* TryFrom<Numeric> for the type of [like], keyvalue.rs:684-725 *)
Definition try_from (like x : numeric) : option numeric :=
  match like, x with
  | NInt _, NInt _ | NUInt _, NUInt _ | NFloat _, NFloat _ => Some x
  | _, _ => None
  end.
(* increment.rs:52-79 *)
Definition inc_execute (b : inc_builder) (s : kst) (now : ts) : kst * outcome numeric aerr :=
  operate s (i_ns b) (i_key b)
    (if i_increment b then CIncr (i_amount b) (i_saturating b) else CDecr (i_amount b) (i_saturating b)) now
    (fun o => match o with
              | OValue (Some (VNum x)) => match try_from (i_amount b) x with Some y => Done y | None => Panic end
              | _ => Panic
              end).
(* keyvalue.rs:155-167 *)
Definition delete_key (h : handle) (key : bytes) (s : kst) (now : ts) : kst * outcome kstatus aerr :=
  operate s (key_namespace h) key CDelete now (fun o => match o with OStatus st => Done st | OValue _ => Panic end).
