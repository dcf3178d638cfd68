(* Model of bonsaidb-core/src/key/time.rs (limited resolution durations and
   timestamps) and bonsaidb-core/src/keyvalue/timestamp.rs. *)
From Verif Require Import Base Key.
Local Open Scope Z_scope.

(* std::time::Duration: a whole number of nanoseconds, at most u64::MAX seconds
   and 999999999 nanoseconds. *)
Definition sec : Z := 1000000000.
Definition dur_max : Z := 2 ^ 64 * sec - 1.
Definition dur_ok (d : Z) : Prop := 0 <= d <= dur_max.
Definition as_secs (d : Z) : Z := d / sec.
Definition subsec_nanos (d : Z) : Z := d mod sec.
Definition dur_checked_add (a b : Z) : option Z := if a + b <=? dur_max then Some (a + b) else None.
Definition dur_checked_sub (a b : Z) : option Z := if b <=? a then Some (a - b) else None.

(* SignedDuration, time.rs:217-222 *)
Inductive sdur := Pos (d : Z) | Neg (d : Z).
Definition sdur_ok (s : sdur) : Prop := match s with Pos d | Neg d => dur_ok d end.
(* the number of nanoseconds a signed duration stands for *)
Definition sdur_val (s : sdur) : Z := match s with Pos d => d | Neg d => - d end.

(* SignedDuration::checked_add, time.rs:224-252 *)
Definition sdur_add (a b : sdur) : option sdur :=
  match a, b with
  | Pos a, Pos b => option_map Pos (dur_checked_add a b)
  | Neg a, Neg b => option_map Neg (dur_checked_add a b)
  | Pos a, Neg b => match dur_checked_sub a b with Some r => Some (Pos r) | None => Some (Neg (b - a)) end
  | Neg a, Pos b => match dur_checked_sub a b with Some r => Some (Neg r) | None => Some (Pos (b - a)) end
  end.
(* Sum for Option<SignedDuration>, time.rs:285-292 *)
Definition sdur_sum (l : list sdur) : option sdur :=
  match l with
  | [] => None
  | a :: r => fold_left (fun acc x => match acc with Some v => sdur_add v x | None => None end) r (Some a)
  end.

Inductive res := Nanoseconds | Microseconds | Milliseconds | Seconds | Minutes | Hours | Days | Weeks.
Inductive timeerr := DeltaNotRepresentable | InvalidValue.

Definition i64_max : Z := 2 ^ 63 - 1.
Definition i64_min : Z := - 2 ^ 63.
Definition i32_max : Z := 2 ^ 31 - 1.
Definition i32_min : Z := - 2 ^ 31.
Definition u64_max : Z := 2 ^ 64 - 1.
(* TimeResolution::Representation: i64 or i32 *)
Definition repr_max (r : res) : Z :=
  match r with Nanoseconds | Microseconds | Milliseconds | Seconds => i64_max | _ => i32_max end.
Definition repr_min (r : res) : Z :=
  match r with Nanoseconds | Microseconds | Milliseconds | Seconds => i64_min | _ => i32_min end.
Definition repr_ok (r : res) (z : Z) : Prop := repr_min r <= z <= repr_max r.

(* value.checked_abs().and_then(u64::try_from).unwrap_or(d) *)
Definition abs_or (d z : Z) : Z := if z =? i64_min then d else Z.abs z.

(* TimeResolution::repr_to_duration, time.rs:539, 581, 620, 659, 699, 730, 768, 805 *)
Definition repr_to_duration (r : res) (z : Z) : sdur :=
  match r with
  | Nanoseconds => if 0 <=? z then Pos z else Neg (abs_or (2 ^ 63) z)
  | Microseconds => if 0 <=? z then Pos (z * 1000) else Neg (abs_or u64_max z * 1000)
  | Milliseconds => if 0 <=? z then Pos (z * 1000000) else Neg (abs_or u64_max z * 1000000)
  | Seconds => if 0 <=? z then Pos (z * sec) else Neg (abs_or u64_max z * sec)
  | Minutes => if 0 <=? z then Pos (z * 60 * sec) else Neg (Z.abs z * 60 * sec)
  | Hours => if 0 <=? z then Pos (z * 60 * 60 * sec) else Neg (Z.abs z * 60 * 60 * sec)
  | Days => if 0 <=? z then Pos (z * 24 * 60 * 60 * sec) else Neg (Z.abs z * 24 * 60 * 60 * sec)
  | Weeks => if 0 <=? z then Pos (z * 7 * 24 * 60 * 60 * sec) else Neg (Z.abs z * 7 * 24 * 60 * 60 * sec)
  end.

(* i64::try_from / i32::try_from of an unsigned number *)
Definition to_int (max n : Z) : outcome Z timeerr := if n <=? max then Done n else Fail DeltaNotRepresentable.
Definition neg_int (max n : Z) : outcome Z timeerr := if n <=? max then Done (- n) else Fail DeltaNotRepresentable.

(* negative microseconds, milliseconds, seconds: duration.checked_add(Duration::from_nanos(k)) *)
Definition neg_rounded (k unit d : Z) : outcome Z timeerr :=
  match dur_checked_add d k with
  | Some up => neg_int i64_max (up / unit)
  | None => Fail DeltaNotRepresentable
  end.
(* negative minutes, hours, weeks: (duration.as_secs() + FACTOR - 1) / FACTOR. The
   addition is unchecked u64 arithmetic: overflow panics in a debug build (and
   wraps in a release build).
   [first] is the constant that is added first (59, or FACTOR). *)
Definition neg_factor (first factor d : Z) (k : Z -> outcome Z timeerr) : outcome Z timeerr :=
  if u64_max <? as_secs d + first then Panic else k ((as_secs d + factor - 1) / factor).

Definition f_minute : Z := 60.
Definition f_hour : Z := 60 * 60.
Definition f_day : Z := 24 * 60 * 60.
Definition f_week : Z := 7 * 24 * 60 * 60.

(* TimeResolution::duration_to_repr, time.rs:551, 593, 632, 671, 708, 743, 781, 818 *)
Definition duration_to_repr (r : res) (s : sdur) : outcome Z timeerr :=
  match r, s with
  | Nanoseconds, Pos d => to_int i64_max d
  | Nanoseconds, Neg d => if d <=? i64_max then Done (- d)
                          else if d =? 2 ^ 63 then Done i64_min else Fail DeltaNotRepresentable
  | Microseconds, Pos d => to_int i64_max (d / 1000)
  | Microseconds, Neg d => neg_rounded 999 1000 d
  | Milliseconds, Pos d => to_int i64_max (d / 1000000)
  | Milliseconds, Neg d => neg_rounded 999999 1000000 d
  | Seconds, Pos d => to_int i64_max (as_secs d)
  | Seconds, Neg d => neg_rounded 999999999 sec d
  | Minutes, Pos d => to_int i32_max (as_secs d / f_minute)
  | Minutes, Neg d => neg_factor 59 f_minute d (neg_int i32_max)
  | Hours, Pos d => to_int i32_max (as_secs d / f_hour)
  | Hours, Neg d => neg_factor f_hour f_hour d (neg_int i32_max)
  | Days, Pos d => to_int i32_max (as_secs d / f_day)
  | Days, Neg d => neg_factor f_day f_day d (fun n => if n <=? i32_max then Done (- n) else Done i32_min)
  | Weeks, Pos d => to_int i32_max (as_secs d / f_week)
  | Weeks, Neg d => neg_factor f_week f_week d (neg_int i32_max)
  end.

(* ---- limited resolution timestamps relative to an epoch ---- *)
(* SystemTime: nanoseconds since the Unix epoch, an i64 number of seconds (Linux). *)
Definition time_min : Z := i64_min * sec.
Definition time_max : Z := i64_max * sec + (sec - 1).
Definition time_ok (t : Z) : Prop := time_min <= t <= time_max.
(* the two epochs, time.rs:1282-1328 *)
Definition unix_epoch : Z := 0.
Definition bonsai_epoch : Z := 1931747507 * sec.

(* TryFrom<SystemTime>, time.rs:1234-1252. [epoch] is Epoch::epoch_offset(). *)
Definition of_time (epoch : Z) (r : res) (t : Z) : outcome Z timeerr :=
  if time_max <? epoch then Fail DeltaNotRepresentable
  else if epoch <=? t then duration_to_repr r (Pos (t - epoch))
  else duration_to_repr r (Neg (epoch - t)).
(* TryFrom<LimitedResolutionTimestamp> for SystemTime, time.rs:1261-1276 *)
Definition to_time (epoch : Z) (r : res) (z : Z) : outcome Z timeerr :=
  if time_max <? epoch then Fail DeltaNotRepresentable
  else
    let t := epoch + sdur_val (repr_to_duration r z) in
    if (time_min <=? t) && (t <=? time_max) then Done t else Fail DeltaNotRepresentable.

(* ---- key-value timestamps ---- *)
(* Timestamp, timestamp.rs:11-17; derived Ord is lexicographic *)
Record timestamp := mk_ts { ts_seconds : Z; ts_nanos : Z }.
(* how the values are constrained by their types *)
Definition ts_typed (t : timestamp) : Prop := 0 <= ts_seconds t <= u64_max /\ 0 <= ts_nanos t < 2 ^ 32.
Definition ts_ok (t : timestamp) : Prop := 0 <= ts_seconds t <= u64_max /\ 0 <= ts_nanos t < sec.
Definition ts_compare (a b : timestamp) : comparison :=
  match Z.compare (ts_seconds a) (ts_seconds b) with
  | Eq => Z.compare (ts_nanos a) (ts_nanos b)
  | c => c
  end.
Definition ts_le (a b : timestamp) : Prop := ts_compare a b <> Gt.
Definition sat_add (a b : Z) : Z := Z.min u64_max (a + b).
(* the while loop of Add<Duration>, timestamp.rs:70-73, [fuel] iterations; nanos is
   at most 2^33 so 9 iterations are always enough *)
Fixpoint add_loop (fuel : nat) (s n : Z) : timestamp :=
  match fuel with
  | O => mk_ts s n
  | S k => if 1000000000 <? n then add_loop k (sat_add s 1) (n - 1000000000) else mk_ts s n
  end.
(* Add<Duration> for Timestamp, timestamp.rs:63-76. The nanosecond addition is
   unchecked u32 arithmetic. *)
Definition ts_add (t : timestamp) (d : Z) : outcome timestamp timeerr :=
  let n := ts_nanos t + subsec_nanos d in
  if 2 ^ 32 <=? n then Panic else Done (add_loop 9 (sat_add (ts_seconds t) (as_secs d)) n).
(* Sub for Timestamp, timestamp.rs:55-61: Duration::new carries nanos over and
   panics on overflow *)
Definition ts_total (t : timestamp) : Z := ts_seconds t * sec + ts_nanos t.
Definition ts_sub (a b : timestamp) : outcome (option Z) timeerr :=
  if (dur_max <? ts_total a) || (dur_max <? ts_total b) then Panic
  else Done (dur_checked_sub (ts_total a) (ts_total b)).
(* as_ord_bytes, timestamp.rs:108-112, and from_ord_bytes, 81-90 *)
Definition ts_encode (t : timestamp) : bytes := be 8 (Z.to_N (ts_seconds t)) ++ be 4 (Z.to_N (ts_nanos t)).
Definition ts_decode (b : bytes) : option timestamp :=
  if Nat.eqb (length b) 12
  then Some (mk_ts (Z.of_N (of_be (firstn 8 b))) (Z.of_N (of_be (skipn 8 b))))
  else None.
