(* Timestamps as text, and the distance between timestamps
   (crates/bonsaidb-core/src/key/time.rs:947-1140). Text is modelled by its
   bytes. A Duration is a whole number of nanoseconds (Time.v); u64::to_string
   and str::parse::<u64> are those of OpenStorage.v. *)
From Verif Require Import Base Key Time OpenStorage.
Local Open Scope Z_scope.

(* AnyTimestamp::duration_since_unix_epoch for LimitedResolutionTimestamp,
   time.rs:1064-1081 *)
Definition since_unix (epoch : Z) (r : res) (z : Z) : outcome Z timeerr :=
  match repr_to_duration r z with
  | Pos offset => match dur_checked_add epoch offset with Some d => Done d | None => Fail DeltaNotRepresentable end
  | Neg offset => match dur_checked_sub epoch offset with Some d => Done d | None => Fail DeltaNotRepresentable end
  end.

(* {:03}, {:06} and {:09}: the number is always below 10^k here *)
Fixpoint pad (k : nat) (n : N) : bytes :=
  match k with O => [] | S j => pad j (n / 10) ++ [48 + n mod 10]%N end.
Definition dot : N := 46.
(* the two write! of LimitedResolutionTimestamp::display, time.rs:1029-1049 *)
Definition show (d : Z) : bytes :=
  to_string (Z.to_N (as_secs d)) ++
  (if 0 <? subsec_nanos d then
     if subsec_nanos d mod 1000000 =? 0 then dot :: pad 3 (Z.to_N (subsec_nanos d / 1000000))
     else if subsec_nanos d mod 1000 =? 0 then dot :: pad 6 (Z.to_N (subsec_nanos d / 1000))
     else dot :: pad 9 (Z.to_N (subsec_nanos d))
   else []).
(* to_timestamp_string, time.rs:1024-1027 *)
Definition to_timestamp_string (epoch : Z) (r : res) (z : Z) : outcome bytes timeerr :=
  match since_unix epoch r z with Done d => Done (show d) | Fail e => Fail e | Panic => Panic end.

(* TimeResolution::FORMAT_SUFFIX, time.rs:537, 579, 618, 657, 697, 728, 766, 803 *)
Definition suffix (r : res) : bytes :=
  match r with
  | Nanoseconds => [110; 115] | Microseconds => [117; 115] | Milliseconds => [109; 115] | Seconds => [115]
  | Minutes => [109] | Hours => [104] | Days => [100] | Weeks => [119]
  end%N.
(* i64 and i32 to_string *)
Definition show_int (z : Z) : bytes :=
  if z <? 0 then 45%N :: to_string (Z.to_N (- z)) else to_string (Z.to_N z).
(* Display for LimitedResolutionDuration, time.rs:279-283 *)
Definition show_repr (r : res) (z : Z) : bytes := show_int z ++ suffix r.
(* Display for LimitedResolutionTimestamp, time.rs:1093-1101: display fails before
   it writes anything *)
Definition timestamp_to_string (epoch : Z) (r : res) (z : Z) : bytes :=
  match since_unix epoch r z with Done d => show d | _ => show_repr r z end.

(* str::split: the pieces between the separators, at least one *)
Fixpoint split (c : N) (l : bytes) : bytes * list bytes :=
  match l with
  | [] => ([], [])
  | x :: t => let (p, rest) := split c t in if (x =? c)%N then ([], p :: rest) else (x :: p, rest)
  end.
(* str::parse::<u32> (a u32 has fewer digits than a u64, so that the overflow of
   either is found by the same comparison) *)
Definition parse_u32 (l : bytes) : option N :=
  match parse l with Some n => if (n <? 2 ^ 32)%N then Some n else None | None => None end.
(* the duration part of FromStr, time.rs:1110-1130. The multiplication is
   unchecked u32 arithmetic; Duration::new carries whole seconds over. *)
Definition parse_dur (s : bytes) : outcome Z timeerr :=
  let (p, rest) := split dot s in
  match parse p with
  | None => Fail InvalidValue
  | Some seconds =>
      match rest with
      | [] => Done (Z.of_N seconds * sec)
      | f :: more =>
          if (9 <? length f)%nat || (0 <? length more)%nat then Fail InvalidValue
          else match parse_u32 f with
               | None => Fail InvalidValue
               | Some n =>
                   let nanos := (n * 10 ^ (9 - N.of_nat (length f)))%N in
                   if (2 ^ 32 <=? nanos)%N then Panic
                   else let d := Z.of_N seconds * sec + Z.of_N nanos in
                        if dur_max <? d then Panic else Done d
               end
      end
  end.
(* FromStr for LimitedResolutionTimestamp, time.rs:1103-1141 *)
Definition timestamp_from_str (epoch : Z) (r : res) (s : bytes) : outcome Z timeerr :=
  match parse_dur s with
  | Done d => if d <? epoch then duration_to_repr r (Neg (epoch - d)) else duration_to_repr r (Pos (d - epoch))
  | Fail e => Fail e
  | Panic => Panic
  end.

(* impl AnyTimestamp, time.rs:1052-1081: a limited resolution timestamp or a
   SystemTime (nanoseconds relative to the Unix epoch), whose conversion unwraps *)
Inductive any := Limited (epoch : Z) (r : res) (z : Z) | System (t : Z).
Definition any_since_unix (a : any) : outcome Z timeerr :=
  match a with
  | Limited epoch r z => since_unix epoch r z
  | System t => if 0 <=? t then Done t else Panic
  end.
(* duration_since, time.rs:973-980 *)
Definition duration_since (epoch : Z) (r : res) (z : Z) (other : any) : outcome (option Z) timeerr :=
  match since_unix epoch r z with
  | Done d => match any_since_unix other with
              | Done o => Done (dur_checked_sub d o) | Fail e => Fail e | Panic => Panic end
  | Fail e => Fail e
  | Panic => Panic
  end.
(* duration_between, time.rs:983-991 *)
Definition duration_between (epoch : Z) (r : res) (z : Z) (other : any) : outcome Z timeerr :=
  match since_unix epoch r z with
  | Done d => match any_since_unix other with
              | Done o => Done (if d <? o then o - d else d - o) | Fail e => Fail e | Panic => Panic end
  | Fail e => Fail e
  | Panic => Panic
  end.

(* Sum for Option<LimitedResolutionDuration>, time.rs:433-456 *)
Definition limited_sum (r : res) (l : list Z) : outcome (option Z) timeerr :=
  match l with
  | [] => Done None
  | a :: t =>
      match fold_left (fun acc x => match acc with
                                    | Some v => sdur_add v (repr_to_duration r x)
                                    | None => None end) t (Some (repr_to_duration r a)) with
      | Some d => match duration_to_repr r d with Done z => Done (Some z) | Fail _ => Done None | Panic => Panic end
      | None => Done None
      end
  end.
