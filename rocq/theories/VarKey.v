(* Keys built on ordered_varint: VarInt<T> (key/varint.rs), isize, usize, Signed,
   Unsigned and their non-zero forms (key.rs:1893-2143), Duration, SystemTime and
   limited resolution times (key/time.rs), enums with derived keys and the default
   representation isize (bonsaidb-macros/src/lib.rs:616-815).
   The crate ordered_varint is not part of the repository: an integer type's
   Variable implementation is a parameter [vint], and [lawful] is what the crate
   documents. decode_variable takes a reader, so that it stops after the number
   and leaves the rest (key/deprecated.rs:71-75 relies on it). *)
From Verif Require Import Base Key Time.
Local Open Scope Z_scope.

Record vint := mkvint {
  venc : Z -> option bytes;            (* Variable::to_variable_vec / encode_variable *)
  vdec : bytes -> option (Z * bytes)   (* Variable::decode_variable, and what the reader has left *)
}.
(* For the numbers from lo to hi (of a type from tlo to thi): they are encoded, the
   encoding is recognised whatever follows, and sorts like the number; whatever is
   decoded is a number of the type. *)
Definition lawful (V : vint) (lo hi tlo thi : Z) : Prop :=
  (forall z, lo <= z <= hi -> exists b, venc V z = Some b) /\
  (forall z b rest, lo <= z <= hi -> venc V z = Some b -> vdec V (b ++ rest) = Some (z, rest)) /\
  (forall y z a b, lo <= y <= hi -> lo <= z <= hi -> venc V y = Some a -> venc V z = Some b -> lex a b = Z.compare y z) /\
  (forall b z rest, vdec V b = Some (z, rest) -> tlo <= z <= thi).

Inductive verr := VIo | VZero.
(* as_ord_bytes: varint.rs:213-217; key.rs:1924, 1960, 1993, 2026, 2063, 2098 *)
Definition num_encode (V : vint) (z : Z) : outcome bytes verr :=
  match venc V z with Some b => Done b | None => Fail VIo end.
(* from_ord_bytes: varint.rs:189-191; key.rs:1896, 1932, 1968, 2001 *)
Definition num_decode (V : vint) (b : bytes) : outcome Z verr :=
  match vdec V b with Some (z, _) => Done z | None => Fail VIo end.
(* NonZeroIsize, NonZeroUsize: key.rs:2034-2038, 2071-2075 *)
Definition nonzero_decode (V : vint) (b : bytes) : outcome Z verr :=
  match vdec V b with Some (z, _) => if z =? 0 then Fail VZero else Done z | None => Fail VIo end.

(* next_value of isize, usize, Signed and Unsigned (key.rs:1903-1908, 1939-1944,
   1975, 2008) and of the non-zero forms (2044-2048, 2081-2083); max is the type's
   largest number. VarInt has none (the trait's default, key.rs:206-208). *)
Inductive nexterr := WouldWrap | Unsupported.
Definition next_num (max z : Z) : outcome Z nexterr := if z + 1 <=? max then Done (z + 1) else Fail WouldWrap.
Definition next_nonzero (max z : Z) : outcome Z nexterr :=
  if z + 1 <=? max then (if z + 1 =? 0 then Done 1 else Done (z + 1)) else Fail WouldWrap.

(* KeyEncoding for Duration, time.rs:37-43: V is u128's; the parts do not overlap, so
   that the bitwise or is a sum; unwrap panics *)
Definition dur_encode (V : vint) (d : Z) : outcome bytes timeerr :=
  match venc V (as_secs d * 2 ^ 30 + subsec_nanos d) with Some b => Done b | None => Panic end.
(* Key for Duration, time.rs:14-19; Duration::new carries whole seconds over and
   panics on overflow *)
Definition dur_decode (V : vint) (b : bytes) : outcome Z timeerr :=
  match vdec V b with
  | None => Fail InvalidValue
  | Some (merged, _) =>
      let seconds := merged / 2 ^ 30 in
      if u64_max <? seconds then Fail DeltaNotRepresentable
      else let d := seconds * sec + merged mod 2 ^ 30 in if dur_max <? d then Panic else Done d
  end.
(* SystemTime (nanoseconds since 1970, Linux range), time.rs:65-70, 88-94 *)
Definition sys_encode (V : vint) (t : Z) : outcome bytes timeerr := if t <? 0 then Panic else dur_encode V t.
Definition sys_decode (V : vint) (b : bytes) : outcome Z timeerr :=
  match dur_decode V b with
  | Done d => if d <=? time_max then Done d else Fail DeltaNotRepresentable
  | o => o
  end.
(* LimitedResolutionDuration and LimitedResolutionTimestamp: time.rs:302-312,
   339-344, 1169-1173, 1200-1202; V is that of the representation *)
Definition limited_encode (V : vint) (z : Z) : outcome bytes timeerr :=
  match venc V z with Some b => Done b | None => Fail InvalidValue end.
Definition limited_decode (V : vint) (b : bytes) : outcome Z timeerr :=
  match vdec V b with Some (z, _) => Done z | None => Fail InvalidValue end.

(* #[derive(Key)] on an enum without #[repr]: the discriminant is an isize. Without
   any field: macros lib.rs:735-773 *)
Fixpoint find_disc (d : Z) (vars : list (Z * list kty)) : option (list kty) :=
  match vars with [] => None | (d', ts) :: r => if d =? d' then Some ts else find_disc d r end.
Definition unit_only (vars : list (Z * list kty)) : bool := forallb (fun p => match snd p with [] => true | _ => false end) vars.
(* as_ord_bytes: 742-746 and 776-784, 838-848: the discriminant is the first field *)
Definition enum_encode (V : vint) (h : nulls) (vars : list (Z * list kty)) (d : Z) (vs : list kval) : outcome bytes kerr :=
  match find_disc d vars with
  | None => Fail EIllTyped
  | Some ts =>
      match venc V d with
      | None => Fail EInvalidData
      | Some b =>
          if unit_only vars then Done b
          else match push_field h None b ([], []) with
               | Done st => finish_outcome (enc_fields encode h ts vs st)
               | Fail x => Fail x
               | Panic => Panic
               end
      end
  end.
(* from_ord_bytes: 716-727 and 786-799, 815-828 *)
Definition enum_decode (V : vint) (h : nulls) (vars : list (Z * list kty)) (b : bytes) : outcome (Z * list kval) kerr :=
  if unit_only vars then
    match vdec V b with
    | None => Fail EInvalidData
    | Some (d, _) => match find_disc d vars with Some _ => Done (d, []) | None => Fail EInvalidData end
    end
  else
    match dec_field (fun x => match vdec V x with Some (z, _) => Done (VI z) | None => Fail EInvalidData end) h None b (0%nat, length b) with
    | Done (VI d, st) =>
        match find_disc d vars with
        | None => Fail EInvalidData
        | Some ts => match dec_fields decode h b ts st with
                     | Done (vs, st') => if finish_dec st' then Done (d, vs) else Fail EInvalidData
                     | Fail x => Fail x
                     | Panic => Panic
                     end
        end
    | Done _ => Fail EIllTyped
    | Fail x => Fail x
    | Panic => Panic
    end.
