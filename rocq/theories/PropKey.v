(* Property theorems C01-C06 and C09: key encodings (bonsaidb-core/src/key.rs and
   the Key derive macro). Model: Key.v; specification: KeySpec.v (typed values,
   Rust's Ord, side conditions); lex (Base.v) is byte-wise comparison. *)
From Verif Require Import Base Utf8 Key KeySpec KeyProofs KeyOrder KeyMore KeyExact.
Local Open Scope N_scope.

(* ---- C01: unsigned integers of every width ---- *)
Theorem C01_unsigned_sorted_roundtrip : forall w a b,
  a < 256 ^ N.of_nat w -> b < 256 ^ N.of_nat w ->
  exists ea eb, encode (TU w) (VU a) = Done ea /\ encode (TU w) (VU b) = Done eb /\
    bytes_ok ea /\ length ea = w /\ lex ea eb = N.compare a b /\ decode (TU w) ea = Done (VU a).
Proof. exact unsigned_sorted_roundtrip. Qed.
Theorem C01_unsigned_rejects_other_lengths : forall w b,
  length b <> w -> decode (TU w) b = Fail EIncorrectLength.
Proof. exact unsigned_rejects. Qed.
Theorem C01_unsigned_decodes_every_key : forall w b, bytes_ok b -> length b = w ->
  exists n, decode (TU w) b = Done (VU n) /\ typed (TU w) (VU n) = true /\ encode (TU w) (VU n) = Done b.
Proof. exact unsigned_decode_total. Qed.
Example C01_ex : encode (TU 8) (VU 258) = Done [0;0;0;0;0;0;1;2] /\
  258 < 256 ^ N.of_nat 8 /\ decode (TU 8) [1;2] = Fail EIncorrectLength.
Proof. vm_compute. auto. Qed.
Print Assumptions C01_unsigned_sorted_roundtrip.
Print Assumptions C01_unsigned_rejects_other_lengths.
Print Assumptions C01_unsigned_decodes_every_key.

(* ---- C02: signed integers. The full claim (order) is false: ---- *)
Theorem C02_signed_order_refuted : exists a b ea eb,
  typed (TI 4) (VI a) = true /\ typed (TI 4) (VI b) = true /\
  encode (TI 4) (VI a) = Done ea /\ encode (TI 4) (VI b) = Done eb /\
  (a < b)%Z /\ lex ea eb = Gt.
Proof. exists (-1)%Z, 0%Z, [255;255;255;255], [0;0;0;0]. vm_compute. repeat split. Qed.
(* What holds: round trip, and the exact order: each sign class is in numeric
   order but all negatives sort after all non-negatives. *)
Theorem C02_signed_roundtrip_order : forall w a b,
  (1 <= w)%nat ->
  (- (2 ^ (8 * Z.of_nat w - 1)) <= a < 2 ^ (8 * Z.of_nat w - 1))%Z ->
  (- (2 ^ (8 * Z.of_nat w - 1)) <= b < 2 ^ (8 * Z.of_nat w - 1))%Z ->
  exists ea eb, encode (TI w) (VI a) = Done ea /\ encode (TI w) (VI b) = Done eb /\
    decode (TI w) ea = Done (VI a) /\
    lex ea eb = (if Bool.eqb (a <? 0) (b <? 0) then a ?= b else if a <? 0 then Gt else Lt)%Z.
Proof. exact signed_roundtrip_order. Qed.
Example C02_ex : (- (2 ^ (8 * Z.of_nat 1 - 1)) <= -128 < 2 ^ (8 * Z.of_nat 1 - 1))%Z /\
  encode (TI 1) (VI (-128)) = Done [128].
Proof. vm_compute. repeat split; discriminate. Qed.
Print Assumptions C02_signed_order_refuted.
Print Assumptions C02_signed_roundtrip_order.

(* ---- C03: composite round trip ---- *)
(* Holds for every type in which no composite field is an Option of a
   fixed-width type (missing: those types, for which it is false). The bound
   2^63 is Rust's maximal allocation size. *)
Theorem C03_key_roundtrip : forall t v e,
  no_sized_option t = true -> typed t v = true -> encode t v = Done e ->
  N.of_nat (length e) < 2 ^ 63 -> decode t e = Done v.
Proof. exact roundtrip. Qed.
Example C03_ex :
  let t := TTup [TBytes; TU 4; TStr; TStruct DenyNulls [TU 1; TRes TUnit TStr]; TOpt TStr;
                 TEnum AllowNulls 1 [(0, []); (7, [TBytes; TU 2])]] in
  let v := VTup [VBytes [1;0;0;2]; VU 77; VStr [0x20AC; 0]; VTup [VU 3; VErr (VStr [65])]; VNone;
                 VEnum 7 [VBytes [0;9]; VU 513]] in
  no_sized_option t = true /\ typed t v = true /\
  match encode t v with Done e => decode t e = Done v | _ => False end.
Proof. vm_compute. repeat split. Qed.
Theorem C03_option_field_refuted : exists t v e,
  typed t v = true /\ encode t v = Done e /\ decode t e = Fail EUnexpectedEof.
Proof.
  exists (TTup [TOpt (TU 4); TU 2]), (VTup [VNone; VU 5]), [0;0;5]. vm_compute. auto.
Qed.
(* decoding the encoding of a legal key can even panic *)
Theorem C03_option_field_panic_refuted : exists t v e,
  typed t v = true /\ encode t v = Done e /\ decode t e = Panic.
Proof.
  exists (TTup [TOpt (TU 1); TBytes]), (VTup [VNone; VBytes [0; 7]]), [0; 0; 0; 7; 0; 3].
  vm_compute. auto.
Qed.
Print Assumptions C03_key_roundtrip.
Print Assumptions C03_option_field_refuted.
Print Assumptions C03_option_field_panic_refuted.

(* ---- C04: composite order ---- *)
(* Holds when no negative signed integer and no null byte in a variable-length
   field occurs (and, for deny-null composites, without the null condition). *)
Theorem C04_key_order : forall t v1 v2 e1 e2,
  typed t v1 = true -> typed t v2 = true ->
  orderable false t v1 = true -> orderable false t v2 = true ->
  encode t v1 = Done e1 -> encode t v2 = Done e2 ->
  lex e1 e2 = kcmp v1 v2.
Proof. exact key_order. Qed.
Example C04_ex :
  let t := TTup [TStr; TOpt (TU 1); TTup [TBytes; TU 1]] in
  let v1 := VTup [VStr [97]; VSome (VU 0); VTup [VBytes [1]; VU 9]] in
  let v2 := VTup [VStr [97]; VSome (VU 0); VTup [VBytes [1;1]; VU 3]] in
  typed t v1 = true /\ typed t v2 = true /\ orderable false t v1 = true /\ orderable false t v2 = true /\
  kcmp v1 v2 = Lt /\ exists e1 e2, encode t v1 = Done e1 /\ encode t v2 = Done e2.
Proof. cbv zeta. repeat split. eexists. eexists. split; vm_compute; reflexivity. Qed.
(* With the default null escaping, ("a", 5) sorts after ("a\0", 0). *)
Theorem C04_escaped_null_order_refuted : exists t v1 v2 e1 e2,
  typed t v1 = true /\ typed t v2 = true /\ encode t v1 = Done e1 /\ encode t v2 = Done e2 /\
  kcmp v1 v2 = Lt /\ lex e1 e2 = Gt.
Proof.
  exists (TTup [TStr; TU 1]), (VTup [VStr [97]; VU 5]), (VTup [VStr [97; 0]; VU 0]),
    [97; 0; 5; 1], [97; 0; 0; 0; 0; 3]. vm_compute. repeat split.
Qed.
Print Assumptions C04_key_order.
Print Assumptions C04_escaped_null_order_refuted.

(* ---- C05: encoding of composites fails exactly when documented ---- *)
(* es are the encodings of the fields; field_ok: a variable-length field has at
   most 65535 bytes once nulls are handled, and has no null byte in deny mode *)
Theorem C05_struct_encodes_iff : forall h ts vs es,
  Forall2 (fun tv e => encode (fst tv) (snd tv) = Done e) (combine ts vs) es ->
  length ts = length vs ->
  ((exists e, encode (TStruct h ts) (VTup vs) = Done e) <->
   Forall2 (fun t e => klen t = None ->
              stored_len h e <= 65535 /\ (h = DenyNulls -> ~ In 0 e)) ts es) /\
  encode (TStruct h ts) (VTup vs) <> Panic.
Proof. exact struct_encode_iff. Qed.
Theorem C05_tuple_encodes_iff : forall ts vs es,
  Forall2 (fun tv e => encode (fst tv) (snd tv) = Done e) (combine ts vs) es ->
  length ts = length vs ->
  ((exists e, encode (TTup ts) (VTup vs) = Done e) <->
   Forall2 (fun t e => klen t = None ->
              stored_len EscapeNulls e <= 65535 /\ (EscapeNulls = DenyNulls -> ~ In 0 e)) ts es) /\
  encode (TTup ts) (VTup vs) <> Panic.
Proof. exact (struct_encode_iff EscapeNulls). Qed.
(* a composite only encodes when each of its fields does *)
Theorem C05_field_failure_propagates : forall h ts vs e,
  encode (TStruct h ts) (VTup vs) = Done e ->
  Forall (fun tv => exists e, encode (fst tv) (snd tv) = Done e) (combine ts vs).
Proof. exact struct_field_fails. Qed.
Theorem C05_encode_never_panics : forall t v, encode t v <> Panic.
Proof. exact encode_no_panic. Qed.
(* nothing is silently dropped: different keys never share an encoding *)
Theorem C05_no_truncation : forall t v1 v2 e,
  no_sized_option t = true -> typed t v1 = true -> typed t v2 = true -> N.of_nat (length e) < 2 ^ 63 ->
  encode t v1 = Done e -> encode t v2 = Done e -> v1 = v2.
Proof. exact encode_injective. Qed.
Example C05_ex_deny : encode (TStruct DenyNulls [TBytes; TU 1]) (VTup [VBytes [1;0]; VU 0]) = Fail ENullByte
  /\ encode (TStruct EscapeNulls [TBytes; TU 1]) (VTup [VBytes [1;0]; VU 0]) = Done [1;0;0;0;0;3].
Proof. vm_compute. auto. Qed.
Example C05_ex_long :
  encode (TTup [TBytes]) (VTup [VBytes (repeat 1 (N.to_nat 65536))]) = Fail EFieldTooLong /\
  encode (TTup [TBytes]) (VTup [VBytes (repeat 0 (N.to_nat 32768))]) = Fail EFieldTooLong.
Proof. vm_compute. auto. Qed.
Print Assumptions C05_struct_encodes_iff.
Print Assumptions C05_tuple_encodes_iff.
Print Assumptions C05_field_failure_propagates.
Print Assumptions C05_encode_never_panics.
Print Assumptions C05_no_truncation.

(* ---- C06: decoding arbitrary bytes. False in general: ---- *)
(* an unpaired null (todo!()), and a slice with start after end *)
Theorem C06_decode_panics_refuted :
  decode (TTup [TBytes]) [0; 0; 1] = Panic /\
  decode (TStruct AllowNulls [TBytes; TBytes]) [0] = Panic /\
  decode (TStruct AllowNulls [TBytes; TU 1]) (repeat 255 11) = Panic.
Proof. vm_compute. auto. Qed.
(* true when all fields of composites have fixed lengths, and for all
   non-composite types *)
Theorem C06_decode_never_panics : forall t b,
  all_fixed t = true -> N.of_nat (length b) < 2 ^ 63 -> decode t b <> Panic.
Proof. intros t b Hf. exact (decode_no_panic t Hf b). Qed.
Example C06_ex : all_fixed (TTup [TU 4; TOpt (TI 8); TTup [TArr 3; TBool]]) = true /\
  decode (TTup [TU 4; TOpt (TI 8)]) [0;0;0;1;1;2] = Fail EUnexpectedEof.
Proof. vm_compute. auto. Qed.
(* What is accepted is the encoding of what is returned: nothing is left over, no
   length goes unchecked, no unknown discriminant is let through. For integers, byte
   arrays, byte strings, strings, and tuples, structs and enums all of whose fields
   have a fixed length ([strict], KeyExact.v); the next theorem shows where it fails. *)
Theorem C06_accepts_only_encodings : forall t b v, strict t = true -> bytes_ok b ->
  decode t b = Done v -> typed t v = true /\ encode t v = Done b.
Proof. intros t b v S. exact (strict_exact t S b v). Qed.
Example C06_strict_ex :
  strict (TEnum EscapeNulls 1 [(0, []); (1, [TU 4; TArr 2])]) = true /\
  decode (TEnum EscapeNulls 1 [(0, []); (1, [TU 4; TArr 2])]) [1; 0; 0; 1; 0; 9; 9] = Done (VEnum 1 [VU 256; VBytes [9; 9]]) /\
  decode (TEnum EscapeNulls 1 [(0, []); (1, [TU 4; TArr 2])]) [1; 0; 0; 1; 0; 9; 9; 9] = Fail EInvalidData /\
  decode (TEnum EscapeNulls 1 [(0, []); (3, [])]) [1] = Fail EInvalidData.
Proof. vm_compute. auto. Qed.
(* several byte strings for one value: any non-zero byte is true, bytes after None, and
   any byte in the place of the null after a variable-length field *)
Theorem C06_accepts_other_bytes_refuted :
  decode TBool [2] = Done (VBool true) /\ encode TBool (VBool true) = Done [1] /\
  decode (TOpt (TU 1)) [0; 7] = Done VNone /\ encode (TOpt (TU 1)) VNone = Done [0] /\
  decode (TTup [TBytes; TU 1]) [7; 9; 5; 1] = Done (VTup [VBytes [7]; VU 5]) /\ encode (TTup [TBytes; TU 1]) (VTup [VBytes [7]; VU 5]) = Done [7; 0; 5; 1].
Proof. vm_compute. repeat split. Qed.
Print Assumptions C06_accepts_only_encodings.
Print Assumptions C06_accepts_other_bytes_refuted.
Print Assumptions C06_decode_panics_refuted.
Print Assumptions C06_decode_never_panics.

(* ---- C09: Option, Result, bool, unit, arrays, NonZero (and their nestings) ---- *)
Theorem C09_simple_keys : forall t v1 v2,
  simple t = true -> typed t v1 = true -> typed t v2 = true ->
  orderable false t v1 = true -> orderable false t v2 = true ->
  exists e1 e2, encode t v1 = Done e1 /\ encode t v2 = Done e2 /\ lex e1 e2 = kcmp v1 v2 /\
    (N.of_nat (length e1) < 2 ^ 63 -> decode t e1 = Done v1).
Proof. exact simple_sorted_roundtrip. Qed.
Theorem C09_nonzero_rejects_zero : forall w,
  decode (TNZU w) (be w 0) = Fail EValueIsZero /\ decode (TNZI w) (be w 0) = Fail EValueIsZero.
Proof. exact nonzero_rejects_zero. Qed.
Example C09_ex : let t := TRes (TOpt (TNZU 2)) (TOpt TBool) in
  simple t = true /\ typed t (VOk VNone) = true /\ typed t (VErr (VSome (VBool true))) = true /\
  kcmp (VOk (VSome (VU 9))) (VErr VNone) = Lt.
Proof. vm_compute. auto. Qed.
(* NonZero signed types inherit the order defect of C02 *)
Theorem C09_nonzero_signed_order_refuted : exists a b ea eb,
  typed (TNZI 1) (VI a) = true /\ typed (TNZI 1) (VI b) = true /\
  encode (TNZI 1) (VI a) = Done ea /\ encode (TNZI 1) (VI b) = Done eb /\ (a < b)%Z /\ lex ea eb = Gt.
Proof. exists (-1)%Z, 1%Z, [255], [1]. vm_compute. repeat split. Qed.
Print Assumptions C09_simple_keys.
Print Assumptions C09_nonzero_rejects_zero.
Print Assumptions C09_nonzero_signed_order_refuted.
