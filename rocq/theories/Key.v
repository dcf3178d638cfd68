(* Model of bonsaidb-core/src/key.rs: the key encodings.
   A deep embedding: [kty] is the Rust type of the key, [kval] a value of it;
   [encode] is KeyEncoding::as_ord_bytes, [decode] is Key::from_ord_bytes and
   [klen] is KeyEncoding::LENGTH.
   Simplifications: ByteSource/Cow (borrowed or owned) is a byte list; the
   distinct Rust error types are one enumeration [kerr]; arithmetic is that of a
   64-bit target with overflow checks (the debug profile): a shift by 64 or more,
   or an overflowing usize addition, is [Panic]. *)
From Verif Require Import Base Utf8.
Local Open Scope N_scope.

(* CompositeKeyNullHandler implementations, key.rs:1489-1584 *)
Inductive nulls := EscapeNulls | AllowNulls | DenyNulls.

(* The key types covered. w is the width in bytes of an integer.
   - TU/TI: impl_key_for_primitive, key.rs:2369-2414
   - TNZU/TNZI: impl_key_for_nonzero_primitive, key.rs:2416-2475
   - TBool 1201-1233, TUnit 1176-1199, TArr = [u8; N] 791-820
   - TBytes: Vec<u8>, Cow<[u8]>, ArcBytes ... (630-860); TStr: String, Cow<str> (1013-1140)
   - TOpt 2146-2200, TRes 2201-2264
   - TTup: tuples, key.rs:1240-1284 (EscapeNullBytes, LENGTH computed)
   - TStruct h ts: #[derive(Key)] on a struct with zero or at least two fields,
     bonsaidb-macros/src/lib.rs:509-583, 815-850 (LENGTH always None). A
     one-field struct encodes exactly as its field (458-507).
   - TEnum h w vs: #[derive(Key)] on an enum with a #[repr(u8..u128)], the list
     gives each variant's discriminant and field types, 590-850. *)
Inductive kty :=
| TU (w : nat) | TI (w : nat) | TNZU (w : nat) | TNZI (w : nat)
| TBool | TUnit | TArr (n : nat) | TBytes | TStr
| TOpt (t : kty) | TRes (t e : kty)
| TTup (ts : list kty)
| TStruct (h : nulls) (ts : list kty)
| TEnum (h : nulls) (w : nat) (vs : list (N * list kty)).

Inductive kval :=
| VU (n : N) | VI (z : Z) | VBool (b : bool) | VUnit | VBytes (b : bytes) | VStr (s : str)
| VNone | VSome (v : kval) | VOk (v : kval) | VErr (v : kval)
| VTup (vs : list kval)
| VEnum (d : N) (vs : list kval).

Inductive kerr :=
| EIncorrectLength | EValueIsZero | EUtf8 | EUnexpectedEof | EInvalidData
| EFieldTooLong | ENullByte
| EIllTyped. (* not a value of the type: does not exist in Rust *)

(* uN::to_be_bytes *)
Fixpoint be (w : nat) (v : N) : bytes :=
  match w with
  | O => []
  | S n => v / 256 ^ N.of_nat n :: be n (v mod 256 ^ N.of_nat n)
  end.
(* uN::from_be_bytes *)
Fixpoint of_be (l : bytes) : N :=
  match l with [] => 0 | b :: r => b * 256 ^ N.of_nat (length r) + of_be r end.

(* iN as uN of the same width, and back: two's complement *)
Definition umod (w : nat) : N := 256 ^ N.of_nat w.
Definition to_unsigned (w : nat) (z : Z) : N := Z.to_N (z mod Z.of_N (umod w)).
Definition to_signed (w : nat) (n : N) : Z :=
  if n <? umod w / 2 then Z.of_N n else (Z.of_N n - Z.of_N (umod w))%Z.

Definition all_unit (vs : list (N * list kty)) : bool :=
  forallb (fun p => match snd p with [] => true | _ => false end) vs.

Definition opt_add (a b : option nat) : option nat :=
  match a, b with Some x, Some y => Some (x + y)%nat | _, _ => None end.

(* KeyEncoding::LENGTH. Tuples: key.rs:1262-1265; Option: 2180-2183; Result: 2241;
   derived composites: macros/lib.rs:838; unit-only enums: 779 *)
Fixpoint klen (t : kty) : option nat :=
  match t with
  | TU w | TI w | TNZU w | TNZI w => Some w
  | TBool => Some 1%nat
  | TUnit => Some 0%nat
  | TArr n => Some n
  | TBytes | TStr => None
  | TOpt t => match klen t with Some n => Some (1 + n)%nat | None => None end
  | TRes _ _ => None
  | TTup ts => fold_right (fun t acc => opt_add (klen t) acc) (Some 0%nat) ts
  | TStruct _ _ => None
  | TEnum _ w vs => if all_unit vs then Some w else None
  end.

(* EscapeNullBytes::handle_nulls, key.rs:1528-1543 *)
Fixpoint esc (l : bytes) : bytes :=
  match l with
  | [] => []
  | b :: r => if b =? 0 then 0 :: 0 :: esc r else b :: esc r
  end.

(* CompositeKeyNullHandler::handle_nulls: Deny 1491-1500, Allow 1513-1515, Escape *)
Definition handle_nulls (h : nulls) (l : bytes) : outcome bytes kerr :=
  match h with
  | EscapeNulls => Done (esc l)
  | AllowNulls => Done l
  | DenyNulls => if existsb (fun b => b =? 0) l then Fail ENullByte else Done l
  end.

(* EscapeNullBytes::decode_nulls_if_needed, key.rs:1546-1583: every null must be
   followed by a null, the pair becomes one; otherwise todo!() panics. The loop
   (find next null, check the following byte, remove one, continue after the
   kept one) is written as one left to right pass. *)
Fixpoint unesc (l : bytes) : outcome bytes kerr :=
  match l with
  | [] => Done []
  | b :: r =>
      if b =? 0 then
        match r with
        | c :: r' => if c =? 0 then
                       match unesc r' with Done x => Done (0 :: x) | o => o end
                     else Panic
        | [] => Panic
        end
      else match unesc r with Done x => Done (b :: x) | o => o end
  end.

(* decode_nulls_if_needed: Deny 1503-1508, Allow 1518-1523, Escape *)
Definition decode_nulls (h : nulls) (l : bytes) : outcome bytes kerr :=
  match h with EscapeNulls => unesc l | _ => Done l end.

(* CompositeKeyEncoder: bytes and encoded_lengths, key.rs:1329-1333 *)
Definition encst := (bytes * list N)%type.

(* CompositeKeyEncoder::encode after as_ord_bytes, key.rs:1362-1374 *)
Definition push_field (h : nulls) (len : option nat) (e : bytes) (st : encst) : outcome encst kerr :=
  match len with
  | Some _ => Done (fst st ++ e, snd st)
  | None =>
      match handle_nulls h e with
      | Done e' =>
          if N.of_nat (length e') <=? 65535 then
            Done (fst st ++ e' ++ [0], snd st ++ [N.of_nat (length e')])
          else Fail EFieldTooLong
      | Fail x => Fail x
      | Panic => Panic
      end
  end.

(* one length in CompositeKeyEncoder::finish, key.rs:1383-1399 *)
Definition varlen (n : N) : bytes :=
  if n <=? 0x7F then [n]
  else if n <=? 0x3FFF then [N.shiftr n 7; N.lor (N.land n 0x7F) 0x80]
  else [N.shiftr n 14; N.lor (N.land (N.shiftr n 7) 0x7F) 0x80; N.lor (N.land n 0x7F) 0x80].

(* CompositeKeyEncoder::finish, key.rs:1379-1402 *)
Definition finish_enc (st : encst) : bytes := fst st ++ flat_map varlen (rev (snd st)).

Section Fields.
  Variable enc : kty -> kval -> outcome bytes kerr.
  Variable dec : kty -> bytes -> outcome kval kerr.
  (* the sequence of encoder.encode(&field)? calls *)
  Fixpoint enc_fields (h : nulls) (ts : list kty) (vs : list kval) (st : encst) : outcome encst kerr :=
    match ts, vs with
    | [], [] => Done st
    | t :: ts', v :: vs' =>
        match enc t v with
        | Done e => match push_field h (klen t) e st with
                    | Done st' => enc_fields h ts' vs' st'
                    | Fail x => Fail x
                    | Panic => Panic
                    end
        | Fail x => Fail x
        | Panic => Panic
        end
    | _, _ => Fail EIllTyped
    end.
End Fields.

(* the loop over bytes[offset..end].rev().enumerate() in decode, key.rs:1697-1711;
   [l] is the reversed slice, result: length and index of the final byte *)
Fixpoint read_len (l : bytes) (i : N) (acc : N) : outcome (N * N) kerr :=
  match l with
  | [] => Fail EUnexpectedEof
  | b :: r =>
      if 64 <=? 7 * i then Panic
      else
        let acc' := N.lor acc (N.shiftl (N.land b 0x7F) (7 * i) mod 2 ^ 64) in
        if N.land b 0x80 =? 0 then Done (acc', i)
        else read_len r (i + 1) acc'
  end.

(* &bytes[a..b]: panics when a > b or b > len *)
Definition slice (l : bytes) (a b : nat) : option bytes :=
  if (a <=? b)%nat && (b <=? length l)%nat then Some (firstn (b - a) (skipn a l)) else None.

(* CompositeKeyDecoder::decode, key.rs:1685-1740; state: (offset, end) *)
Definition decst := (nat * nat)%type.
Definition dec_field (d : bytes -> outcome kval kerr) (h : nulls) (len : option nat)
    (all : bytes) (st : decst) : outcome (kval * decst) kerr :=
  let '(off, en) := st in
  match
    match len with
    | Some n => Done (N.of_nat n, en)
    | None =>
        match slice all off en with
        | None => Panic
        | Some s =>
            match read_len (rev s) 0 0 with
            | Done (n, i) => Done (n, (en - N.to_nat i - 1)%nat)
            | Fail e => Fail e
            | Panic => Panic
            end
        end
    end
  with
  | Fail e => Fail e
  | Panic => Panic
  | Done (n, en') =>
      let e := N.of_nat off + n in
      if 2 ^ 64 <=? e then Panic
      else if e <=? N.of_nat en' then
        match slice all off (N.to_nat e) with
        | None => Panic
        | Some s =>
            match (match len with Some _ => Done s | None => decode_nulls h s end) with
            | Done s' =>
                match d s' with
                | Done v =>
                    Done (v, (match len with Some _ => N.to_nat e | None => N.to_nat e + 1 end, en')%nat)
                | Fail x => Fail x
                | Panic => Panic
                end
            | Fail x => Fail x
            | Panic => Panic
            end
        end
      else Fail EUnexpectedEof
  end.

Section Fields2.
  Variable dec : kty -> bytes -> outcome kval kerr.
  Fixpoint dec_fields (h : nulls) (all : bytes) (ts : list kty) (st : decst)
    : outcome (list kval * decst) kerr :=
    match ts with
    | [] => Done ([], st)
    | t :: ts' =>
        match dec_field (dec t) h (klen t) all st with
        | Done (v, st') =>
            match dec_fields h all ts' st' with
            | Done (vs, st'') => Done (v :: vs, st'')
            | Fail x => Fail x
            | Panic => Panic
            end
        | Fail x => Fail x
        | Panic => Panic
        end
    end.
End Fields2.

(* CompositeKeyDecoder::finish, key.rs:1743-1752 *)
Definition finish_dec (st : decst) : bool := (fst st =? snd st)%nat.

Definition dec_composite (r : outcome (list kval * decst) kerr) (mk : list kval -> kval)
  : outcome kval kerr :=
  match r with
  | Done (vs, st) => if finish_dec st then Done (mk vs) else Fail EInvalidData
  | Fail x => Fail x
  | Panic => Panic
  end.

Definition finish_outcome (o : outcome encst kerr) : outcome bytes kerr :=
  match o with Done st => Done (finish_enc st) | Fail x => Fail x | Panic => Panic end.

Section Variants.
  Variable A : Type.
  Variable f : list kty -> A.
  (* match on the discriminant; variants are tried in declaration order *)
  Fixpoint on_variant (d : N) (vs : list (N * list kty)) (dflt : A) : A :=
    match vs with
    | [] => dflt
    | (d', ts) :: r => if d =? d' then f ts else on_variant d r dflt
    end.
End Variants.

(* KeyEncoding::as_ord_bytes *)
Fixpoint encode (t : kty) (v : kval) {struct t} : outcome bytes kerr :=
  match t, v with
  | TU w, VU n => Done (be w n)
  | TI w, VI z => Done (be w (to_unsigned w z))
  | TNZU w, VU n => Done (be w n)
  | TNZI w, VI z => Done (be w (to_unsigned w z))
  | TBool, VBool b => Done [if b then 1 else 0]
  | TUnit, VUnit => Done []
  | TArr _, VBytes b => Done b
  | TBytes, VBytes b => Done b
  | TStr, VStr s => Done (utf8 s)
  | TOpt _, VNone => Done [0]
  | TOpt t, VSome v => match encode t v with Done e => Done (1 :: e) | o => o end
  | TRes t _, VOk v => match encode t v with Done e => Done (0 :: e) | o => o end
  | TRes _ t, VErr v => match encode t v with Done e => Done (1 :: e) | o => o end
  | TTup ts, VTup vs => finish_outcome (enc_fields encode EscapeNulls ts vs ([], []))
  | TStruct h ts, VTup vs => finish_outcome (enc_fields encode h ts vs ([], []))
  | TEnum h w vars, VEnum d vs =>
      if all_unit vars then Done (be w d)
      else on_variant _ (fun ts => finish_outcome (enc_fields encode h ts vs (be w d, []))) d vars
             (Fail EIllTyped)
  | _, _ => Fail EIllTyped
  end.

Definition from_be (w : nat) (b : bytes) (k : N -> outcome kval kerr) : outcome kval kerr :=
  if (length b =? w)%nat then k (of_be b) else Fail EIncorrectLength.

(* Key::from_ord_bytes *)
Fixpoint decode (t : kty) (b : bytes) {struct t} : outcome kval kerr :=
  match t with
  | TU w => from_be w b (fun n => Done (VU n))
  | TI w => from_be w b (fun n => Done (VI (to_signed w n)))
  | TNZU w => from_be w b (fun n => if n =? 0 then Fail EValueIsZero else Done (VU n))
  | TNZI w => from_be w b (fun n => if n =? 0 then Fail EValueIsZero else Done (VI (to_signed w n)))
  | TBool => Done (VBool (match b with [] => false | x :: _ => negb (x =? 0) end))
  | TUnit => Done VUnit
  | TArr n => if (length b =? n)%nat then Done (VBytes b) else Fail EIncorrectLength
  | TBytes => Done (VBytes b)
  | TStr => match utf8_decode b with Some s => Done (VStr s) | None => Fail EUtf8 end
  | TOpt t => match b with
              | [] => Done VNone
              | x :: r => if x =? 0 then Done VNone
                          else match decode t r with Done v => Done (VSome v) | o => o end
              end
  | TRes t e => match b with
                | [] => match decode e [] with Done v => Done (VErr v) | o => o end
                | x :: r => if x =? 0
                            then match decode t r with Done v => Done (VOk v) | o => o end
                            else match decode e r with Done v => Done (VErr v) | o => o end
                end
  | TTup ts => dec_composite (dec_fields decode EscapeNulls b ts (0%nat, length b)) VTup
  | TStruct h ts => dec_composite (dec_fields decode h b ts (0%nat, length b)) VTup
  | TEnum h w vars =>
      if all_unit vars then
        from_be w b (fun d => on_variant _ (fun _ => Done (VEnum d [])) d vars (Fail EInvalidData))
      else
        match dec_field (fun s => from_be w s (fun n => Done (VU n))) h (Some w) b (0%nat, length b) with
        | Done (VU d, st) =>
            on_variant _ (fun ts => dec_composite (dec_fields decode h b ts st) (VEnum d)) d vars
              (Fail EInvalidData)
        | Done _ => Fail EIllTyped
        | Fail x => Fail x
        | Panic => Panic
        end
  end.

(* Key::first_value / Key::next_value. Only the types that override the
   defaults (key.rs:200-208 return Unsupported): primitives 2377-2383, non-zero
   2426-2443, Option 2160-2166, Result 2221-2230. None = NextValueError. *)
Fixpoint first_value (t : kty) : option kval :=
  match t with
  | TU _ => Some (VU 0)
  | TI _ => Some (VI 0)
  | TNZU _ => Some (VU 1)
  | TNZI _ => Some (VI 1)
  | TOpt t => option_map VSome (first_value t)
  | TRes t _ => option_map VOk (first_value t)
  | _ => None
  end.

Fixpoint next_value (t : kty) (v : kval) : option kval :=
  match t, v with
  | TU w, VU n => if n + 1 <? umod w then Some (VU (n + 1)) else None
  | TI w, VI z => if (z + 1 <? Z.of_N (umod w / 2))%Z then Some (VI (z + 1)) else None
  | TNZU w, VU n => if n + 1 <? umod w then Some (VU (n + 1)) else None
  | TNZI w, VI z => if (z + 1 <? Z.of_N (umod w / 2))%Z
                    then Some (VI (if (z + 1 =? 0)%Z then 1 else z + 1)) else None
  | TOpt t, VSome v => option_map VSome (next_value t v)
  | TOpt _, VNone => Some VNone
  | TRes t _, VOk v => option_map VOk (next_value t v)
  | TRes _ t, VErr v => option_map VErr (next_value t v)
  | _, _ => None
  end.
