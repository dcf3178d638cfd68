(* Model of bonsaidb-core/src/document/id.rs: the textual form of document ids.
   Text is modelled by its bytes (everything produced is ASCII). *)
From Verif Require Import Base Utf8 Key.
Local Open Scope N_scope.

Definition max_length : N := 65535. (* DocumentId::MAX_LENGTH, id.rs:231 *)

Inductive iderr := TooLong | InvalidHex.

(* TryFrom<&[u8]>, id.rs:200-210 (also Cow, [u8; N], DocumentId::new 234-245,
   Key::from_ord_bytes 306-308: all call it) *)
Definition try_from_bytes (b : bytes) : outcome bytes iderr :=
  if N.of_nat (length b) <=? max_length then Done b else Fail TooLong.

(* DocumentIdVisitor::visit_bytes, id.rs:295-300 (serde deserialization) *)
Definition visit_bytes (b : bytes) : outcome bytes iderr := Done b.

Definition nib (d : N) : N := if d <? 10 then 48 + d else 87 + d.
(* {:02x} of a byte *)
Definition hex2 (b : N) : bytes := [nib (b / 16); nib (b mod 16)].
(* {:x} of a number (at most 16 digits for a 64-bit number) *)
Fixpoint hex_fuel (fuel : nat) (n : N) : bytes :=
  match fuel with
  | O => []
  | S k => if n <? 16 then [nib n] else hex_fuel k (n / 16) ++ [nib (n mod 16)]
  end.
Definition hexn (n : N) : bytes := hex_fuel 16 n.

Definition dollar : N := 36.

Definition printable (b : bytes) : bool := forallb (fun c => (32 <=? c) && (c <=? 127)) b.

(* position of the first non-zero byte *)
Fixpoint leading_zeroes (b : bytes) : nat :=
  match b with [] => 0 | c :: r => if c =? 0 then S (leading_zeroes r) else 0 end.

(* Display, id.rs:35-67 *)
Definition display (b : bytes) : bytes :=
  if match utf8_decode b with Some _ => printable b | None => false end then b
  else
    let z := leading_zeroes b in
    match skipn z b with
    | c :: r =>
        (if (0 <? z)%nat then hexn (N.of_nat z) else []) ++ [dollar] ++ hexn c ++ flat_map hex2 r
    | [] => hexn (N.of_nat (length b)) ++ [dollar]
    end.

(* decode_hex_nibble, id.rs:100-107 *)
Definition decode_nibble (c : N) : outcome N iderr :=
  if (48 <=? c) && (c <=? 57) then Done (c - 48)
  else if (65 <=? c) && (c <=? 70) then Done (c - 65 + 10)
  else if (97 <=? c) && (c <=? 102) then Done (c - 97 + 10)
  else Fail InvalidHex.

Fixpoint decode_pairs (l : bytes) : outcome bytes iderr :=
  match l with
  | [] => Done []
  | [_] => Fail InvalidHex
  | a :: b :: r =>
      match decode_nibble a with
      | Done x => match decode_nibble b with
                  | Done y => match decode_pairs r with
                              | Done o => Done (x * 16 + y :: o)
                              | e => e
                              end
                  | Fail e => Fail e
                  | Panic => Panic
                  end
      | Fail e => Fail e
      | Panic => Panic
      end
  end.

(* decode_big_endian_hex, id.rs:154-174: an odd number of digits decodes the
   first one alone. upper << 4 | lower is upper * 16 + lower. *)
Definition decode_hex (l : bytes) : outcome bytes iderr :=
  if Nat.even (length l) then decode_pairs l
  else match l with
       | a :: r => match decode_nibble a with
                   | Done x => match decode_pairs r with Done o => Done (x :: o) | e => e end
                   | Fail e => Fail e
                   | Panic => Panic
                   end
       | [] => Done []
       end.

(* bytes before and after the first occurrence of c *)
Fixpoint split_first (c : N) (l : bytes) : option (bytes * bytes) :=
  match l with
  | [] => None
  | x :: r => if x =? c then Some ([], r)
              else match split_first c r with Some (a, b) => Some (x :: a, b) | None => None end
  end.

(* FromStr, id.rs:109-152 *)
Definition from_str (s : bytes) : outcome bytes iderr :=
  match s with
  | [] => Done []
  | _ =>
      match split_first dollar s with
      | Some (pre, rest) =>
          if (5 <? length pre)%nat then Fail TooLong
          else
            match (match pre with
                   | [] => Done 0
                   | _ => match decode_hex pre with Done l => Done (of_be l) | Fail e => Fail e | Panic => Panic end
                   end) with
            | Done zeroes =>
                match decode_hex rest with
                | Done id =>
                    if 0 <? zeroes then
                      if max_length <? zeroes + N.of_nat (length id) then Fail TooLong
                      else Done (repeat 0 (N.to_nat zeroes) ++ id)
                    else Done id
                | e => e
                end
            | Fail e => Fail e
            | Panic => Panic
            end
      | None => try_from_bytes s
      end
  end.
