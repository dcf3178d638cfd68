(* Prefix ranges: IntoPrefixRange in bonsaidb-core/src/key.rs and
   next_string_sequence in bonsaidb-utils. *)
From Verif Require Import Base Utf8.
Local Open Scope N_scope.

Inductive bound := Included (k : bytes) | Excluded (k : bytes) | Unbounded.

(* RangeBounds::contains on encoded keys (byte order) *)
Definition in_bounds (lo hi : bound) (k : bytes) : bool :=
  match lo with Included a => lex_leb a k | Excluded a => lex_ltb a k | Unbounded => true end &&
  match hi with Included b => lex_leb k b | Excluded b => lex_ltb k b | Unbounded => true end.

(* next_byte_sequence, key.rs:617-629: pop bytes that cannot be incremented.
   [r] is the vector reversed (pop/push work at the end). *)
Fixpoint next_rev (succ : N -> option N) (r : list N) : option (list N) :=
  match r with
  | [] => None
  | b :: r' => match succ b with Some c => Some (rev (c :: r')) | None => next_rev succ r' end
  end.
Definition succ_byte (b : N) : option N := if b + 1 <? 256 then Some (b + 1) else None. (* checked_add *)
Definition next_byte_sequence (p : bytes) : option bytes := next_rev succ_byte (rev p).

(* to_prefix_range for Cow<[u8]> 677-693, Vec<u8> 773-789, ArcBytes, Bytes ... *)
Definition bytes_prefix_range (p : bytes) : bound * bound :=
  (Included p, match next_byte_sequence p with Some e => Excluded e | None => Unbounded end).

(* the character step of to_prefix_range for String/str, key.rs:1061-1067 and 1091-1097:
   char::try_from(next_char).unwrap() cannot fail for the values produced (succ_char_ok) *)
Definition succ_char (c : N) : option N :=
  if c + 1 =? 0xD800 then Some 0xE000
  else if 0x10FFFF <? c + 1 then None
  else Some (c + 1).

(* String/str::to_prefix_range, key.rs:1059-1121. Works on code points; the
   splice of the UTF-8 bytes from the character's index replaces this character
   and everything after it. *)
Definition str_prefix_range (p : str) : bound * bound :=
  (Included (utf8 p),
   match next_rev succ_char (rev p) with Some e => Excluded (utf8 e) | None => Unbounded end).

(* bonsaidb-utils/src/lib.rs:3-25 *)
Definition next_string_sequence (p : str) : str :=
  match next_rev succ_char (rev p) with Some e => e | None => [] end.
