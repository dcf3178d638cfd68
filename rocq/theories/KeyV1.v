(* The encodings kept for old databases: encode_composite_field,
   decode_composite_field, TupleEncodingV1 and OptionKeyV1 (key/deprecated.rs). *)
From Verif Require Import Base Key VarKey.
Local Open Scope Z_scope.

(* a field of a TupleEncodingV1: a key type, or OptionKeyV1 of one *)
Inductive v1ty := F1 (t : kty) | O1 (t : kty).
(* LENGTH, deprecated.rs:228 *)
Definition v1_len (f : v1ty) : option nat := match f with F1 t => klen t | O1 t => klen t end.
(* as_ord_bytes: OptionKeyV1 deprecated.rs:241-249 (assert!) *)
Definition v1_as_bytes (f : v1ty) (v : kval) : outcome bytes kerr :=
  match f, v with
  | F1 t, _ => encode t v
  | O1 t, VSome v => match encode t v with Done [] => Panic | o => o end
  | O1 t, VNone => Done []
  | _, _ => Fail EIllTyped
  end.
(* from_ord_bytes: OptionKeyV1 deprecated.rs:201-207 *)
Definition v1_of_bytes (f : v1ty) (b : bytes) : outcome kval kerr :=
  match f with
  | F1 t => decode t b
  | O1 t => match b with
            | [] => Done VNone
            | _ => match decode t b with Done v => Done (VSome v) | o => o end
            end
  end.
(* encode_composite_field, deprecated.rs:30-41; V is u64's Variable *)
Definition v1_field (V : vint) (f : v1ty) (v : kval) : outcome bytes kerr :=
  match v1_as_bytes f v with
  | Done e => match v1_len f with
              | Some _ => Done e
              | None => match venc V (Z.of_nat (length e)) with Some l => Done (l ++ e) | None => Fail EInvalidData end
              end
  | o => o
  end.
(* decode_composite_field, deprecated.rs:64-80: split_at panics past the end *)
Definition v1_take (f : v1ty) (n : nat) (b : bytes) : outcome (kval * bytes) kerr :=
  if (n <=? length b)%nat
  then match v1_of_bytes f (firstn n b) with
       | Done v => Done (v, skipn n b)
       | Fail e => Fail e
       | Panic => Panic
       end
  else Panic.
Definition v1_unfield (V : vint) (f : v1ty) (b : bytes) : outcome (kval * bytes) kerr :=
  match v1_len f with
  | Some n => v1_take f n b
  | None => match vdec V b with
            | None => Fail EInvalidData
            | Some (z, r) => v1_take f (Z.to_nat z) r
            end
  end.
(* TupleEncodingV1, deprecated.rs:104-117, 141-147 *)
Fixpoint v1_encode (V : vint) (fs : list v1ty) (vs : list kval) : outcome bytes kerr :=
  match fs, vs with
  | [], [] => Done []
  | f :: fs', v :: vs' =>
      match v1_field V f v with
      | Done e => match v1_encode V fs' vs' with Done r => Done (e ++ r) | o => o end
      | o => o
      end
  | _, _ => Fail EIllTyped
  end.
Fixpoint v1_fields (V : vint) (fs : list v1ty) (b : bytes) : outcome (list kval * bytes) kerr :=
  match fs with
  | [] => Done ([], b)
  | f :: fs' =>
      match v1_unfield V f b with
      | Done (v, r) => match v1_fields V fs' r with
                       | Done (vs, r') => Done (v :: vs, r')
                       | o => o
                       end
      | Fail e => Fail e
      | Panic => Panic
      end
  end.
Definition v1_decode (V : vint) (fs : list v1ty) (b : bytes) : outcome (list kval) kerr :=
  match v1_fields V fs b with
  | Done (vs, []) => Done vs
  | Done (_, _ :: _) => Fail EInvalidData
  | Fail e => Fail e
  | Panic => Panic
  end.
(* OptionKeyV1::first_value and next_value, deprecated.rs:209-215; first and next are T's *)
Definition v1_first (first : outcome kval nexterr) : outcome kval nexterr :=
  match first with Done v => Done (VSome v) | o => o end.
Definition v1_next (next : kval -> outcome kval nexterr) (v : kval) : outcome kval nexterr :=
  match v with
  | VSome x => match next x with Done y => Done (VSome y) | o => o end
  | _ => Done VNone
  end.
