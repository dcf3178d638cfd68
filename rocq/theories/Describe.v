(* KeyDescription: what a key type reports about its encoding (KeyEncoding::describe), and
   KeyDescription::for_key, which Schematic::define_collection calls for every collection's
   primary key (schema/schematic.rs:62) and the schema summary for every view's key
   (schematic.rs:246-248, summary.rs:34-70). *)
From Verif Require Import Base Key.
Local Open Scope nat_scope.

(* KeyKind, key.rs:276-314 *)
Inductive kkind := KUnit | KU8 | KU16 | KU32 | KU64 | KU128 | KUsize | KI8 | KI16 | KI32 | KI64 | KI128 | KIsize
  | KSigned | KUnsigned | KBool | KString | KBytes.
(* CompositeKind, key.rs:382-398 *)
Inductive ckind := CkOption | CkResult | CkTuple | CkStruct (name : bytes).
(* KeyDescription and CompositeKeyDescription, key.rs:400-450. Attributes: the only one reported
   is a number (time.rs:1196); the map is a list with one entry per key *)
Inductive desc := Basic (k : kkind) | Composite (c : ckind) (fields : list desc) (attrs : list (bytes * N)) | Other (name : bytes).

(* the calls of a KeyVisitor, key.rs:246-274 *)
Inductive visit := VisitType (k : kkind) | VisitOther (name : bytes) | VisitComposite (c : ckind) (count : nat) | VisitAttribute (key : bytes) (v : N).

(* a CompositeKeyDescription under construction; f_cap is fields.capacity() *)
Record frame := mk_frame { f_kind : ckind; f_cap : nat; f_fields : list desc; f_attrs : list (bytes * N) }.
(* KeyDescriber, key.rs:452-456; the last frame is the head *)
Record describer := mk_describer { d_stack : list frame; d_result : option desc }.

(* Vec::push: the capacity after it. A full vector grows to twice its capacity and at least 4
   (std, RawVec::grow_amortized) *)
Definition cap_after (cap len : nat) : nat := if len <? cap then cap else Nat.max 4 (2 * cap).
(* record, key.rs:459-476 *)
Fixpoint record (x : desc) (st : list frame) (res : option desc) : outcome describer unit :=
  match st with
  | [] => match res with Some _ => Panic | None => Done (mk_describer [] (Some x)) end
  | f :: r =>
      let fields := f_fields f ++ [x] in
      let cap := cap_after (f_cap f) (length (f_fields f)) in
      if length fields =? cap then record (Composite (f_kind f) fields (f_attrs f)) r res
      else Done (mk_describer (mk_frame (f_kind f) cap fields (f_attrs f) :: r) res)
  end.
(* HashMap::insert *)
Fixpoint set_attr (k : bytes) (v : N) (l : list (bytes * N)) : list (bytes * N) :=
  match l with [] => [(k, v)] | (k', v') :: r => if bytes_eqb k k' then (k, v) :: r else (k', v') :: set_attr k v r end.
(* impl KeyVisitor for KeyDescriber, key.rs:492-521 *)
Definition visit_one (v : visit) (d : describer) : outcome describer unit :=
  match v with
  | VisitType k => record (Basic k) (d_stack d) (d_result d)
  | VisitOther n => record (Other n) (d_stack d) (d_result d)
  | VisitComposite c n => Done (mk_describer (mk_frame c n [] [] :: d_stack d) (d_result d))
  | VisitAttribute k x =>
      match d_stack d with
      | [] => Panic
      | f :: r => Done (mk_describer (mk_frame (f_kind f) (f_cap f) (f_fields f) (set_attr k x (f_attrs f)) :: r) (d_result d))
      end
  end.
Fixpoint visits (l : list visit) (d : describer) : outcome describer unit :=
  match l with
  | [] => Done d
  | v :: r => match visit_one v d with Done d' => visits r d' | Fail e => Fail e | Panic => Panic end
  end.
(* for_encoding and finish_for, key.rs:411-440, 478-488. type_name: std::any::type_name *)
Definition for_key (type_name : bytes) (l : list visit) : outcome desc unit :=
  match visits l (mk_describer [] None) with
  | Done d =>
      match d_stack d with
      | _ :: _ => Panic
      | [] => Done (match d_result d with Some x => x | None => Other type_name end)
      end
  | Fail e => Fail e
  | Panic => Panic
  end.

(* how a variant of an enum with derived key is written: A, A { .. } or A( .. ) *)
Inductive shape := UnitShape | FieldShape.
(* Key types, by how they describe themselves:
   DBasic k        one visit_type: integers 2405-2414 and their non-zero forms, bool, (), byte
                   vectors and arrays, strings, usize/isize/Signed/Unsigned, DocumentId,
                   SensitiveString/Bytes, derived unit structs (macros/lib.rs:593-598)
   DOther n        visit_other: types of the application
   DNone           describe is empty (a type of the application)
   DNamed c n x ks visit_composite, maybe an attribute, then basic kinds: Uuid 2113-2119,
                   Duration and SystemTime (key/time.rs:27-36, 79-88), VarInt (varint.rs:202-211),
                   LimitedResolutionDuration and -Timestamp (time.rs:326-337, 1186-1198), Timestamp
                   (keyvalue/timestamp.rs:98-108), FileKey (bonsaidb-files/src/schema/file.rs:526-536)
   DOpt 2182-2188, DRes 2246-2253, DTup 1267-1273
   DStruct n ts    derived for a struct with named or unnamed fields, but not exactly one
                   (one: as the field, macros/lib.rs:500-505)
   DEnum k vs      derived for an enum with representation k (774-777 if no variant has a
                   field, 840-846 otherwise) *)
Inductive dty :=
| DBasic (k : kkind)
| DOther (name : bytes)
| DNone
| DNamed (name : bytes) (attr : option (bytes * N)) (ks : list kkind)
| DOpt (t : dty) | DRes (t e : dty) | DTup (ts : list dty)
| DStruct (name : bytes) (ts : list dty)
| DEnum (repr : kkind) (vs : list (shape * list dty)).

Definition no_fields (vs : list (shape * list dty)) : bool := forallb (fun v => match snd v with [] => true | _ => false end) vs.
(* KeyEncoding::describe *)
Fixpoint describe (t : dty) : list visit :=
  match t with
  | DBasic k => [VisitType k]
  | DOther n => [VisitOther n]
  | DNone => []
  | DNamed n a ks => VisitComposite (CkStruct n) (length ks) :: match a with Some (k, v) => [VisitAttribute k v] | None => [] end ++ map VisitType ks
  | DOpt t => VisitComposite CkOption 1 :: describe t
  | DRes t e => VisitComposite CkResult 2 :: describe t ++ describe e
  | DTup ts => VisitComposite CkTuple (length ts) :: flat_map describe ts
  | DStruct n ts => VisitComposite (CkStruct n) (length ts) :: flat_map describe ts
  | DEnum k vs =>
      if no_fields vs then [VisitType k]
      else VisitComposite CkTuple (length vs) ::
             flat_map (fun v => match fst v with UnitShape => [VisitType KUnit] | FieldShape => flat_map describe (snd v) end) vs
  end.

(* the key types of Key.v *)
Definition width_kind (signed : bool) (w : nat) : kkind :=
  match w, signed with
  | 1, false => KU8 | 2, false => KU16 | 4, false => KU32 | 8, false => KU64 | _, false => KU128
  | 1, true => KI8 | 2, true => KI16 | 4, true => KI32 | 8, true => KI64 | _, true => KI128
  end.
Fixpoint of_kty (t : kty) : dty :=
  match t with
  | TU w | TNZU w => DBasic (width_kind false w)
  | TI w | TNZI w => DBasic (width_kind true w)
  | TBool => DBasic KBool
  | TUnit => DBasic KUnit
  | TArr _ | TBytes => DBasic KBytes
  | TStr => DBasic KString
  | TOpt t => DOpt (of_kty t)
  | TRes t e => DRes (of_kty t) (of_kty e)
  | TTup ts => DTup (map of_kty ts)
  | TStruct _ ts => DStruct [] (map of_kty ts)
  | TEnum _ w vs => DEnum (width_kind false w) (map (fun v => (match snd v with [] => UnitShape | _ => FieldShape end, map of_kty (snd v))) vs)
  end.
