(* What the key properties mean: values of a type, Rust's Ord, and the side
   conditions used by the theorems. Written against the Rust language, not
   against the encoder. *)
From Verif Require Import Base Utf8 Key.
Local Open Scope N_scope.

Section ListHelpers.
  Variable A B : Type.
  Variable f : A -> B -> bool.
  Fixpoint all2 (l : list A) (m : list B) : bool :=
    match l, m with
    | [], [] => true
    | x :: l', y :: m' => f x y && all2 l' m'
    | _, _ => false
    end.
End ListHelpers.

(* Is [v] a value of the Rust type [t]? *)
Fixpoint typed (t : kty) (v : kval) {struct t} : bool :=
  match t, v with
  | TU w, VU n => n <? 256 ^ N.of_nat w
  | TNZU w, VU n => (n <? 256 ^ N.of_nat w) && negb (n =? 0)
  | TI w, VI z =>
      ((- (2 ^ (8 * Z.of_nat w - 1)) <=? z) && (z <? 2 ^ (8 * Z.of_nat w - 1)))%Z && (1 <=? w)%nat
  | TNZI w, VI z =>
      ((- (2 ^ (8 * Z.of_nat w - 1)) <=? z) && (z <? 2 ^ (8 * Z.of_nat w - 1)))%Z && (1 <=? w)%nat
      && negb (z =? 0)%Z
  | TBool, VBool _ => true
  | TUnit, VUnit => true
  | TArr n, VBytes b => (length b =? n)%nat
  | TBytes, VBytes _ => true
  | TStr, VStr s => str_okb s
  | TOpt _, VNone => true
  | TOpt t, VSome v => typed t v
  | TRes t _, VOk v => typed t v
  | TRes _ e, VErr v => typed e v
  | TTup ts, VTup vs => all2 _ _ typed ts vs
  | TStruct _ ts, VTup vs => all2 _ _ typed ts vs
  | TEnum _ w vars, VEnum d vs =>
      (d <? 256 ^ N.of_nat w) && on_variant _ (fun ts => all2 _ _ typed ts vs) d vars false
  | _, _ => false
  end.

(* Lexicographic comparison of field lists (tuples and derived Ord) *)
Section ListCmp.
  Variable A : Type.
  Variable cmp : A -> A -> comparison.
  Fixpoint list_cmp (l m : list A) : comparison :=
    match l, m with
    | [], [] => Eq
    | [], _ => Lt
    | _, [] => Gt
    | x :: l', y :: m' => match cmp x y with Eq => list_cmp l' m' | c => c end
    end.
End ListCmp.

(* Rust's Ord on two values of one type: numeric order, false < true,
   lexicographic bytes, strings by code point, None < Some, Ok < Err, fields in
   declaration order, enums by discriminant first. *)
Fixpoint kcmp (a b : kval) {struct a} : comparison :=
  match a, b with
  | VU x, VU y => N.compare x y
  | VI x, VI y => Z.compare x y
  | VBool x, VBool y => match x, y with false, true => Lt | true, false => Gt | _, _ => Eq end
  | VBytes x, VBytes y => lex x y
  | VStr x, VStr y => lex x y
  | VNone, VNone => Eq
  | VNone, VSome _ => Lt
  | VSome _, VNone => Gt
  | VSome x, VSome y => kcmp x y
  | VOk x, VOk y => kcmp x y
  | VOk _, VErr _ => Lt
  | VErr _, VOk _ => Gt
  | VErr x, VErr y => kcmp x y
  | VTup x, VTup y => list_cmp _ kcmp x y
  | VEnum d x, VEnum e y => match N.compare d e with Eq => list_cmp _ kcmp x y | c => c end
  | _, _ => Eq
  end.

(* Side condition for round trips: inside a composite, an Option around a
   fixed-width type of non-zero width breaks LENGTH (see C03_refuted). [exact t]:
   every encoding of t has the length LENGTH announces. *)
Fixpoint exact (t : kty) : bool :=
  match t with
  | TOpt t => match klen t with None => true | Some n => (n =? 0)%nat && exact t end
  | TTup ts => forallb exact ts
  | _ => true
  end.

Fixpoint no_sized_option (t : kty) : bool :=
  match t with
  | TOpt t => no_sized_option t
  | TRes t e => no_sized_option t && no_sized_option e
  | TTup ts => forallb (fun t => exact t && no_sized_option t) ts
  | TStruct _ ts => forallb (fun t => exact t && no_sized_option t) ts
  | TEnum _ _ vars =>
      forallb (fun p => forallb (fun t => exact t && no_sized_option t) (snd p)) vars
  | _ => true
  end.

Definition null_free (l : list N) : bool := forallb (fun b => negb (b =? 0)) l.

(* Side condition for ordering: no negative signed integer anywhere (see
   C02_refuted) and, for byte strings and strings inside a composite that allows
   or escapes nulls, no null character (see C04_refuted). [inside] says whether we are inside
   such a composite. *)
Fixpoint orderable (inside : bool) (t : kty) (v : kval) {struct t} : bool :=
  match t, v with
  | TI _, VI z | TNZI _, VI z => (0 <=? z)%Z
  | TBytes, VBytes b => negb inside || null_free b
  | TStr, VStr s => negb inside || null_free s
  | TOpt t, VSome v => orderable inside t v
  | TRes t _, VOk v => orderable inside t v
  | TRes _ t, VErr v => orderable inside t v
  | TTup ts, VTup vs => all2 _ _ (orderable true) ts vs
  | TStruct DenyNulls ts, VTup vs => all2 _ _ (orderable false) ts vs
  | TStruct _ ts, VTup vs => all2 _ _ (orderable true) ts vs
  | TEnum DenyNulls _ vars, VEnum d vs =>
      on_variant _ (fun ts => all2 _ _ (orderable false) ts vs) d vars true
  | TEnum _ _ vars, VEnum d vs =>
      on_variant _ (fun ts => all2 _ _ (orderable true) ts vs) d vars true
  | _, _ => true
  end.

(* number of null bytes, and the length of a field once null handling is applied *)
Definition count_nulls (l : bytes) : nat := length (filter (fun b => b =? 0) l).
Definition stored_len (h : nulls) (e : bytes) : N :=
  match h with
  | EscapeNulls => N.of_nat (length e) + N.of_nat (count_nulls e)
  | _ => N.of_nat (length e)
  end.
