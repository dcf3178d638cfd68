(* Specification and proofs for KeyV1.v. *)
From Verif Require Import Base Utf8 Key KeySpec KeyProofs KeyOrder VarKey VarKeyProofs KeyV1.
From Coq Require Import ZifyBool ZifyNat ZifyN Lia Arith.
Local Open Scope Z_scope.

(* values of the field types *)
Definition v1_typed (f : v1ty) (v : kval) : bool :=
  match f, v with F1 t, _ => typed t v | O1 _, VNone => true | O1 t, VSome v => typed t v | _, _ => false end.
(* types whose fields come back: no optional field of a fixed width, and what C03 asks *)
Definition v1_sound (f : v1ty) : bool :=
  match f with
  | F1 t => exact t && no_sized_option t
  | O1 t => match klen t with None => exact t && no_sized_option t | Some _ => false end
  end.
Definition v1_orderable (f : v1ty) (v : kval) : bool :=
  match f, v with F1 t, _ => orderable false t v | O1 t, VSome v => orderable false t v | _, _ => true end.
(* how the bytes sort: fixed-width fields as the values, the others by length first *)
Definition v1_size (f : v1ty) (v : kval) : nat := match v1_as_bytes f v with Done e => length e | _ => 0%nat end.
Fixpoint v1_cmp (fs : list v1ty) (a b : list kval) : comparison :=
  match fs, a, b with
  | f :: fs', x :: a', y :: b' =>
      thenc (match v1_len f with Some _ => Eq | None => Nat.compare (v1_size f x) (v1_size f y) end)
            (thenc (kcmp x y) (v1_cmp fs' a' b'))
  | _, _, _ => Eq
  end.

Definition u64_varint (V : vint) : Prop := lawful V 0 (2 ^ 63) 0 (2 ^ 64 - 1).

Lemma v1_back f v e : v1_sound f = true -> v1_typed f v = true -> v1_as_bytes f v = Done e ->
  (N.of_nat (length e) < 2 ^ 63)%N -> v1_of_bytes f e = Done v.
Proof.
  intros S T E L. destruct f as [t|t]; cbn [v1_sound v1_typed v1_as_bytes v1_of_bytes] in *.
  - apply andb_prop in S. apply roundtrip; tauto.
  - destruct (klen t); [discriminate|]. apply andb_prop in S. destruct v; try discriminate.
    + injection E as <-. reflexivity.
    + destruct (encode t v) as [e'| |] eqn:Q; try discriminate. destruct e' as [|c r]; [discriminate|]. injection E as <-.
      rewrite (roundtrip t v (c :: r)) by tauto. reflexivity.
Qed.

Lemma v1_exact f v e n : v1_sound f = true -> v1_typed f v = true -> v1_as_bytes f v = Done e ->
  v1_len f = Some n -> length e = n.
Proof.
  intros S T E K. destruct f as [t|t]; cbn [v1_sound v1_typed v1_as_bytes v1_len] in *.
  - apply andb_prop in S. apply (exact_len t v e n); tauto.
  - rewrite K in S. discriminate.
Qed.

Lemma v1_unfield_field V f v e rest : u64_varint V -> v1_sound f = true -> v1_typed f v = true ->
  v1_field V f v = Done e -> (N.of_nat (length e) < 2 ^ 63)%N ->
  v1_unfield V f (e ++ rest) = Done (v, rest).
Proof.
  intros L S T E Hl. unfold v1_field in E. destruct (v1_as_bytes f v) as [x| |] eqn:Q; try discriminate.
  assert (TK : (N.of_nat (length x) < 2 ^ 63)%N -> v1_take f (length x) (x ++ rest) = Done (v, rest)).
  { intros Hx. unfold v1_take. rewrite app_length. destruct (Nat.leb_spec (length x) (length x + length rest)); [|lia].
    rewrite firstn_app, Nat.sub_diag, firstn_O, app_nil_r, firstn_all.
    rewrite skipn_app, Nat.sub_diag, skipn_O, skipn_all. rewrite (v1_back f v x S T Q Hx). reflexivity. }
  unfold v1_unfield. destruct (v1_len f) as [n|] eqn:K.
  - injection E as <-. rewrite <- (v1_exact f v x n S T Q K). apply TK. exact Hl.
  - destruct (venc V (Z.of_nat (length x))) as [l|] eqn:W; [|discriminate]. injection E as <-.
    rewrite app_length in Hl. destruct L as (_ & D & _). rewrite <- app_assoc.
    rewrite (D (Z.of_nat (length x)) l (x ++ rest)) by (lia || exact W). rewrite Nat2Z.id. apply TK. lia.
Qed.

Lemma v1_fields_encode V : u64_varint V -> forall fs vs e rest, forallb v1_sound fs = true -> all2 _ _ v1_typed fs vs = true ->
  v1_encode V fs vs = Done e -> (N.of_nat (length e) < 2 ^ 63)%N ->
  v1_fields V fs (e ++ rest) = Done (vs, rest).
Proof.
  intros L. induction fs as [|f fs IH]; intros [|v vs] e rest S T E Hl; try discriminate.
  - injection E as <-. reflexivity.
  - cbn [forallb all2 v1_encode v1_fields] in *. apply andb_prop in S, T.
    destruct (v1_field V f v) as [x| |] eqn:Q; try discriminate.
    destruct (v1_encode V fs vs) as [r| |] eqn:R; try discriminate. injection E as <-.
    rewrite app_length in Hl. rewrite <- app_assoc.
    rewrite (v1_unfield_field V f v x (r ++ rest) L) by (tauto || lia).
    rewrite (IH vs r rest) by (tauto || reflexivity || lia). reflexivity.
Qed.

(* order *)
Lemma v1_bytes_order f v1 v2 e1 e2 : v1_typed f v1 = true -> v1_typed f v2 = true ->
  v1_orderable f v1 = true -> v1_orderable f v2 = true ->
  v1_as_bytes f v1 = Done e1 -> v1_as_bytes f v2 = Done e2 -> lex e1 e2 = kcmp v1 v2.
Proof.
  intros T1 T2 O1' O2' E1 E2. destruct f as [t|t]; cbn [v1_typed v1_orderable v1_as_bytes] in *.
  - destruct (ordered t false v1 v2 e1 e2) as [C _]; assumption.
  - destruct v1; try discriminate; destruct v2; try discriminate.
    + injection E1 as <-. injection E2 as <-. reflexivity.
    + destruct (encode t v2) as [[|c r]| |]; try discriminate. injection E1 as <-. injection E2 as <-. reflexivity.
    + destruct (encode t v1) as [[|c r]| |]; try discriminate. injection E1 as <-. injection E2 as <-. reflexivity.
    + destruct (encode t v1) as [[|c r]| |] eqn:Q1; try discriminate.
      destruct (encode t v2) as [[|c' r']| |] eqn:Q2; try discriminate. injection E1 as <-. injection E2 as <-.
      destruct (ordered t false v1 v2 (c :: r) (c' :: r')) as [C _]; try assumption.
Qed.

Lemma prefixfree_strong a : forall b, (forall s, a = b ++ s -> s = []) -> (forall s, b = a ++ s -> s = []) -> strong a b.
Proof.
  induction a as [|c a IH]; intros b Hb Ha.
  - specialize (Ha b eq_refl). subst b. intros x y. reflexivity.
  - destruct b as [|d b]; [specialize (Hb (c :: a) eq_refl); discriminate|].
    destruct (N.compare_spec c d) as [->|X|X].
    + apply strong_cons. apply IH; intros s ->; [apply Hb|apply Ha]; reflexivity.
    + exact (proj1 (strong_head a b c d X)).
    + exact (proj2 (strong_head b a d c X)).
Qed.

Lemma v1_order V : u64_varint V -> forall fs v1 v2 e1 e2, forallb v1_sound fs = true ->
  all2 _ _ v1_typed fs v1 = true -> all2 _ _ v1_typed fs v2 = true ->
  all2 _ _ v1_orderable fs v1 = true -> all2 _ _ v1_orderable fs v2 = true ->
  v1_encode V fs v1 = Done e1 -> v1_encode V fs v2 = Done e2 ->
  (N.of_nat (length e1) < 2 ^ 63)%N -> (N.of_nat (length e2) < 2 ^ 63)%N ->
  lex e1 e2 = v1_cmp fs v1 v2.
Proof.
  intros L. induction fs as [|f fs IH]; intros [|x v1] [|y v2] e1 e2 S T1 T2 P1 P2 E1 E2 H1 H2; try discriminate.
  - injection E1 as <-. injection E2 as <-. reflexivity.
  - cbn [forallb all2 v1_encode v1_cmp] in *. apply andb_prop in S, T1, T2, P1, P2.
    destruct S as [S S'], T1 as [T1 T1'], T2 as [T2 T2'], P1 as [P1 P1'], P2 as [P2 P2'].
    destruct (v1_field V f x) as [a| |] eqn:A; try discriminate. destruct (v1_field V f y) as [b| |] eqn:B; try discriminate.
    destruct (v1_encode V fs v1) as [r1| |] eqn:R1; try discriminate.
    destruct (v1_encode V fs v2) as [r2| |] eqn:R2; try discriminate.
    injection E1 as <-. injection E2 as <-. rewrite app_length in H1, H2.
    assert (K := IH v1 v2 r1 r2 S' T1' T2' P1' P2' R1 R2 ltac:(lia) ltac:(lia)). rewrite <- K.
    unfold v1_field in A, B. unfold v1_size.
    destruct (v1_as_bytes f x) as [p| |] eqn:P; try discriminate. destruct (v1_as_bytes f y) as [q| |] eqn:Q; try discriminate.
    rewrite <- (v1_bytes_order f x y p q T1 T2 P1 P2 P Q).
    destruct (v1_len f) as [n|] eqn:Kn.
    + injection A as <-. injection B as <-. cbn [thenc]. apply strong_len.
      rewrite (v1_exact f x p n), (v1_exact f y q n) by assumption. reflexivity.
    + destruct (venc V (Z.of_nat (length p))) as [l|] eqn:W; [|discriminate].
      destruct (venc V (Z.of_nat (length q))) as [m|] eqn:W'; [|discriminate].
      injection A as <-. injection B as <-. rewrite !app_length in H1, H2.
      assert (Hp : 0 <= Z.of_nat (length p) <= 2 ^ 63) by lia. assert (Hq : 0 <= Z.of_nat (length q) <= 2 ^ 63) by lia.
      assert (ST : strong l m).
      { apply prefixfree_strong; intros s ->.
        - exact (lawful_prefix V _ _ _ _ _ _ m s L Hp Hq W W').
        - exact (lawful_prefix V _ _ _ _ _ _ l s L Hq Hp W' W). }
      rewrite <- !app_assoc. rewrite ST. destruct L as (_ & _ & L & _).
      rewrite (L _ _ l m Hp Hq W W'). rewrite Nat2Z.inj_compare.
      destruct (Nat.compare_spec (length p) (length q)) as [EQ|X|X]; try reflexivity. cbn [thenc].
      apply strong_len. exact EQ.
Qed.

Lemma thenc_eq c d : thenc c d = Eq -> c = Eq /\ d = Eq.
Proof. destruct c; cbn; auto; discriminate. Qed.
