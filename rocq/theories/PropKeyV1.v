(* C75: tuples and options in the encodings kept for old databases. *)
From Verif Require Import Base Utf8 Key KeySpec KeyProofs KeyOrder VarKey VarKeyProofs KeyV1 KeyV1Proofs.
From Coq Require Import ZifyBool ZifyNat ZifyN Lia Arith.
Local Open Scope Z_scope.

Definition ex_v : vint := sample 0 (2 ^ 64 - 1).
Definition ex_fs : list v1ty := [F1 TStr; F1 (TU 4); O1 TBytes].
Definition ex_vs : list kval := [VStr [104; 105]%N; VU 7; VSome (VBytes [0; 9]%N)].

(* every tuple whose optional fields have a variable width comes back *)
Theorem C75_roundtrip : forall V fs vs e, u64_varint V -> forallb v1_sound fs = true -> all2 _ _ v1_typed fs vs = true ->
  v1_encode V fs vs = Done e -> (N.of_nat (length e) < 2 ^ 63)%N -> v1_decode V fs e = Done vs.
Proof.
  intros V fs vs e L S T E Hl. unfold v1_decode.
  assert (R := v1_fields_encode V L fs vs e [] S T E Hl). rewrite app_nil_r in R. rewrite R. reflexivity.
Qed.
(* field by field: what follows a field is handed back untouched *)
Theorem C75_field : forall V f v e rest, u64_varint V -> v1_sound f = true -> v1_typed f v = true ->
  v1_field V f v = Done e -> (N.of_nat (length e) < 2 ^ 63)%N -> v1_unfield V f (e ++ rest) = Done (v, rest).
Proof. intros. apply v1_unfield_field; assumption. Qed.
Example C75_roundtrip_example : u64_varint ex_v /\ forallb v1_sound ex_fs = true /\ all2 _ _ v1_typed ex_fs ex_vs = true /\
  v1_encode ex_v ex_fs ex_vs = Done [1; 2; 104; 105; 0; 0; 0; 7; 1; 2; 0; 9]%N /\
  v1_decode ex_v ex_fs [1; 2; 104; 105; 0; 0; 0; 7; 1; 2; 0; 9]%N = Done ex_vs /\
  v1_decode ex_v ex_fs [1; 2; 104; 105; 0; 0; 0; 7; 0]%N = Done [VStr [104; 105]%N; VU 7; VNone] /\
  v1_decode ex_v ex_fs [1; 2; 104; 105; 0; 0; 0; 7; 0; 1]%N = Fail EInvalidData.
Proof. split; [apply sample_lawful; lia|]. vm_compute. repeat split. Qed.

(* anything after a key is noticed, and so is a field that cannot be decoded *)
Theorem C75_trailing : forall V fs vs e rest, u64_varint V -> forallb v1_sound fs = true -> all2 _ _ v1_typed fs vs = true ->
  v1_encode V fs vs = Done e -> (N.of_nat (length e) < 2 ^ 63)%N -> rest <> [] -> v1_decode V fs (e ++ rest) = Fail EInvalidData.
Proof.
  intros V fs vs e rest L S T E Hl N. unfold v1_decode. rewrite (v1_fields_encode V L fs vs e rest S T E Hl).
  destruct rest; [congruence|reflexivity].
Qed.
Theorem C75_rejected : forall V fs gs vs e t n b err, u64_varint V -> forallb v1_sound fs = true -> all2 _ _ v1_typed fs vs = true ->
  v1_encode V fs vs = Done e -> (N.of_nat (length e) < 2 ^ 63)%N ->
  klen t = Some n -> (n <= length b)%nat -> decode t (firstn n b) = Fail err ->
  v1_decode V (fs ++ F1 t :: gs) (e ++ b) = Fail err.
Proof.
  intros V fs gs vs e t n b err L S T E Hl K Hn D. unfold v1_decode.
  assert (X : forall fs vs e, forallb v1_sound fs = true -> all2 _ _ v1_typed fs vs = true ->
    v1_encode V fs vs = Done e -> (N.of_nat (length e) < 2 ^ 63)%N -> v1_fields V (fs ++ F1 t :: gs) (e ++ b) = Fail err).
  { clear - L K Hn D. induction fs as [|f fs IH]; intros [|v vs] e S T E Hl; try discriminate.
    - injection E as <-. cbn [app v1_fields]. unfold v1_unfield, v1_take. cbn [v1_len v1_of_bytes]. rewrite K.
      destruct (Nat.leb_spec n (length b)); [|lia]. rewrite D. reflexivity.
    - cbn [forallb all2 v1_encode app v1_fields] in *. apply andb_prop in S, T.
      destruct (v1_field V f v) as [x| |] eqn:Q; try discriminate.
      destruct (v1_encode V fs vs) as [r| |] eqn:R; try discriminate. injection E as <-.
      rewrite app_length in Hl. rewrite <- app_assoc. rewrite (v1_unfield_field V f v x (r ++ b) L) by (tauto || lia).
      rewrite (IH vs r) by (tauto || reflexivity || lia). reflexivity. }
  rewrite (X fs vs e S T E Hl). reflexivity.
Qed.
Example C75_rejected_example : decode (TNZU 2) [0; 0]%N = Fail EValueIsZero /\
  v1_decode ex_v [F1 TStr; F1 (TNZU 2)] [1; 2; 104; 105; 0; 0]%N = Fail EValueIsZero.
Proof. vm_compute. auto. Qed.

(* the order of the keys, exactly: field by field, a field of a variable width by its
   encoded length first *)
Theorem C75_order : forall V fs v1 v2 e1 e2, u64_varint V -> forallb v1_sound fs = true ->
  all2 _ _ v1_typed fs v1 = true -> all2 _ _ v1_typed fs v2 = true ->
  all2 _ _ v1_orderable fs v1 = true -> all2 _ _ v1_orderable fs v2 = true ->
  v1_encode V fs v1 = Done e1 -> v1_encode V fs v2 = Done e2 ->
  (N.of_nat (length e1) < 2 ^ 63)%N -> (N.of_nat (length e2) < 2 ^ 63)%N ->
  lex e1 e2 = v1_cmp fs v1 v2.
Proof. intros V fs v1 v2 e1 e2 L. intros. apply (v1_order V L fs v1 v2 e1 e2); assumption. Qed.
(* so that tuples of fixed-width fields, and tuples whose variable-width fields have
   pairwise the same length, sort as Rust's Ord says *)
Theorem C75_order_fixed : forall V fs v1 v2 e1 e2, u64_varint V -> forallb v1_sound fs = true ->
  all2 _ _ v1_typed fs v1 = true -> all2 _ _ v1_typed fs v2 = true ->
  all2 _ _ v1_orderable fs v1 = true -> all2 _ _ v1_orderable fs v2 = true ->
  v1_encode V fs v1 = Done e1 -> v1_encode V fs v2 = Done e2 ->
  (N.of_nat (length e1) < 2 ^ 63)%N -> (N.of_nat (length e2) < 2 ^ 63)%N ->
  Forall2 (fun f p => v1_len f = None -> v1_size f (fst p) = v1_size f (snd p)) fs (combine v1 v2) ->
  lex e1 e2 = list_cmp _ kcmp v1 v2.
Proof.
  intros V fs v1 v2 e1 e2 L S T1 T2 P1 P2 E1 E2 H1 H2 F. rewrite (v1_order V L fs v1 v2 e1 e2) by assumption.
  clear - F T1 T2. revert v1 v2 F T1 T2. induction fs as [|f fs IH]; intros [|x v1] [|y v2] F T1 T2; try discriminate; [reflexivity|].
  cbn [combine] in F. inversion F as [|? ? ? ? F1 F2]; subst. cbn [fst snd] in F1.
  cbn [all2] in T1, T2. apply andb_prop in T1, T2. cbn [v1_cmp list_cmp]. rewrite (IH v1 v2 F2) by tauto.
  destruct (v1_len f); cbn [thenc]; [destruct (kcmp x y); reflexivity|].
  rewrite F1 by reflexivity. rewrite Nat.compare_refl. cbn [thenc]. destruct (kcmp x y); reflexivity.
Qed.
(* but not in general: "b" sorts before "aa", as the type's documentation warns *)
Theorem C75_order_refuted : forall V, u64_varint V -> exists e1 e2,
  v1_encode V [F1 TStr] [VStr [98]%N] = Done e1 /\ v1_encode V [F1 TStr] [VStr [97; 97]%N] = Done e2 /\
  lex e1 e2 = Lt /\ list_cmp _ kcmp [VStr [98]%N] [VStr [97; 97]%N] = Gt.
Proof.
  intros V L.
  destruct (num_roundtrip V _ _ _ _ 1 L ltac:(lia)) as (a & Ea & _).
  destruct (num_roundtrip V _ _ _ _ 2 L ltac:(lia)) as (b & Eb & _).
  assert (E1 : v1_encode V [F1 TStr] [VStr [98]%N] = Done ((a ++ [98]%N) ++ [])).
  { cbn [v1_encode]. unfold v1_field. change (v1_as_bytes (F1 TStr) (VStr [98]%N)) with (@Done bytes kerr [98]%N).
    cbn [v1_len klen]. change (Z.of_nat (length [98]%N)) with 1. rewrite Ea. reflexivity. }
  assert (E2 : v1_encode V [F1 TStr] [VStr [97; 97]%N] = Done ((b ++ [97; 97]%N) ++ [])).
  { cbn [v1_encode]. unfold v1_field. change (v1_as_bytes (F1 TStr) (VStr [97; 97]%N)) with (@Done bytes kerr [97; 97]%N).
    cbn [v1_len klen]. change (Z.of_nat (length [97; 97]%N)) with 2. rewrite Eb. reflexivity. }
  exists ((a ++ [98]%N) ++ []), ((b ++ [97; 97]%N) ++ []).
  split; [exact E1|]. split; [exact E2|]. split; [|reflexivity].
  assert (ST : strong a b).
  { apply prefixfree_strong; intros s ->.
    - exact (lawful_prefix V _ _ _ _ 1 2 b s L ltac:(lia) ltac:(lia) Ea Eb).
    - exact (lawful_prefix V _ _ _ _ 2 1 a s L ltac:(lia) ltac:(lia) Eb Ea). }
  rewrite <- !app_assoc. rewrite ST. destruct L as (_ & _ & L & _). rewrite (L 1 2 a b) by (lia || assumption). reflexivity.
Qed.
Example C75_order_example : v1_cmp [F1 TStr] [VStr [98]%N] [VStr [97; 97]%N] = Lt /\
  v1_cmp [F1 (TU 2); F1 TStr] [VU 3; VStr [98]%N] [VU 3; VStr [97]%N] = Gt.
Proof. vm_compute. auto. Qed.

(* an optional key of its own: None is the empty key and sorts first; every other value
   comes back and sorts as Rust's Ord; a value with an empty key panics instead *)
Theorem C75_option : forall t v e, klen t = None -> exact t = true -> no_sized_option t = true -> v1_typed (O1 t) v = true ->
  v1_as_bytes (O1 t) v = Done e -> (N.of_nat (length e) < 2 ^ 63)%N ->
  v1_of_bytes (O1 t) e = Done v /\ (e = [] <-> v = VNone).
Proof.
  intros t v e K X S T E Hl. split.
  - apply v1_back; try assumption. cbn [v1_sound]. rewrite K, X, S. reflexivity.
  - cbn [v1_as_bytes] in E. destruct v; try discriminate.
    + injection E as <-. tauto.
    + destruct (encode t v) as [[|c r]| |]; try discriminate. injection E as <-. split; discriminate.
Qed.
Theorem C75_option_order : forall t v1 v2 e1 e2, v1_typed (O1 t) v1 = true -> v1_typed (O1 t) v2 = true ->
  v1_orderable (O1 t) v1 = true -> v1_orderable (O1 t) v2 = true ->
  v1_as_bytes (O1 t) v1 = Done e1 -> v1_as_bytes (O1 t) v2 = Done e2 -> lex e1 e2 = kcmp v1 v2.
Proof. intros. apply (v1_bytes_order (O1 t)); assumption. Qed.
Theorem C75_option_panics : forall t v, v1_as_bytes (O1 t) (VSome v) = Panic <-> encode t v = Done [] \/ encode t v = Panic.
Proof.
  intros t v. cbn [v1_as_bytes]. destruct (encode t v) as [[|c r]| |]; split; intros H; auto; try discriminate;
    destruct H; discriminate || auto.
Qed.
Theorem C75_option_empty_refuted : v1_as_bytes (O1 TStr) (VSome (VStr [])) = Panic /\ v1_as_bytes (O1 TUnit) (VSome VUnit) = Panic.
Proof. vm_compute. auto. Qed.
(* an optional field of a fixed width in a tuple: LENGTH ignores that None is empty,
   and the tuple cannot be read back *)
Theorem C75_option_in_tuple_refuted : forall V, 
  v1_encode V [O1 (TU 1); F1 (TU 1)] [VNone; VU 5] = Done [5]%N /\ v1_decode V [O1 (TU 1); F1 (TU 1)] [5]%N = Panic /\
  v1_encode V [O1 (TU 1); F1 (TU 1); O1 (TU 1)] [VNone; VU 5; VSome (VU 6)] = Done [5; 6]%N /\
  v1_encode V [O1 (TU 1); F1 (TU 1); O1 (TU 1)] [VSome (VU 5); VU 6; VNone] = Done [5; 6]%N.
Proof. intros V. vm_compute. auto. Qed.
(* None has no successor (it is its own), and the first value is not the least *)
Theorem C75_option_next_refuted : forall next, v1_next next VNone = Done VNone /\
  (forall first v, v1_first first = Done v -> kcmp VNone v = Lt).
Proof.
  intros next. split; [reflexivity|]. intros first v H. destruct first; try discriminate. injection H as <-. reflexivity.
Qed.
Theorem C75_option_next : forall next v y, v1_next next (VSome v) = Done y ->
  (forall a b, next a = Done b -> kcmp a b = Lt) -> kcmp (VSome v) y = Lt.
Proof.
  intros next v y H K. cbn [v1_next] in H. destruct (next v) as [w| |] eqn:E; try discriminate. injection H as <-.
  cbn [kcmp]. apply K. exact E.
Qed.

(* reading what was cut short panics, for every tuple with a fixed-width first field
   and for every length that promises more than there is *)
Theorem C75_truncated_refuted : forall V t ts n b, u64_varint V ->
  (klen t = Some n -> (length b < n)%nat -> v1_decode V (F1 t :: ts) b = Panic) /\
  (klen t = None -> forall k l, 0 <= k <= 2 ^ 63 -> venc V k = Some l -> Z.of_nat (length b) < k ->
     v1_decode V (F1 t :: ts) (l ++ b) = Panic).
Proof.
  intros V t ts n b L. unfold v1_decode. cbn [v1_fields v1_unfield v1_len]. unfold v1_unfield, v1_take. cbn [v1_len]. split.
  - intros -> H. destruct (Nat.leb_spec n (length b)); [lia|reflexivity].
  - intros -> k l Hk E H. destruct L as (_ & D & _). rewrite (D k l b Hk E).
    destruct (Nat.leb_spec (Z.to_nat k) (length b)); [lia|reflexivity].
Qed.
Example C75_truncated_example : v1_decode ex_v [F1 TStr] [1; 9; 104]%N = Panic /\ v1_decode ex_v [F1 (TU 4)] [0]%N = Panic.
Proof. vm_compute. auto. Qed.

Print Assumptions C75_roundtrip.
Print Assumptions C75_field.
Print Assumptions C75_order.
Print Assumptions C75_order_fixed.
Print Assumptions C75_order_refuted.
Print Assumptions C75_option.
Print Assumptions C75_option_order.
Print Assumptions C75_option_panics.
Print Assumptions C75_option_empty_refuted.
Print Assumptions C75_option_in_tuple_refuted.
Print Assumptions C75_option_next_refuted.
Print Assumptions C75_option_next.
Print Assumptions C75_truncated_refuted.
Print Assumptions C75_trailing.
Print Assumptions C75_rejected.
