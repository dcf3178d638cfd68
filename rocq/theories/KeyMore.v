(* Further facts: failure conditions, absence of panics, signed order, next values. *)
From Verif Require Import Base Utf8 Key KeySpec KeyProofs KeyOrder.
From Coq Require Import ZifyBool ZifyNat ZifyN.
Local Open Scope N_scope.

(* ---------- signed integers: the exact order of the encoding ---------- *)
Lemma signed_lex w z1 z2 :
  (1 <= w)%nat ->
  (- (2 ^ (8 * Z.of_nat w - 1)) <= z1 < 2 ^ (8 * Z.of_nat w - 1))%Z ->
  (- (2 ^ (8 * Z.of_nat w - 1)) <= z2 < 2 ^ (8 * Z.of_nat w - 1))%Z ->
  lex (be w (to_unsigned w z1)) (be w (to_unsigned w z2)) =
  match (z1 <? 0)%Z, (z2 <? 0)%Z with
  | false, true => Lt
  | true, false => Gt
  | _, _ => Z.compare z1 z2
  end.
Proof.
  intros Hw H1 H2. rewrite be_lex by apply to_unsigned_bound.
  assert (U := umod_pow w Hw). assert (P := half_pos w Hw).
  destruct (Z.ltb_spec z1 0) as [L1|L1]; destruct (Z.ltb_spec z2 0) as [L2|L2];
    rewrite ?(to_unsigned_neg w z1), ?(to_unsigned_nonneg w z1),
            ?(to_unsigned_neg w z2), ?(to_unsigned_nonneg w z2) by lia;
    match goal with |- (?a ?= ?b) = _ => destruct (N.compare_spec a b) end;
    try (destruct (Z.compare_spec z1 z2)); try reflexivity; exfalso; lia.
Qed.

(* ---------- integers reject other lengths and accept all of theirs ---------- *)
Lemma unsigned_decode_length w b v : decode (TU w) b = Done v -> length b = w.
Proof. cbn [decode]. unfold from_be. destruct (Nat.eqb_spec (length b) w); [auto|discriminate]. Qed.

Lemma unsigned_decode_total w b : bytes_ok b -> length b = w ->
  exists n, decode (TU w) b = Done (VU n) /\ typed (TU w) (VU n) = true /\ encode (TU w) (VU n) = Done b.
Proof.
  intros Hb <-. exists (of_be b). cbn [decode typed encode]. unfold from_be. rewrite Nat.eqb_refl.
  split; [reflexivity|]. split; [apply N.ltb_lt; apply of_be_bound; assumption|].
  rewrite be_of_be by assumption. reflexivity.
Qed.

(* ---------- encoding fails exactly when documented ---------- *)
Definition field_ok (h : nulls) (t : kty) (e : bytes) : Prop :=
  klen t = None -> stored_len h e <= 65535 /\ (h = DenyNulls -> ~ In 0 e).

Lemma handle_nulls_len h e e' : handle_nulls h e = Done e' -> N.of_nat (length e') = stored_len h e.
Proof.
  destruct h; cbn [handle_nulls stored_len].
  - intros [= <-]. rewrite esc_length. lia.
  - intros [= <-]. reflexivity.
  - destruct (existsb _ e); [discriminate|]. intros [= <-]. reflexivity.
Qed.

Lemma handle_nulls_cases h e :
  (exists e', handle_nulls h e = Done e' /\ (h = DenyNulls -> ~ In 0 e)) \/
  (handle_nulls h e = Fail ENullByte /\ h = DenyNulls /\ In 0 e).
Proof.
  destruct h; cbn [handle_nulls].
  - left. eexists. split; [reflexivity|discriminate].
  - left. eexists. split; [reflexivity|discriminate].
  - destruct (existsb (fun b => b =? 0) e) eqn:E.
    + right. apply existsb_exists in E. destruct E as (x & Hx & E). apply N.eqb_eq in E. subst x. auto.
    + left. eexists. split; [reflexivity|]. intros _ Hin.
      assert (existsb (fun b => b =? 0) e = true) by (apply existsb_exists; exists 0; auto). congruence.
Qed.

Lemma enc_fields_ok_iff h ts : forall vs es st,
  Forall2 (fun tv e => encode (fst tv) (snd tv) = Done e) (combine ts vs) es ->
  length ts = length vs ->
  ((exists st', enc_fields encode h ts vs st = Done st') <-> Forall2 (field_ok h) ts es) /\
  enc_fields encode h ts vs st <> Panic.
Proof.
  induction ts as [|t ts IH]; intros [|v vs] es st H Hlen; try discriminate.
  - inversion H; subst. cbn [enc_fields]. split; [|discriminate]. split; intros; [constructor|eauto].
  - cbn [combine] in H. inversion H as [|? e ? es' He Hes]; subst. cbn [fst snd] in He.
    injection Hlen as Hlen. cbn [enc_fields]. rewrite He. unfold push_field.
    destruct (klen t) as [n|] eqn:Ek.
    + destruct (IH vs es' (fst st ++ e, snd st) Hes Hlen) as [I1 I2]. split; [|exact I2]. rewrite I1. split.
      * intros HF. constructor; [intros K; congruence|exact HF].
      * intros HF. inversion HF; assumption.
    + destruct (handle_nulls_cases h e) as [(e' & Eh & Hn)|(Eh & Hd & Hin)]; rewrite Eh.
      * assert (L := handle_nulls_len h e e' Eh).
        destruct (N.leb_spec (N.of_nat (length e')) 65535) as [Hl|Hl].
        -- destruct (IH vs es' (fst st ++ e' ++ [0], snd st ++ [N.of_nat (length e')]) Hes Hlen) as [I1 I2].
           split; [|exact I2]. rewrite I1. split.
           ++ intros HF. constructor; [intros _; split; [lia|exact Hn]|exact HF].
           ++ intros HF. inversion HF; assumption.
        -- split; [|discriminate]. split; [intros [st' X]; discriminate|].
           intros HF. inversion HF as [|? ? ? ? H1 ?]; subst. specialize (H1 Ek). lia.
      * split; [|discriminate]. split; [intros [st' X]; discriminate|].
        intros HF. inversion HF as [|? ? ? ? H1 ?]; subst. specialize (H1 Ek). tauto.
Qed.

Lemma struct_encode_iff h ts vs es :
  Forall2 (fun tv e => encode (fst tv) (snd tv) = Done e) (combine ts vs) es ->
  length ts = length vs ->
  ((exists e, encode (TStruct h ts) (VTup vs) = Done e) <-> Forall2 (field_ok h) ts es) /\
  encode (TStruct h ts) (VTup vs) <> Panic.
Proof.
  intros H Hl. destruct (enc_fields_ok_iff h ts vs es ([], []) H Hl) as [I1 I2].
  cbn [encode]. rewrite <- I1. destruct (enc_fields encode h ts vs ([], [])) as [st| |]; cbn [finish_outcome].
  - split; [|discriminate]. split; intros; eauto.
  - split; [|discriminate]. split; intros [? X]; discriminate.
  - contradiction.
Qed.

Lemma tuple_struct ts vs : encode (TTup ts) (VTup vs) = encode (TStruct EscapeNulls ts) (VTup vs).
Proof. reflexivity. Qed.

(* a field that does not encode makes the composite fail *)
Lemma enc_fields_field_fails h ts : forall vs st st', enc_fields encode h ts vs st = Done st' ->
  Forall (fun tv => exists e, encode (fst tv) (snd tv) = Done e) (combine ts vs).
Proof.
  induction ts as [|t ts IH]; intros [|v vs] st st' H; cbn [enc_fields] in H; try discriminate; [constructor|].
  destruct (encode t v) as [e| |] eqn:E; try discriminate.
  destruct (push_field h (klen t) e st) as [st1| |]; try discriminate.
  cbn [combine]. constructor; [exists e; exact E|]. eapply IH. exact H.
Qed.

Lemma struct_field_fails h ts vs e : encode (TStruct h ts) (VTup vs) = Done e ->
  Forall (fun tv => exists e, encode (fst tv) (snd tv) = Done e) (combine ts vs).
Proof.
  cbn [encode]. destruct (enc_fields encode h ts vs ([], [])) as [st| |] eqn:E; try discriminate.
  intros _. eapply enc_fields_field_fails. exact E.
Qed.

(* encoding never panics *)
Lemma encode_no_panic t : forall v, encode t v <> Panic.
Proof.
  assert (HF : forall h ts, Forall (fun t => forall v, encode t v <> Panic) ts ->
                forall vs st, enc_fields encode h ts vs st <> Panic).
  { intros h ts. induction 1 as [|u ts H1 _ IH]; intros [|v vs] st; cbn [enc_fields]; try discriminate.
    specialize (H1 v). destruct (encode u v) as [e| |]; [|discriminate|contradiction].
    unfold push_field. destruct (klen u).
    - apply IH.
    - destruct (handle_nulls_cases h e) as [(e' & -> & _)|(-> & _)]; [|discriminate].
      destruct (_ <=? _); [apply IH|discriminate]. }
  assert (HC : forall o, o <> Panic -> finish_outcome o <> Panic).
  { intros [st| |] H; cbn [finish_outcome]; try discriminate. contradiction. }
  induction t using kty_ind'; intros v; destruct v; cbn [encode]; try discriminate.
  - specialize (IHt v). destruct (encode t v); [discriminate|discriminate|contradiction].
  - specialize (IHt1 v). destruct (encode t1 v); [discriminate|discriminate|contradiction].
  - specialize (IHt2 v). destruct (encode t2 v); [discriminate|discriminate|contradiction].
  - apply HC, HF. assumption.
  - apply HC, HF. assumption.
  - destruct (all_unit vs); [discriminate|]. rewrite on_variant_find.
    destruct (find_variant d vs) as [ts|] eqn:E; [|discriminate]. apply HC, HF.
    exact (find_variant_Forall _ _ _ _ H E).
Qed.

(* ---------- decoding without panics ---------- *)
(* all composite fields have fixed lengths that fit an allocation *)
Definition small_len (t : kty) : bool :=
  match klen t with Some n => N.of_nat n <? 2 ^ 63 | None => false end.
Fixpoint all_fixed (t : kty) : bool :=
  match t with
  | TOpt t => all_fixed t
  | TRes t e => all_fixed t && all_fixed e
  | TTup ts | TStruct _ ts => forallb (fun t => small_len t && all_fixed t) ts
  | TEnum _ w vars => (N.of_nat w <? 2 ^ 63) &&
      forallb (fun p => forallb (fun t => small_len t && all_fixed t) (snd p)) vars
  | _ => true
  end.

Lemma dec_field_no_panic d h n all off en :
  (forall b, (length b <= length all)%nat -> d b <> Panic) ->
  N.of_nat n < 2 ^ 63 -> N.of_nat (length all) < 2 ^ 63 -> (off <= en <= length all)%nat ->
  match dec_field d h (Some n) all (off, en) with
  | Panic => False
  | Done (_, (off', en')) => (off' <= en' <= length all)%nat
  | Fail _ => True
  end.
Proof.
  intros Hd Hn Hall Ho. unfold dec_field.
  destruct (N.leb_spec (2 ^ 64) (N.of_nat off + N.of_nat n)) as [B|B]; [lia|].
  destruct (N.leb_spec (N.of_nat off + N.of_nat n) (N.of_nat en)) as [B2|B2]; [|exact I].
  unfold slice. replace ((off <=? N.to_nat (N.of_nat off + N.of_nat n))%nat &&
     (N.to_nat (N.of_nat off + N.of_nat n) <=? length all)%nat) with true by lia.
  match goal with |- context [d ?s] => specialize (Hd s) end.
  match type of Hd with (?P -> _) => assert (HP : P) end.
  { rewrite firstn_length, skipn_length. lia. }
  specialize (Hd HP). destruct (d _); [lia|exact I|contradiction].
Qed.

Lemma dec_fields_no_panic h all ts :
  Forall (fun t => forall b, N.of_nat (length b) < 2 ^ 63 -> decode t b <> Panic) ts ->
  forallb small_len ts = true -> N.of_nat (length all) < 2 ^ 63 ->
  forall off en, (off <= en <= length all)%nat -> dec_fields decode h all ts (off, en) <> Panic.
Proof.
  intros HF Hs Hall. induction HF as [|t ts H1 _ IH]; intros off en Ho; cbn [dec_fields]; [discriminate|].
  cbn [forallb] in Hs. apply andb_prop in Hs. destruct Hs as [Hs1 Hs2].
  unfold small_len in Hs1. destruct (klen t) as [n|]; [|discriminate].
  assert (D := dec_field_no_panic (decode t) h n all off en). 
  specialize (D ltac:(intros b Hb; apply H1; lia) ltac:(lia) Hall Ho).
  destruct (dec_field (decode t) h (Some n) all (off, en)) as [[v [off' en']]| |]; [|discriminate|contradiction].
  specialize (IH Hs2 off' en' D).
  destruct (dec_fields decode h all ts (off', en')) as [[vs st]| |]; [discriminate|discriminate|contradiction].
Qed.

Lemma decode_no_panic t : all_fixed t = true ->
  forall b, N.of_nat (length b) < 2 ^ 63 -> decode t b <> Panic.
Proof.
  assert (HC : forall r mk, r <> Panic -> dec_composite r mk <> Panic).
  { intros [[vs st]| |] mk H; cbn [dec_composite]; try discriminate; [destruct (finish_dec st); discriminate|contradiction]. }
  assert (HB : forall w b k, (forall n, k n <> Panic) -> from_be w b k <> Panic).
  { intros w b k Hk. unfold from_be. destruct (length b =? w)%nat; [apply Hk|discriminate]. }
  induction t using kty_ind'; intros Hf b Hb; cbn [decode].
  - apply HB. discriminate.
  - apply HB. discriminate.
  - apply HB. intros n. destruct (n =? 0); discriminate.
  - apply HB. intros n. destruct (n =? 0); discriminate.
  - discriminate.
  - discriminate.
  - destruct (length b =? n)%nat; discriminate.
  - discriminate.
  - destruct (utf8_decode b); discriminate.
  - destruct b as [|x r]; [discriminate|]. destruct (x =? 0); [discriminate|].
    cbn [length] in Hb. specialize (IHt Hf r ltac:(lia)).
    destruct (decode t r); [discriminate|discriminate|contradiction].
  - cbn [all_fixed] in Hf. apply andb_prop in Hf. destruct Hf as [F1 F2].
    destruct b as [|x r].
    + specialize (IHt2 F2 [] Hb). destruct (decode t2 []); [discriminate|discriminate|contradiction].
    + cbn [length] in Hb. specialize (IHt1 F1 r ltac:(lia)). specialize (IHt2 F2 r ltac:(lia)).
      destruct (x =? 0); [destruct (decode t1 r)|destruct (decode t2 r)]; [discriminate|discriminate|contradiction|discriminate|discriminate|contradiction].
  - cbn [all_fixed] in Hf. apply forallb_and in Hf. destruct Hf as [F1 F2].
    apply HC, dec_fields_no_panic; auto; try lia. rewrite Forall_forall in *. rewrite forallb_forall in F2. auto.
  - cbn [all_fixed] in Hf. apply forallb_and in Hf. destruct Hf as [F1 F2].
    apply HC, dec_fields_no_panic; auto; try lia. rewrite Forall_forall in *. rewrite forallb_forall in F2. auto.
  - cbn [all_fixed] in Hf. apply andb_prop in Hf. destruct Hf as [Fw Hf].
    destruct (all_unit vs).
    + apply HB. intros n. rewrite on_variant_find. destruct (find_variant n vs); discriminate.
    + assert (D := dec_field_no_panic (fun s => from_be w s (fun n => Done (VU n))) h w b 0%nat (length b)).
      specialize (D ltac:(intros s _; apply HB; discriminate) ltac:(lia) Hb ltac:(lia)).
      destruct (dec_field _ h (Some w) b (0%nat, length b)) as [[v [off' en']]| |]; [|discriminate|contradiction].
      destruct v; try discriminate. rewrite on_variant_find.
      destruct (find_variant n vs) as [ts|] eqn:E; [|discriminate].
      assert (HF := find_variant_Forall _ _ _ _ H E).
      assert (Hts : forallb (fun t => small_len t && all_fixed t) ts = true).
      { clear -E Hf. induction vs as [|[d' ts'] vs IH]; [discriminate|]. cbn [find_variant forallb snd] in *.
        apply andb_prop in Hf. destruct Hf. destruct (n =? d'); [injection E as <-; assumption|auto]. }
      apply forallb_and in Hts. destruct Hts as [F1 F2].
      apply HC, dec_fields_no_panic; auto; try lia. rewrite Forall_forall in *. rewrite forallb_forall in F2. auto.
Qed.

(* ---------- first / next values ---------- *)
Lemma next_unsigned w n v : typed (TU w) (VU n) = true -> next_value (TU w) (VU n) = Some v ->
  v = VU (n + 1) /\ typed (TU w) v = true.
Proof.
  cbn [next_value typed]. unfold umod. destruct (N.ltb_spec (n + 1) (256 ^ N.of_nat w)); [|discriminate].
  intros _ [= <-]. split; [reflexivity|]. cbn [typed]. lia.
Qed.

Lemma next_unsigned_none w n : typed (TU w) (VU n) = true ->
  (next_value (TU w) (VU n) = None <-> n + 1 = 256 ^ N.of_nat w).
Proof.
  cbn [next_value typed]. unfold umod. intros H. apply N.ltb_lt in H.
  destruct (N.ltb_spec (n + 1) (256 ^ N.of_nat w)); split; intros X; try discriminate; try reflexivity; lia.
Qed.

(* ---------- corollaries in the form used by the property files ---------- *)
Lemma unsigned_sorted_roundtrip w a b :
  a < 256 ^ N.of_nat w -> b < 256 ^ N.of_nat w ->
  exists ea eb, encode (TU w) (VU a) = Done ea /\ encode (TU w) (VU b) = Done eb /\
    bytes_ok ea /\ length ea = w /\ lex ea eb = N.compare a b /\ decode (TU w) ea = Done (VU a).
Proof.
  intros Ha Hb. exists (be w a), (be w b). cbn [encode]. repeat split.
  - apply be_bytes. assumption.
  - apply be_length.
  - apply be_lex; assumption.
  - cbn [decode]. apply from_be_be. assumption.
Qed.

Lemma unsigned_rejects w b : length b <> w -> decode (TU w) b = Fail EIncorrectLength.
Proof. intros H. cbn [decode]. unfold from_be. apply Nat.eqb_neq in H. rewrite H. reflexivity. Qed.

Lemma signed_roundtrip_order w a b :
  (1 <= w)%nat ->
  (- (2 ^ (8 * Z.of_nat w - 1)) <= a < 2 ^ (8 * Z.of_nat w - 1))%Z ->
  (- (2 ^ (8 * Z.of_nat w - 1)) <= b < 2 ^ (8 * Z.of_nat w - 1))%Z ->
  exists ea eb, encode (TI w) (VI a) = Done ea /\ encode (TI w) (VI b) = Done eb /\
    decode (TI w) ea = Done (VI a) /\
    lex ea eb = (if Bool.eqb (a <? 0) (b <? 0) then a ?= b else if a <? 0 then Gt else Lt)%Z.
Proof.
  intros Hw Ha Hb. exists (be w (to_unsigned w a)), (be w (to_unsigned w b)). cbn [encode].
  split; [reflexivity|]. split; [reflexivity|]. split.
  - cbn [decode]. rewrite from_be_be by apply to_unsigned_bound. rewrite to_signed_to_unsigned by assumption. reflexivity.
  - rewrite signed_lex by assumption. destruct (a <? 0)%Z, (b <? 0)%Z; reflexivity.
Qed.

Lemma nonzero_rejects_zero w : 
  decode (TNZU w) (be w 0) = Fail EValueIsZero /\ decode (TNZI w) (be w 0) = Fail EValueIsZero.
Proof.
  assert (0 < 256 ^ N.of_nat w) by apply pow256_pos.
  cbn [decode]. rewrite !from_be_be by assumption. split; reflexivity.
Qed.

Lemma encode_injective t v1 v2 e :
  no_sized_option t = true -> typed t v1 = true -> typed t v2 = true -> N.of_nat (length e) < 2 ^ 63 ->
  encode t v1 = Done e -> encode t v2 = Done e -> v1 = v2.
Proof.
  intros Hn T1 T2 Hl E1 E2. assert (R1 := roundtrip t v1 e Hn T1 E1 Hl).
  rewrite (roundtrip t v2 e Hn T2 E2 Hl) in R1. congruence.
Qed.

(* simple (non-composite) types always encode and round-trip *)
Fixpoint simple (t : kty) : bool :=
  match t with
  | TOpt t => simple t
  | TRes t e => simple t && simple e
  | TTup _ | TStruct _ _ | TEnum _ _ _ => false
  | _ => true
  end.

Lemma simple_no_sized t : simple t = true -> no_sized_option t = true.
Proof.
  induction t; cbn [simple no_sized_option]; try reflexivity; try discriminate; auto.
  intros H. apply andb_prop in H. destruct H. rewrite IHt1, IHt2 by assumption. reflexivity.
Qed.

Lemma simple_encodes t : forall v, simple t = true -> typed t v = true -> exists e, encode t v = Done e.
Proof.
  induction t using kty_ind'; intros v Hs Ht; destruct v; try discriminate; cbn [encode]; eauto.
  - destruct (IHt v Hs Ht) as [e ->]. eauto.
  - cbn [simple] in Hs. apply andb_prop in Hs. destruct Hs as [S1 S2]. destruct (IHt1 v S1 Ht) as [e ->]. eauto.
  - cbn [simple] in Hs. apply andb_prop in Hs. destruct Hs as [S1 S2]. destruct (IHt2 v S2 Ht) as [e ->]. eauto.
Qed.

Lemma simple_sorted_roundtrip t v1 v2 :
  simple t = true -> typed t v1 = true -> typed t v2 = true ->
  orderable false t v1 = true -> orderable false t v2 = true ->
  exists e1 e2, encode t v1 = Done e1 /\ encode t v2 = Done e2 /\ lex e1 e2 = kcmp v1 v2 /\
    (N.of_nat (length e1) < 2 ^ 63 -> decode t e1 = Done v1).
Proof.
  intros Hs T1 T2 O1 O2. destruct (simple_encodes t v1 Hs T1) as [e1 E1].
  destruct (simple_encodes t v2 Hs T2) as [e2 E2]. exists e1, e2. repeat split; auto.
  - eapply key_order; eauto.
  - intros Hl. apply roundtrip; auto. apply simple_no_sized. assumption.
Qed.
