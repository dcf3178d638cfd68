(* Decoding accepts nothing but encodings: types whose decoders leave no byte
   unread and unchecked. *)
From Verif Require Import Base Utf8 Key KeySpec KeyProofs KeyMore.
From Coq Require Import ZifyBool.
Local Open Scope N_scope.

(* Types for which every accepted byte string is the encoding of the value it
   decodes to: integers, arrays, byte strings, strings, and composites whose
   fields all have a fixed length. bool (any non-zero byte is true), (), Option and
   Result (None and bytes after it) are not among them, and variable-length fields
   (the byte after the field is not looked at, lengths can be padded) neither. *)
Fixpoint strict (t : kty) : bool :=
  match t with
  | TU _ | TNZU _ | TArr _ | TBytes | TStr => true
  | TI w | TNZI w => (1 <=? w)%nat
  | TTup ts | TStruct _ ts => forallb (fun t => match klen t with Some _ => strict t | None => false end) ts
  | TEnum _ _ vars => forallb (fun p => forallb (fun t => match klen t with Some _ => strict t | None => false end) (snd p)) vars
  | _ => false
  end.

Lemma to_unsigned_to_signed w n : (1 <= w)%nat -> n < 256 ^ N.of_nat w ->
  to_unsigned w (to_signed w n) = n /\
  (- (2 ^ (8 * Z.of_nat w - 1)) <= to_signed w n < 2 ^ (8 * Z.of_nat w - 1))%Z /\ (n <> 0 -> to_signed w n <> 0%Z).
Proof.
  intros W B. pose proof (umod_pow w W) as U. pose proof (half_pos w W) as H. unfold to_signed, to_unsigned.
  assert (Hu : umod w / 2 = Z.to_N (2 ^ (8 * Z.of_nat w - 1))).
  { apply N2Z.inj. rewrite N2Z.inj_div, U, Z2N.id by lia. change (Z.of_N 2) with 2%Z. rewrite Z.mul_comm, Z.div_mul by lia. reflexivity. }
  fold (umod w) in B. rewrite Hu. destruct (N.ltb_spec n (Z.to_N (2 ^ (8 * Z.of_nat w - 1)))).
  - rewrite Z.mod_small by lia. split; [apply N2Z.id|]. split; lia.
  - replace ((Z.of_N n - Z.of_N (umod w)) mod Z.of_N (umod w))%Z with (Z.of_N n).
    + split; [apply N2Z.id|]. split; lia.
    + rewrite Zminus_mod, Z_mod_same_full, Z.sub_0_r, Zmod_mod. symmetry. apply Z.mod_small. lia.
Qed.

Lemma slice_some l a b s : slice l a b = Some s -> (a <= b <= length l)%nat /\ s = firstn (b - a) (skipn a l).
Proof.
  unfold slice. destruct (Nat.leb_spec a b), (Nat.leb_spec b (length l)); cbn [andb]; try discriminate. intros H1. injection H1 as <-. split; [lia|reflexivity].
Qed.
Lemma bytes_ok_firstn n l : bytes_ok l -> bytes_ok (firstn n l).
Proof. unfold bytes_ok. rewrite !Forall_forall. intros H x I. apply H. rewrite <- (firstn_skipn n l). apply in_or_app. left. exact I. Qed.
Lemma bytes_ok_skipn n l : bytes_ok l -> bytes_ok (skipn n l).
Proof. unfold bytes_ok. rewrite !Forall_forall. intros H x I. apply H. rewrite <- (firstn_skipn n l). apply in_or_app. right. exact I. Qed.

Lemma dec_field_fixed d h n all off en v off' en' : dec_field d h (Some n) all (off, en) = Done (v, (off', en')) ->
  en' = en /\ off' = (off + n)%nat /\ (off' <= en)%nat /\ (off' <= length all)%nat /\ d (firstn n (skipn off all)) = Done v.
Proof.
  unfold dec_field. destruct (2 ^ 64 <=? N.of_nat off + N.of_nat n); [discriminate|].
  destruct (N.leb_spec (N.of_nat off + N.of_nat n) (N.of_nat en)) as [L|]; [|discriminate].
  destruct (slice all off _) as [s|] eqn:S; [|discriminate]. apply slice_some in S. destruct S as [S1 ->].
  replace (N.to_nat (N.of_nat off + N.of_nat n)) with (off + n)%nat in * by lia. replace (off + n - off)%nat with n by lia.
  destruct (d _) as [x| |]; try discriminate. intros H. injection H as <- <- <-. repeat split; try lia.
Qed.
Lemma firstn_add {A} n m (l : list A) : firstn (n + m) l = firstn n l ++ firstn m (skipn n l).
Proof. revert l. induction n as [|n IH]; intros [|x l]; cbn [Nat.add firstn skipn app]; try reflexivity; [rewrite firstn_nil; reflexivity|]. rewrite IH. reflexivity. Qed.
Lemma skipn_add {A} n m (l : list A) : skipn m (skipn n l) = skipn (n + m) l.
Proof. revert l. induction n as [|n IH]; intros [|x l]; cbn [Nat.add skipn]; try reflexivity; [apply skipn_nil|apply IH]. Qed.

Definition accepts_only_encodings (t : kty) : Prop := forall b v, bytes_ok b -> decode t b = Done v -> typed t v = true /\ encode t v = Done b.

Lemma dec_fields_exact h all ts : bytes_ok all ->
  Forall (fun t => strict t = true -> accepts_only_encodings t) ts ->
  forallb (fun t => match klen t with Some _ => strict t | None => false end) ts = true ->
  forall off en vs off' en', dec_fields decode h all ts (off, en) = Done (vs, (off', en')) -> (off <= length all)%nat ->
  en' = en /\ (off <= off')%nat /\ (off' <= length all)%nat /\ all2 _ _ typed ts vs = true /\
  forall st, enc_fields encode h ts vs st = Done (fst st ++ firstn (off' - off) (skipn off all), snd st).
Proof.
  intros OK. induction ts as [|t ts IH]; intros F S off en vs off' en' H B.
  - cbn [dec_fields] in H. injection H as <- <- <-. rewrite Nat.sub_diag. cbn [firstn]. repeat split; try lia. intros [a l]. cbn. rewrite app_nil_r. reflexivity.
  - inversion_clear F as [|? ? F1 F2]. cbn [forallb] in S. apply andb_true_iff in S. destruct S as [S1 S2]. cbn [dec_fields] in H.
    destruct (klen t) as [n|] eqn:K; [|discriminate]. destruct (dec_field _ _ _ _ _) as [[v [o1 e1]]| |] eqn:D; try discriminate.
    apply dec_field_fixed in D. destruct D as (-> & -> & L1 & L2 & D).
    destruct (dec_fields decode h all ts _) as [[vs1 [o2 e2]]| |] eqn:D2; try discriminate. injection H as <- <- <-.
    destruct (IH F2 S2 _ _ _ _ _ D2 L2) as (-> & B1 & B2 & T & EN).
    destruct (F1 S1 _ _ (bytes_ok_firstn n _ (bytes_ok_skipn off _ OK)) D) as [T1 E1].
    repeat split; try lia.
    + cbn [all2]. rewrite T1. exact T.
    + intros st. cbn [enc_fields]. rewrite E1, K. cbn [push_field]. rewrite EN. cbn [fst snd]. do 2 f_equal.
      rewrite <- app_assoc. f_equal. replace (o2 - off)%nat with (n + (o2 - (off + n)))%nat by lia. rewrite firstn_add, skipn_add. reflexivity.
Qed.
Lemma composite_exact h all ts (mk : list kval -> kval) v off pre : bytes_ok all -> (off <= length all)%nat -> pre = firstn off all ->
  Forall (fun t => strict t = true -> accepts_only_encodings t) ts ->
  forallb (fun t => match klen t with Some _ => strict t | None => false end) ts = true ->
  dec_composite (dec_fields decode h all ts (off, length all)) mk = Done v ->
  exists vs, v = mk vs /\ all2 _ _ typed ts vs = true /\ finish_outcome (enc_fields encode h ts vs (pre, [])) = Done all.
Proof.
  intros OK B -> F S H. unfold dec_composite in H. destruct (dec_fields _ _ _ _ _) as [[vs [o e]]| |] eqn:D; try discriminate.
  destruct (dec_fields_exact h all ts OK F S _ _ _ _ _ D B) as (-> & B1 & B2 & T & EN). unfold finish_dec in H. cbn [fst snd] in H.
  destruct (Nat.eqb_spec o (length all)) as [Q|Q]; [|discriminate H]. injection H as <-. exists vs. split; [reflexivity|]. split; [exact T|].
  rewrite EN, Q. unfold finish_outcome, finish_enc. cbn [fst snd rev flat_map]. rewrite app_nil_r. f_equal.
  rewrite (firstn_all2 (n := length all - off)) by (rewrite skipn_length; lia). apply firstn_skipn.
Qed.
Lemma on_variant_In {A} (f : list kty -> A) d vars dflt : (on_variant _ f d vars dflt = dflt /\ forall B (g : list kty -> B) e, on_variant _ g d vars e = e) \/
  exists ts, In (d, ts) vars /\ (forall B (g : list kty -> B) e, on_variant _ g d vars e = g ts).
Proof.
  induction vars as [|[d' ts] r IH]; [left; split; reflexivity|]. cbn [on_variant]. destruct (N.eqb_spec d d') as [->|NE].
  - right. exists ts. split; [left; reflexivity|]. intros B g e. cbn [on_variant]. destruct (N.eqb_spec d' d'); [reflexivity|congruence].
  - destruct IH as [[E G]|(ts0 & I & E)].
    + left. split; [exact E|]. intros B g e. cbn [on_variant]. replace (d =? d') with false by lia. apply G.
    + right. exists ts0. split; [right; exact I|]. intros. cbn [on_variant]. replace (d =? d') with false by lia. apply E.
Qed.

Lemma strict_exact t : strict t = true -> accepts_only_encodings t.
Proof.
  induction t using kty_ind'; try match goal with F : Forall _ _ |- _ => rename F into X end; intros S b v OK H; cbn [decode] in H; try discriminate S.
  all: try (unfold from_be in H; destruct (Nat.eqb_spec (length b) w) as [L|]; [|discriminate]).
  - injection H as <-. cbn [typed encode]. subst w. split; [apply N.ltb_lt, of_be_bound, OK|rewrite be_of_be by exact OK; reflexivity].
  - injection H as <-. cbn [strict] in S. pose proof (of_be_bound b OK) as B. rewrite L in B.
    destruct (to_unsigned_to_signed w (of_be b) ltac:(lia) B) as (U & R & _). cbn [typed encode]. rewrite U. split; [lia|].
    rewrite <- L, be_of_be by exact OK. reflexivity.
  - destruct (N.eqb_spec (of_be b) 0) as [|NZ]; [discriminate|]. injection H as <-. cbn [typed encode]. subst w.
    split; [|rewrite be_of_be by exact OK; reflexivity]. pose proof (of_be_bound b OK). lia.
  - destruct (N.eqb_spec (of_be b) 0) as [|NZ]; [discriminate|]. injection H as <-. cbn [strict] in S. pose proof (of_be_bound b OK) as B. rewrite L in B.
    destruct (to_unsigned_to_signed w (of_be b) ltac:(lia) B) as (U & R & Z). specialize (Z NZ). cbn [typed encode]. rewrite U. split; [lia|].
    rewrite <- L, be_of_be by exact OK. reflexivity.
  - destruct (Nat.eqb_spec (length b) n) as [L|]; [|discriminate]. injection H as <-. cbn [typed encode]. split; [lia|reflexivity].
  - injection H as <-. split; reflexivity.
  - destruct (utf8_decode b) as [s|] eqn:U; [|discriminate]. injection H as <-. cbn [typed encode].
    destruct (utf8_decode_sound b s OK U) as [O ->]. split; [apply str_okb_spec, O|reflexivity].
  - cbn [strict] in S. destruct (composite_exact EscapeNulls b ts VTup v 0 [] OK ltac:(lia) eq_refl X S H) as (vs & -> & T & E). cbn [typed encode]. auto.
  - cbn [strict] in S. destruct (composite_exact h b ts VTup v 0 [] OK ltac:(lia) eq_refl X S H) as (vs & -> & T & E). cbn [typed encode]. auto.
  - cbn [strict] in S. destruct (all_unit vs) eqn:AU.
    + unfold from_be in H. destruct (Nat.eqb_spec (length b) w) as [L|]; [|discriminate].
      destruct (on_variant_In (fun _ => Done (VEnum (of_be b) []) : outcome kval kerr) (of_be b) vs (Fail EInvalidData)) as [[E _]|(ts & I & E)];
        rewrite E in H; [discriminate|]. injection H as <-. cbn [typed encode]. rewrite AU, E.
      assert (N0 : ts = []). { unfold all_unit in AU. rewrite forallb_forall in AU. specialize (AU _ I). cbn [snd] in AU. destruct ts; [reflexivity|discriminate]. }
      subst ts w. pose proof (of_be_bound b OK). rewrite be_of_be by exact OK. split; [|reflexivity]. cbn [all2]. lia.
    + destruct (dec_field _ _ _ _ _) as [[x [o e]]| |] eqn:D; try discriminate. apply dec_field_fixed in D. destruct D as (-> & -> & L1 & L2 & D).
      rewrite Nat.add_0_l in *. cbn [skipn] in D. unfold from_be in D. destruct (Nat.eqb_spec (length (firstn w b)) w) as [L|]; [|discriminate]. injection D as <-.
      set (d := of_be (firstn w b)) in *.
      destruct (on_variant_In (fun ts => dec_composite (dec_fields decode h b ts (w, length b)) (VEnum d)) d vs (Fail EInvalidData)) as [[E _]|(ts & I & E)];
        rewrite E in H; [discriminate|].
      assert (F : Forall (fun t => strict t = true -> accepts_only_encodings t) ts) by (rewrite Forall_forall in X; apply (X _ I)).
      rewrite forallb_forall in S. specialize (S _ I). cbn [snd] in S.
      destruct (composite_exact h b ts (VEnum d) v w (firstn w b) OK L2 eq_refl F S H) as (us & -> & T & EN).
      assert (BE : be w d = firstn w b) by (unfold d; pose proof (be_of_be _ (bytes_ok_firstn w b OK)) as BE0; rewrite L in BE0; exact BE0).
      assert (DB : d < 256 ^ N.of_nat w) by (unfold d; pose proof (of_be_bound _ (bytes_ok_firstn w b OK)) as DB0; rewrite L in DB0; exact DB0).
      cbn [typed encode]. rewrite AU, !E, BE. split; [rewrite T; lia|exact EN].
Qed.
