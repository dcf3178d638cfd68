(* Proofs about the key encodings. *)
From Verif Require Import Base Utf8 Key KeySpec.
From Coq Require Import ZifyBool ZifyNat ZifyN.
Local Open Scope N_scope.

Arguments N.pow : simpl never.
Arguments N.div : simpl never.
Arguments N.modulo : simpl never.
Arguments N.mul : simpl never.
Arguments N.add : simpl never.
Arguments N.ltb : simpl never.
Arguments N.leb : simpl never.
Arguments N.of_nat : simpl never.

(* ---------- induction over key types ---------- *)
Section KtyInd.
  Variable P : kty -> Prop.
  Hypothesis HU : forall w, P (TU w).
  Hypothesis HI : forall w, P (TI w).
  Hypothesis HNU : forall w, P (TNZU w).
  Hypothesis HNI : forall w, P (TNZI w).
  Hypothesis HB : P TBool.
  Hypothesis Hun : P TUnit.
  Hypothesis HA : forall n, P (TArr n).
  Hypothesis HBy : P TBytes.
  Hypothesis HS : P TStr.
  Hypothesis HO : forall t, P t -> P (TOpt t).
  Hypothesis HR : forall t e, P t -> P e -> P (TRes t e).
  Hypothesis HT : forall ts, Forall P ts -> P (TTup ts).
  Hypothesis HSt : forall h ts, Forall P ts -> P (TStruct h ts).
  Hypothesis HE : forall h w vs, Forall (fun p => Forall P (snd p)) vs -> P (TEnum h w vs).
  Fixpoint kty_ind' (t : kty) : P t :=
    match t with
    | TU w => HU w | TI w => HI w | TNZU w => HNU w | TNZI w => HNI w
    | TBool => HB | TUnit => Hun | TArr n => HA n | TBytes => HBy | TStr => HS
    | TOpt t => HO t (kty_ind' t)
    | TRes t e => HR t e (kty_ind' t) (kty_ind' e)
    | TTup ts => HT ts ((fix go l : Forall P l :=
                           match l with [] => Forall_nil P | x :: r => Forall_cons x (kty_ind' x) (go r) end) ts)
    | TStruct h ts => HSt h ts ((fix go l : Forall P l :=
                           match l with [] => Forall_nil P | x :: r => Forall_cons x (kty_ind' x) (go r) end) ts)
    | TEnum h w vs => HE h w vs
        ((fix go2 l : Forall (fun p => Forall P (snd p)) l :=
            match l with
            | [] => Forall_nil _
            | x :: r => Forall_cons x
                ((fix go l : Forall P l :=
                    match l with [] => Forall_nil P | x :: r => Forall_cons x (kty_ind' x) (go r) end) (snd x))
                (go2 r)
            end) vs)
    end.
End KtyInd.

(* ---------- big-endian integers ---------- *)
Lemma be_length w v : length (be w v) = w.
Proof. revert v; induction w as [|w IH]; intros v; simpl; [reflexivity|]. rewrite IH. reflexivity. Qed.

Lemma pow256_pos n : 0 < 256 ^ n.
Proof. apply N.neq_0_lt_0. apply N.pow_nonzero. discriminate. Qed.

Lemma pow256_succ n : 256 ^ N.of_nat (S n) = 256 * 256 ^ N.of_nat n.
Proof. rewrite Nat2N.inj_succ. apply N.pow_succ_r'. Qed.

Lemma be_bytes w v : v < 256 ^ N.of_nat w -> bytes_ok (be w v).
Proof.
  revert v; induction w as [|w IH]; intros v Hv; simpl; [constructor|].
  rewrite pow256_succ in Hv. assert (Hp := pow256_pos (N.of_nat w)).
  constructor; [|apply IH; apply N.mod_lt; lia].
  unfold byte_ok. apply N.div_lt_upper_bound; lia.
Qed.

Lemma of_be_be w v : v < 256 ^ N.of_nat w -> of_be (be w v) = v.
Proof.
  revert v; induction w as [|w IH]; intros v Hv.
  - simpl. change (256 ^ N.of_nat 0) with 1 in Hv. lia.
  - cbn [be of_be]. assert (Hp := pow256_pos (N.of_nat w)).
    rewrite be_length, IH by (apply N.mod_lt; lia).
    rewrite N.mul_comm. symmetry. apply N.div_mod. lia.
Qed.

Lemma of_be_bound l : bytes_ok l -> of_be l < 256 ^ N.of_nat (length l).
Proof.
  induction 1 as [|b l Hb _ IH]; [reflexivity|].
  cbn [of_be length]. rewrite pow256_succ. unfold byte_ok in Hb.
  assert (b * 256 ^ N.of_nat (length l) <= 255 * 256 ^ N.of_nat (length l)) by (apply N.mul_le_mono_r; lia).
  lia.
Qed.

Lemma be_of_be l : bytes_ok l -> be (length l) (of_be l) = l.
Proof.
  induction 1 as [|b l Hb Hl IH]; [reflexivity|].
  cbn [of_be length be]. assert (Hp := pow256_pos (N.of_nat (length l))).
  assert (Hlt := of_be_bound l Hl).
  rewrite N.div_add_l by lia. rewrite N.div_small by assumption. rewrite N.add_0_r. f_equal.
  rewrite N.add_comm, N.mod_add by lia. rewrite N.mod_small by assumption. exact IH.
Qed.

Lemma be_lex w a b : a < 256 ^ N.of_nat w -> b < 256 ^ N.of_nat w -> lex (be w a) (be w b) = N.compare a b.
Proof.
  revert a b; induction w as [|w IH]; intros a b Ha Hb.
  - change (256 ^ N.of_nat 0) with 1 in Ha, Hb. simpl. replace a with b by lia. symmetry. apply N.compare_refl.
  - cbn [be lex]. assert (Hp := pow256_pos (N.of_nat w)). set (p := 256 ^ N.of_nat w) in *.
    assert (Da := N.div_mod a p ltac:(lia)). assert (Db := N.div_mod b p ltac:(lia)).
    assert (Ma := N.mod_lt a p ltac:(lia)). assert (Mb := N.mod_lt b p ltac:(lia)).
    destruct (N.compare_spec (a / p) (b / p)) as [E|L|L].
    + rewrite IH by assumption. rewrite Da, Db at 2. rewrite E.
      destruct (N.compare_spec (a mod p) (b mod p)) as [E2|L2|L2]; symmetry.
      * rewrite E2. apply N.compare_refl.
      * apply N.compare_lt_iff. lia.
      * apply N.compare_gt_iff. lia.
    + symmetry. apply N.compare_lt_iff.
      assert (p * (a / p) + p <= p * (b / p)) by nia. lia.
    + symmetry. apply N.compare_gt_iff.
      assert (p * (b / p) + p <= p * (a / p)) by nia. lia.
Qed.

(* ---------- two's complement ---------- *)
Lemma umod_pow w : (1 <= w)%nat -> Z.of_N (umod w) = (2 * 2 ^ (8 * Z.of_nat w - 1))%Z.
Proof.
  intros Hw. unfold umod. rewrite N2Z.inj_pow. change (Z.of_N 256) with (2 ^ 8)%Z.
  rewrite <- Z.pow_mul_r by lia. rewrite nat_N_Z.
  rewrite <- (Z.pow_succ_r 2 (8 * Z.of_nat w - 1)) by lia. f_equal. lia.
Qed.

Lemma half_pos w : (1 <= w)%nat -> (0 < 2 ^ (8 * Z.of_nat w - 1))%Z.
Proof. intros. apply Z.pow_pos_nonneg; lia. Qed.

Lemma to_unsigned_bound w z : to_unsigned w z < 256 ^ N.of_nat w.
Proof.
  unfold to_unsigned. fold (umod w).
  assert (H : (0 < Z.of_N (umod w))%Z) by (assert (Hp := pow256_pos (N.of_nat w)); unfold umod; lia).
  assert (B := Z.mod_pos_bound z (Z.of_N (umod w)) H).
  rewrite <- (N2Z.id (umod w)) at 2. apply Z2N.inj_lt; lia.
Qed.

Lemma to_unsigned_nonneg w z :
  (1 <= w)%nat -> (0 <= z < 2 ^ (8 * Z.of_nat w - 1))%Z -> to_unsigned w z = Z.to_N z.
Proof.
  intros Hw Hz. unfold to_unsigned. rewrite umod_pow by assumption.
  rewrite Z.mod_small by lia. reflexivity.
Qed.

Lemma to_unsigned_neg w z :
  (1 <= w)%nat -> (- (2 ^ (8 * Z.of_nat w - 1)) <= z < 0)%Z ->
  to_unsigned w z = Z.to_N (z + Z.of_N (umod w)).
Proof.
  intros Hw Hz. unfold to_unsigned. f_equal. assert (H := umod_pow w Hw). assert (P := half_pos w Hw).
  rewrite <- (Z.mod_small (z + Z.of_N (umod w)) (Z.of_N (umod w))) by lia.
  rewrite <- (Z_mod_plus_full z 1 (Z.of_N (umod w))). f_equal. lia.
Qed.

Lemma to_signed_to_unsigned w z :
  (1 <= w)%nat -> (- (2 ^ (8 * Z.of_nat w - 1)) <= z < 2 ^ (8 * Z.of_nat w - 1))%Z ->
  to_signed w (to_unsigned w z) = z.
Proof.
  intros Hw Hz. assert (H := umod_pow w Hw). assert (P := half_pos w Hw).
  unfold to_signed.
  assert (Hh : Z.of_N (umod w / 2) = (2 ^ (8 * Z.of_nat w - 1))%Z).
  { rewrite N2Z.inj_div, H. change (Z.of_N 2) with 2%Z. rewrite Z.mul_comm. apply Z.div_mul. lia. }
  destruct (Z_lt_le_dec z 0) as [L|L].
  - rewrite to_unsigned_neg by lia.
    destruct (N.ltb_spec (Z.to_N (z + Z.of_N (umod w))) (umod w / 2)); lia.
  - rewrite to_unsigned_nonneg by lia.
    destruct (N.ltb_spec (Z.to_N z) (umod w / 2)); lia.
Qed.

Lemma to_unsigned_zero w z :
  (1 <= w)%nat -> (- (2 ^ (8 * Z.of_nat w - 1)) <= z < 2 ^ (8 * Z.of_nat w - 1))%Z ->
  to_unsigned w z = 0 -> z = 0%Z.
Proof.
  intros Hw Hz E. rewrite <- (to_signed_to_unsigned w z Hw Hz), E. unfold to_signed.
  assert (H := umod_pow w Hw). assert (P := half_pos w Hw).
  assert (Hh : Z.of_N (umod w / 2) = (2 ^ (8 * Z.of_nat w - 1))%Z).
  { rewrite N2Z.inj_div, H. change (Z.of_N 2) with 2%Z. rewrite Z.mul_comm. apply Z.div_mul. lia. }
  destruct (N.ltb_spec 0 (umod w / 2)); lia.
Qed.

(* ---------- null handling ---------- *)
Lemma unesc_esc l : unesc (esc l) = Done l.
Proof.
  induction l as [|b l IH]; [reflexivity|]. cbn [esc].
  destruct (N.eqb_spec b 0) as [->|Hb].
  - cbn [unesc]. rewrite N.eqb_refl, IH. reflexivity.
  - cbn [unesc]. apply N.eqb_neq in Hb. rewrite Hb, IH. reflexivity.
Qed.

Lemma decode_handle h l l' : handle_nulls h l = Done l' -> decode_nulls h l' = Done l.
Proof.
  destruct h; cbn [handle_nulls decode_nulls].
  - intros [= <-]. apply unesc_esc.
  - intros [= <-]. reflexivity.
  - destruct (existsb _ l); [discriminate|]. intros [= <-]. reflexivity.
Qed.

Lemma esc_length l : length (esc l) = (length l + count_nulls l)%nat.
Proof.
  unfold count_nulls. induction l as [|b l IH]; [reflexivity|]. cbn [esc filter].
  destruct (N.eqb_spec b 0); cbn [length]; rewrite IH; cbn [length]; lia.
Qed.

(* ---------- the composite encoder as a relation ---------- *)
Inductive FE (h : nulls) : list kty -> list kval -> bytes -> list N -> Prop :=
| FE_nil : FE h [] [] [] []
| FE_fix t ts v vs e n body ls :
    klen t = Some n -> encode t v = Done e -> FE h ts vs body ls ->
    FE h (t :: ts) (v :: vs) (e ++ body) ls
| FE_var t ts v vs e e' body ls :
    klen t = None -> encode t v = Done e -> handle_nulls h e = Done e' ->
    N.of_nat (length e') <= 65535 -> FE h ts vs body ls ->
    FE h (t :: ts) (v :: vs) (e' ++ 0 :: body) (N.of_nat (length e') :: ls).

Lemma enc_fields_FE h ts : forall vs st st',
  enc_fields encode h ts vs st = Done st' ->
  exists body ls, FE h ts vs body ls /\ st' = (fst st ++ body, snd st ++ ls).
Proof.
  induction ts as [|t ts IH]; intros [|v vs] st st' H; cbn [enc_fields] in H; try discriminate.
  - injection H as <-. exists [], []. split; [constructor|]. rewrite !app_nil_r. destruct st; reflexivity.
  - destruct (encode t v) as [e| |] eqn:Ee; try discriminate.
    unfold push_field in H. destruct (klen t) as [n|] eqn:Ek.
    + apply IH in H. destruct H as (body & ls & HF & ->). exists (e ++ body), ls. split.
      * econstructor; eassumption.
      * cbn [fst snd]. rewrite app_assoc. reflexivity.
    + destruct (handle_nulls h e) as [e'| |] eqn:Eh; try discriminate.
      destruct (N.leb_spec (N.of_nat (length e')) 65535) as [Hl|Hl]; try discriminate.
      apply IH in H. destruct H as (body & ls & HF & ->).
      exists (e' ++ 0 :: body), (N.of_nat (length e') :: ls). split.
      * econstructor; eassumption.
      * cbn [fst snd]. rewrite <- !app_assoc. reflexivity.
Qed.

Lemma FE_enc_fields h ts vs body ls : FE h ts vs body ls -> forall st,
  enc_fields encode h ts vs st = Done (fst st ++ body, snd st ++ ls).
Proof.
  induction 1 as [|t ts v vs e n body ls Hk He HF IH|t ts v vs e e' body ls Hk He Hh Hl HF IH]; intros st;
    cbn [enc_fields].
  - rewrite !app_nil_r. destruct st; reflexivity.
  - rewrite He. unfold push_field. rewrite Hk. rewrite IH. cbn [fst snd]. rewrite app_assoc. reflexivity.
  - rewrite He. unfold push_field. rewrite Hk, Hh.
    destruct (N.leb_spec (N.of_nat (length e')) 65535); [|lia].
    rewrite IH. cbn [fst snd]. rewrite <- !app_assoc. reflexivity.
Qed.

(* ---------- reading back a length trailer ---------- *)
Definition varlen_check (n : N) : bool :=
  match read_len (rev (varlen n)) 0 0 with
  | Done (m, i) => (m =? n) && (N.to_nat i + 1 =? length (varlen n))%nat
  | _ => false
  end.
Fixpoint sweep (f : N -> bool) (fuel : nat) (n : N) : bool :=
  match fuel with O => true | S k => f n && sweep f k (n + 1) end.
Lemma sweep_spec f fuel : forall n, sweep f fuel n = true ->
  forall m, n <= m < n + N.of_nat fuel -> f m = true.
Proof.
  induction fuel as [|k IH]; intros n H m Hm; [lia|]. cbn [sweep] in H.
  apply andb_prop in H. destruct H as [H1 H2].
  destruct (N.eq_dec m n) as [->|Hne]; [assumption|]. apply (IH (n + 1) H2). lia.
Qed.
Lemma varlen_sweep : sweep varlen_check (N.to_nat 65536) 0 = true.
Proof. vm_compute. reflexivity. Qed.

Lemma read_len_app l r i acc x : read_len l i acc = Done x -> read_len (l ++ r) i acc = Done x.
Proof.
  revert i acc; induction l as [|b l IH]; intros i acc H; [discriminate|].
  cbn [app read_len] in *. destruct (64 <=? 7 * i); [discriminate|]. cbv zeta in *.
  destruct (N.land b 128 =? 0); [assumption|]. apply IH. assumption.
Qed.

Lemma read_varlen n rest : n <= 65535 ->
  exists i, read_len (rev (varlen n) ++ rest) 0 0 = Done (n, i) /\ (N.to_nat i + 1)%nat = length (varlen n).
Proof.
  intros Hn. assert (H := sweep_spec _ _ _ varlen_sweep n ltac:(lia)).
  unfold varlen_check in H. destruct (read_len (rev (varlen n)) 0 0) as [[m i]| |] eqn:E; try discriminate.
  apply andb_prop in H. destruct H as [H1 H2]. apply N.eqb_eq in H1. apply Nat.eqb_eq in H2. subst m.
  exists i. split; [apply read_len_app; assumption|assumption].
Qed.

(* ---------- slices ---------- *)
Lemma slice_mid (a b c : bytes) : slice (a ++ b ++ c) (length a) (length a + length b) = Some b.
Proof.
  unfold slice. rewrite !app_length.
  replace ((length a <=? length a + length b)%nat) with true by (symmetry; apply Nat.leb_le; lia).
  replace ((length a + length b <=? length a + (length b + length c))%nat) with true
    by (symmetry; apply Nat.leb_le; lia).
  cbn [andb]. f_equal. rewrite skipn_app, skipn_all, Nat.sub_diag. cbn [app skipn].
  replace (length a + length b - length a)%nat with (length b) by lia.
  rewrite firstn_app, Nat.sub_diag, firstn_all. cbn [firstn]. apply app_nil_r.
Qed.

Lemma slice_eq l a b c n m : l = a ++ b ++ c -> n = length a -> m = (length a + length b)%nat ->
  slice l n m = Some b.
Proof. intros -> -> ->. apply slice_mid. Qed.

(* ---------- lengths ---------- *)
Lemma fold_klen_cons t ts n :
  fold_right (fun t acc => opt_add (klen t) acc) (Some 0%nat) (t :: ts) = Some n ->
  exists a b, klen t = Some a /\
    fold_right (fun t acc => opt_add (klen t) acc) (Some 0%nat) ts = Some b /\ n = (a + b)%nat.
Proof.
  cbn [fold_right]. destruct (klen t) as [a|]; [|discriminate].
  destruct (fold_right _ _ ts) as [b|]; [|discriminate]. cbn [opt_add]. intros [= <-].
  exists a, b. auto.
Qed.

Lemma exact_len t : forall v e n,
  exact t = true -> typed t v = true -> klen t = Some n -> encode t v = Done e -> length e = n.
Proof.
  induction t using kty_ind'; intros v e' n' Hex Ht Hk He;
    destruct v; cbn [encode] in He; try discriminate;
    try (injection He as <-); cbn [klen] in Hk; try discriminate.
  1-4: injection Hk as <-; apply be_length.
  - injection Hk as <-. reflexivity.
  - injection Hk as <-. reflexivity.
  - injection Hk as <-. cbn [typed] in Ht. apply Nat.eqb_eq. exact Ht.
  - cbn [exact] in Hex. destruct (klen t) as [k|]; [|discriminate].
    apply andb_prop in Hex. destruct Hex as [Hz _]. apply Nat.eqb_eq in Hz. subst k. injection Hk as <-. reflexivity.
  - cbn [exact] in Hex. destruct (klen t) as [k|] eqn:Ek; [|discriminate].
    apply andb_prop in Hex. destruct Hex as [Hz Hex].
    destruct (encode t v) as [e0| |] eqn:E0; try discriminate. injection He as <-. injection Hk as <-.
    cbn [length]. f_equal. eapply IHt; eauto.
  - (* tuple *)
    destruct (enc_fields encode EscapeNulls ts vs ([], [])) as [st| |] eqn:Es; try discriminate.
    injection He as <-. apply enc_fields_FE in Es. destruct Es as (body & ls & HF & ->).
    unfold finish_enc. cbn [fst snd app].
    cbn [exact typed] in Hex, Ht.
    assert (L : length body = n' /\ ls = []).
    { revert n' Hk. induction HF as [|t ts v vs e n body ls Hkl He HF IHF|t ts v vs e e' body ls Hkl He Hh Hl HF IHF];
        intros n' Hk.
      - cbn [fold_right] in Hk. injection Hk as <-. auto.
      - inversion H as [|? ? Pt Pts]; subst.
        cbn [forallb all2] in Hex, Ht. apply andb_prop in Hex, Ht.
        destruct Hex as [X1 X2], Ht as [T1 T2].
        apply fold_klen_cons in Hk. destruct Hk as (a & b & Ka & Kb & ->).
        destruct (IHF Pts X2 T2 b Kb) as [E1 E2]. split; [|assumption].
        rewrite app_length, E1. f_equal. eapply Pt; eauto.
      - apply fold_klen_cons in Hk. destruct Hk as (a & b & Ka & Kb & ->). congruence. }
    destruct L as [L ->]. cbn [rev flat_map]. rewrite app_nil_r. exact L.
  - (* enum *)
    destruct (all_unit vs); [|discriminate]. injection Hk as <-. injection He as <-. apply be_length.
Qed.

(* ---------- decoding composites ---------- *)
Lemma dec_fields_ok h ts vs body ls :
  FE h ts vs body ls ->
  Forall (fun t => forall v e, typed t v = true -> encode t v = Done e ->
                   N.of_nat (length e) < 2 ^ 63 -> decode t e = Done v) ts ->
  forallb exact ts = true -> all2 _ _ typed ts vs = true ->
  forall all pre post,
    all = pre ++ body ++ flat_map varlen (rev ls) ++ post ->
    N.of_nat (length all) < 2 ^ 63 ->
    dec_fields decode h all ts (length pre, (length pre + length body + length (flat_map varlen (rev ls)))%nat)
    = Done (vs, ((length pre + length body)%nat, (length pre + length body)%nat)).
Proof.
  induction 1 as [|t ts v vs e n body ls Hk He HF IH|t ts v vs e e' body ls Hk He Hh Hl HF IH];
    intros HD Hex Ht all pre post Hall Hlen.
  - cbn [dec_fields length rev flat_map]. rewrite !Nat.add_0_r. reflexivity.
  - inversion HD as [|? ? D1 D2].
    cbn [forallb all2] in Hex, Ht. apply andb_prop in Hex, Ht.
    destruct Hex as [X1 X2], Ht as [T1 T2].
    assert (Le := exact_len t v e n X1 T1 Hk He).
    cbn [dec_fields]. unfold dec_field. rewrite Hk.
    assert (Ll : (length all = length pre + (length e + length body + (length (flat_map varlen (rev ls)) + length post)))%nat).
    { rewrite Hall, !app_length. lia. }
    destruct (N.leb_spec (2 ^ 64) (N.of_nat (length pre) + N.of_nat n)) as [B|B]; [exfalso; lia|].
    rewrite app_length.
    destruct (N.leb_spec (N.of_nat (length pre) + N.of_nat n)
       (N.of_nat (length pre + (length e + length body) + length (flat_map varlen (rev ls))))) as [B2|B2]; [|exfalso; lia].
    rewrite (slice_eq all pre e (body ++ flat_map varlen (rev ls) ++ post)) by (rewrite ?Hall, <- ?app_assoc; auto; lia).
    rewrite D1 with (v := v) by (auto; lia).
    specialize (IH D2 X2 T2 all (pre ++ e) post).
    rewrite app_length in IH.
    replace (N.to_nat (N.of_nat (length pre) + N.of_nat n)) with (length pre + length e)%nat by lia.
    replace (length pre + (length e + length body) + length (flat_map varlen (rev ls)))%nat
      with (length pre + length e + length body + length (flat_map varlen (rev ls)))%nat by lia.
    rewrite IH.
    + f_equal. f_equal. f_equal; lia.
    + rewrite Hall, <- !app_assoc. reflexivity.
    + exact Hlen.
  - inversion HD as [|? ? D1 D2].
    cbn [forallb all2] in Hex, Ht. apply andb_prop in Hex, Ht.
    destruct Hex as [X1 X2], Ht as [T1 T2].
    cbn [dec_fields]. unfold dec_field. rewrite Hk.
    cbn [rev] in *. rewrite flat_map_app in *. cbn [flat_map] in *. rewrite app_nil_r in *.
    set (T := flat_map varlen (rev ls)) in *.
    set (m := N.of_nat (length e')) in *.
    assert (Hh' := decode_handle h e e' Hh).
    assert (Lpos : (1 <= length (varlen m))%nat).
    { unfold varlen. destruct (m <=? 127); [simpl; lia|]. destruct (m <=? 16383); simpl; lia. }
    assert (Ll : (length all = length pre + (length e' + S (length body) + (length T + length (varlen m) + length post)))%nat).
    { rewrite Hall, !app_length. cbn [length]. lia. }
    rewrite !app_length. cbn [length].
    rewrite (slice_eq all pre (e' ++ 0 :: body ++ T ++ varlen m) post);
      [| rewrite Hall; rewrite <- !app_assoc; cbn [app]; rewrite <- !app_assoc; reflexivity
       | reflexivity | rewrite !app_length; cbn [length]; rewrite !app_length; lia].
    replace (rev (e' ++ 0 :: body ++ T ++ varlen m)) with (rev (varlen m) ++ rev (e' ++ 0 :: body ++ T)).
    2: { rewrite <- rev_app_distr, <- app_assoc. cbn [app]. rewrite <- !app_assoc. reflexivity. }
    destruct (read_varlen m (rev (e' ++ 0 :: body ++ T)) Hl) as (i & Hi & Hil). rewrite Hi.
    cbv beta iota zeta.
    destruct (N.leb_spec (2 ^ 64) (N.of_nat (length pre) + m)) as [B|B]; [exfalso; lia|].
    replace (length pre + (length e' + S (length body)) + (length T + length (varlen m)) - N.to_nat i - 1)%nat
      with (length pre + (length e' + S (length body)) + length T)%nat by lia.
    destruct (N.leb_spec (N.of_nat (length pre) + m)
       (N.of_nat (length pre + (length e' + S (length body)) + length T))) as [B2|B2]; [|exfalso; lia].
    rewrite (slice_eq all pre e' (0 :: body ++ T ++ varlen m ++ post));
      [| rewrite Hall, <- !app_assoc; cbn [app]; rewrite <- ?app_assoc; reflexivity | reflexivity | lia].
    rewrite Hh'.
    assert (Lel : (length e <= length e')%nat).
    { destruct h; cbn [handle_nulls] in Hh.
      - injection Hh as <-. rewrite esc_length. lia.
      - injection Hh as <-. lia.
      - destruct (existsb _ e); [discriminate|]. injection Hh as <-. lia. }
    rewrite D1 with (v := v) by (auto; lia).
    specialize (IH D2 X2 T2 all (pre ++ e' ++ [0]) (varlen m ++ post)).
    rewrite !app_length in IH. cbn [length] in IH. fold T in IH.
    replace (N.to_nat (N.of_nat (length pre) + m) + 1)%nat with (length pre + (length e' + 1))%nat by lia.
    replace (length pre + (length e' + S (length body)) + length T)%nat
      with (length pre + (length e' + 1) + length body + length T)%nat by lia.
    rewrite IH.
    + f_equal. f_equal. f_equal; lia.
    + rewrite Hall, <- !app_assoc. cbn [app]. rewrite <- ?app_assoc. reflexivity.
    + exact Hlen.
Qed.

Lemma from_be_be w n k : n < 256 ^ N.of_nat w -> from_be w (be w n) k = k n.
Proof.
  intros H. unfold from_be. rewrite be_length, Nat.eqb_refl, of_be_be by assumption. reflexivity.
Qed.

Lemma typed_I w z : typed (TI w) (VI z) = true ->
  (1 <= w)%nat /\ (- (2 ^ (8 * Z.of_nat w - 1)) <= z < 2 ^ (8 * Z.of_nat w - 1))%Z.
Proof. cbn [typed]. lia. Qed.

Lemma typed_NZI w z : typed (TNZI w) (VI z) = true ->
  (1 <= w)%nat /\ (- (2 ^ (8 * Z.of_nat w - 1)) <= z < 2 ^ (8 * Z.of_nat w - 1))%Z /\ z <> 0%Z.
Proof. cbn [typed]. lia. Qed.

Lemma forallb_and A (f g : A -> bool) l :
  forallb (fun x => f x && g x) l = true -> forallb f l = true /\ forallb g l = true.
Proof.
  induction l as [|x l IH]; [auto|]. cbn [forallb]. intros H. apply andb_prop in H. destruct H as [H1 H2].
  apply andb_prop in H1. destruct H1 as [-> ->]. apply IH in H2. destruct H2 as [-> ->]. auto.
Qed.

Lemma composite_roundtrip h ts vs e (mk : list kval -> kval) :
  finish_outcome (enc_fields encode h ts vs ([], [])) = Done e ->
  Forall (fun t => forall v e, no_sized_option t = true -> typed t v = true -> encode t v = Done e ->
                   N.of_nat (length e) < 2 ^ 63 -> decode t e = Done v) ts ->
  forallb (fun t => exact t && no_sized_option t) ts = true -> all2 _ _ typed ts vs = true ->
  N.of_nat (length e) < 2 ^ 63 ->
  dec_composite (dec_fields decode h e ts (0%nat, length e)) mk = Done (mk vs).
Proof.
  intros He HD Hno Ht Hl. apply forallb_and in Hno. destruct Hno as [Hex Hno].
  destruct (enc_fields encode h ts vs ([], [])) as [st| |] eqn:Es; try discriminate.
  injection He as <-. apply enc_fields_FE in Es. destruct Es as (body & ls & HF & ->).
  unfold finish_enc in *. cbn [fst snd app] in *.
  assert (HD' : Forall (fun t => forall v e, typed t v = true -> encode t v = Done e ->
                   N.of_nat (length e) < 2 ^ 63 -> decode t e = Done v) ts).
  { rewrite Forall_forall in *. rewrite forallb_forall in Hno. intros t Hin v e T E L. apply HD; auto. }
  assert (R := dec_fields_ok h ts vs body ls HF HD' Hex Ht (body ++ flat_map varlen (rev ls)) [] []).
  cbn [length app] in R. rewrite app_nil_r in R. rewrite app_length. rewrite Nat.add_0_l in R. rewrite R by (auto; rewrite app_nil_r; reflexivity).
  unfold dec_composite, finish_dec. cbn [fst snd]. rewrite Nat.eqb_refl. reflexivity.
Qed.

Lemma roundtrip t : forall v e,
  no_sized_option t = true -> typed t v = true -> encode t v = Done e ->
  N.of_nat (length e) < 2 ^ 63 -> decode t e = Done v.
Proof.
  induction t using kty_ind'; intros v e' Hno Ht He Hl; destruct v; try discriminate;
    cbn [encode] in He; cbn [decode].
  - injection He as <-. rewrite from_be_be; [reflexivity|]. cbn [typed] in Ht. lia.
  - injection He as <-. apply typed_I in Ht. rewrite from_be_be by apply to_unsigned_bound.
    rewrite to_signed_to_unsigned by tauto. reflexivity.
  - injection He as <-. cbn [typed] in Ht. rewrite from_be_be by lia.
    destruct (N.eqb_spec n 0); [exfalso; lia|reflexivity].
  - injection He as <-. apply typed_NZI in Ht. rewrite from_be_be by apply to_unsigned_bound.
    destruct (N.eqb_spec (to_unsigned w z) 0) as [E|E].
    + exfalso. apply to_unsigned_zero in E; tauto.
    + rewrite to_signed_to_unsigned by tauto. reflexivity.
  - injection He as <-. destruct b; reflexivity.
  - reflexivity.
  - injection He as <-. cbn [typed] in Ht. rewrite Ht. reflexivity.
  - injection He as <-. reflexivity.
  - injection He as <-. cbn [typed] in Ht. apply str_okb_spec in Ht. rewrite utf8_roundtrip by assumption. reflexivity.
  - injection He as <-. reflexivity.
  - destruct (encode t v) as [e0| |] eqn:E; try discriminate. injection He as <-.
    change (1 =? 0) with false. cbv iota. cbn [length] in Hl.
    rewrite (IHt v e0) by (auto; lia). reflexivity.
  - cbn [no_sized_option] in Hno. apply andb_prop in Hno. destruct Hno as [N1 N2].
    destruct (encode t1 v) as [e0| |] eqn:E; try discriminate. injection He as <-.
    change (0 =? 0) with true. cbv iota. cbn [length] in Hl.
    rewrite (IHt1 v e0) by (auto; lia). reflexivity.
  - cbn [no_sized_option] in Hno. apply andb_prop in Hno. destruct Hno as [N1 N2].
    destruct (encode t2 v) as [e0| |] eqn:E; try discriminate. injection He as <-.
    change (1 =? 0) with false. cbv iota. cbn [length] in Hl.
    rewrite (IHt2 v e0) by (auto; lia). reflexivity.
  - eapply composite_roundtrip; eauto.
  - eapply composite_roundtrip; eauto.
  - (* enum *)
    cbn [typed] in Ht. apply andb_prop in Ht. destruct Ht as [Hd Ht]. apply N.ltb_lt in Hd.
    destruct (all_unit vs) eqn:Hu.
    + injection He as <-. rewrite from_be_be by assumption.
      clear H Hno. induction vs as [|[d' ts] vs IH]; [discriminate|].
      cbn [on_variant] in *. destruct (N.eqb_spec d d') as [->|Hne].
      * unfold all_unit in Hu. cbn [forallb snd] in Hu. destruct ts; [|discriminate].
        destruct vs0; [reflexivity|discriminate].
      * apply IH; auto. unfold all_unit in *. cbn [forallb] in Hu. apply andb_prop in Hu. tauto.
    + clear Hu. unfold dec_field. cbv beta iota zeta.
      assert (Hlen : length e' = (w + (length e' - w))%nat /\ firstn w e' = be w d).
      { clear H Hno. induction vs as [|[d' ts] vs IH]; [discriminate|].
        cbn [on_variant] in *. destruct (N.eqb_spec d d') as [->|Hne]; [|auto].
        destruct (enc_fields encode h ts vs0 (be w d', [])) as [st| |] eqn:Es; try discriminate.
        injection He as <-. apply enc_fields_FE in Es. destruct Es as (body & ls & HF & ->).
        unfold finish_enc. cbn [fst snd]. rewrite !app_length, be_length. split; [lia|].
        rewrite <- app_assoc. rewrite <- (be_length w d') at 1. apply firstn_exact. }
      destruct Hlen as [Hlen Hfst].
      change (N.of_nat 0) with 0. rewrite N.add_0_l.
      destruct (N.leb_spec (2 ^ 64) (N.of_nat w)) as [B|B]; [exfalso; lia|].
      destruct (N.leb_spec (N.of_nat w) (N.of_nat (length e'))) as [B2|B2]; [|exfalso; lia].
      rewrite Nat2N.id. unfold slice.
      replace ((0 <=? w)%nat && (w <=? length e')%nat) with true by lia.
      cbn [skipn]. rewrite Nat.sub_0_r, Hfst, from_be_be by assumption.
      induction vs as [|[d' ts] vs IH]; [discriminate|].
      inversion H as [|? ? H1 H2]. cbn [no_sized_option forallb snd] in Hno, H1.
      apply andb_prop in Hno. destruct Hno as [Hno1 Hno2].
      cbn [on_variant] in *. destruct (N.eqb_spec d d') as [->|Hne]; [|apply IH; auto].
      destruct (enc_fields encode h ts vs0 (be w d', [])) as [st| |] eqn:Es; try discriminate.
      injection He as <-. apply enc_fields_FE in Es. destruct Es as (body & ls & HF & ->).
      unfold finish_enc in *. cbn [fst snd app] in *.
      apply forallb_and in Hno1. destruct Hno1 as [Hex Hno1].
      assert (HD' : Forall (fun t => forall v e, typed t v = true -> encode t v = Done e ->
                     N.of_nat (length e) < 2 ^ 63 -> decode t e = Done v) ts).
      { rewrite Forall_forall in *. rewrite forallb_forall in Hno1. intros t Hin v e T E L. apply H1; auto. }
      assert (R := dec_fields_ok h ts vs0 body ls HF HD' Hex Ht ((be w d' ++ body) ++ flat_map varlen (rev ls)) (be w d') []).
      rewrite be_length, app_nil_r in R. rewrite !app_length, be_length. rewrite R.
      * unfold dec_composite, finish_dec. cbn [fst snd]. rewrite Nat.eqb_refl. reflexivity.
      * rewrite <- !app_assoc. reflexivity.
      * assumption.
Qed.
