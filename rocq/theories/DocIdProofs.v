From Verif Require Import Base Utf8 Key KeyProofs DocId.
From Coq Require Import ZifyBool ZifyNat ZifyN.
Local Open Scope N_scope.

Lemma split_first_app c a r : ~ In c a -> split_first c (a ++ c :: r) = Some (a, r).
Proof.
  induction a as [|x a IH]; intros H; cbn [app split_first].
  - rewrite N.eqb_refl. reflexivity.
  - destruct (N.eqb_spec x c) as [->|Hne]; [exfalso; apply H; left; reflexivity|].
    rewrite IH; [reflexivity|]. intros Hin. apply H. right. assumption.
Qed.

Lemma split_first_none c a : ~ In c a -> split_first c a = None.
Proof.
  induction a as [|x a IH]; intros H; cbn [split_first]; [reflexivity|].
  destruct (N.eqb_spec x c) as [->|Hne]; [exfalso; apply H; left; reflexivity|].
  rewrite IH; [reflexivity|]. intros Hin. apply H. right. assumption.
Qed.

(* finite facts about digits *)
Definition byte_check (b : N) : bool :=
  match decode_nibble (nib (b / 16)), decode_nibble (nib (b mod 16)) with
  | Done x, Done y => (x * 16 + y =? b)
  | _, _ => false
  end &&
  match hexn b with
  | [y] => (b <? 16) && match decode_nibble y with Done v => v =? b | _ => false end && negb (y =? dollar)
  | [x; y] => match decode_nibble x, decode_nibble y with Done u, Done v => u * 16 + v =? b | _, _ => false end
              && negb (x =? dollar) && negb (y =? dollar)
  | _ => false
  end && negb (nib (b / 16) =? dollar) && negb (nib (b mod 16) =? dollar).
Lemma byte_sweep : sweep byte_check 256 0 = true. Proof. vm_compute. reflexivity. Qed.
Lemma byte_facts b : byte_ok b -> byte_check b = true.
Proof. intros H. unfold byte_ok in H. apply (sweep_spec _ _ _ byte_sweep b). lia. Qed.

Definition count_check (n : N) : bool :=
  match decode_hex (hexn n) with Done l => of_be l =? n | _ => false end
  && (length (hexn n) <=? 4)%nat && (1 <=? length (hexn n))%nat
  && forallb (fun c => negb (c =? dollar)) (hexn n).
Lemma count_sweep : sweep count_check (N.to_nat 65536) 0 = true. Proof. vm_compute. reflexivity. Qed.
Lemma count_facts n : n <= 65535 ->
  exists l, decode_hex (hexn n) = Done l /\ of_be l = n /\ (1 <= length (hexn n) <= 4)%nat /\ ~ In dollar (hexn n).
Proof.
  intros H. assert (C := sweep_spec _ _ _ count_sweep n ltac:(lia)). unfold count_check in C.
  destruct (decode_hex (hexn n)) as [l| |]; try discriminate. exists l.
  apply andb_prop in C. destruct C as [C C3]. apply andb_prop in C. destruct C as [C C2].
  apply andb_prop in C. destruct C as [C1 C4].
  repeat split; try lia. intros Hin. rewrite forallb_forall in C3. specialize (C3 _ Hin).
  rewrite N.eqb_refl in C3. discriminate.
Qed.

Lemma pairs_hex2 r : bytes_ok r -> decode_pairs (flat_map hex2 r) = Done r.
Proof.
  induction 1 as [|b r Hb _ IH]; [reflexivity|]. cbn [flat_map hex2 app decode_pairs].
  assert (C := byte_facts b Hb). unfold byte_check in C.
  destruct (decode_nibble (nib (b / 16))) as [x| |]; try discriminate.
  destruct (decode_nibble (nib (b mod 16))) as [y| |]; try discriminate.
  apply andb_prop in C. destruct C as [C _]. apply andb_prop in C. destruct C as [C _].
  apply andb_prop in C. destruct C as [C _]. apply N.eqb_eq in C. rewrite C, IH. reflexivity.
Qed.

Lemma hex2_length r : length (flat_map hex2 r) = (2 * length r)%nat.
Proof. induction r as [|b r IH]; [reflexivity|]. cbn [flat_map hex2 app length]. rewrite IH. lia. Qed.

Lemma even_double n : Nat.even (2 * n) = true.
Proof. rewrite Nat.even_mul. reflexivity. Qed.

Lemma decode_hex_body c r : bytes_ok (c :: r) ->
  decode_hex (hexn c ++ flat_map hex2 r) = Done (c :: r).
Proof.
  intros H. inversion H as [|? ? Hc Hr]; subst. assert (C := byte_facts c Hc). unfold byte_check in C.
  apply andb_prop in C. destruct C as [C _]. apply andb_prop in C. destruct C as [C _].
  apply andb_prop in C. destruct C as [_ C].
  unfold decode_hex. rewrite app_length, hex2_length.
  destruct (hexn c) as [|x [|y [|z l]]]; try discriminate.
  - cbn [length app]. replace (Nat.even (1 + 2 * length r)) with false.
    2: { rewrite Nat.even_add, even_double. reflexivity. }
    apply andb_prop in C. destruct C as [C _]. apply andb_prop in C. destruct C as [_ C].
    destruct (decode_nibble x) as [v| |]; try discriminate. apply N.eqb_eq in C. subst v.
    rewrite pairs_hex2 by assumption. reflexivity.
  - cbn [length app]. replace (Nat.even (2 + 2 * length r)) with true.
    2: { rewrite Nat.even_add, even_double. reflexivity. }
    cbn [decode_pairs]. apply andb_prop in C. destruct C as [C _]. apply andb_prop in C. destruct C as [C _].
    destruct (decode_nibble x) as [u| |]; try discriminate. destruct (decode_nibble y) as [v| |]; try discriminate.
    apply N.eqb_eq in C. rewrite pairs_hex2 by assumption. rewrite C. reflexivity.
Qed.

Lemma leading_spec b : b = repeat 0 (leading_zeroes b) ++ skipn (leading_zeroes b) b /\
  match skipn (leading_zeroes b) b with c :: _ => c <> 0 | [] => leading_zeroes b = length b end.
Proof.
  induction b as [|c r IH]; [split; reflexivity|]. cbn [leading_zeroes].
  destruct (N.eqb_spec c 0) as [->|Hc].
  - cbn [repeat app skipn length]. destruct IH as [I1 I2]. split; [f_equal; exact I1|].
    destruct (skipn (leading_zeroes r) r); [lia|exact I2].
  - cbn [repeat app skipn]. split; [reflexivity|exact Hc].
Qed.

(* '$' is printable, hence: *)
Definition shown_verbatim (b : bytes) : bool := printable b.

Lemma printable_ascii b : printable b = true -> utf8_decode b = Some b.
Proof.
  intros H. assert (Hb : str_ok b /\ utf8 b = b).
  { induction b as [|c r IH]; [split; [constructor|reflexivity]|].
    cbn [printable forallb] in H. apply andb_prop in H. destruct H as [H1 H2].
    destruct (IH H2) as [I1 I2]. split.
    - constructor; [|exact I1]. apply char_ok_iff. lia.
    - cbn [utf8 flat_map]. fold (utf8 r). rewrite I2. unfold utf8_char.
      replace (c <? 128) with true by lia. reflexivity. }
  destruct Hb as [H1 H2]. rewrite <- H2 at 1. apply utf8_roundtrip. exact H1.
Qed.

Lemma display_printable b : printable b = true -> display b = b.
Proof. intros H. unfold display. rewrite printable_ascii by assumption. rewrite H. reflexivity. Qed.

Lemma display_hex b : printable b = false -> display b =
    match skipn (leading_zeroes b) b with
    | c :: r =>
        (if (0 <? leading_zeroes b)%nat then hexn (N.of_nat (leading_zeroes b)) else []) ++ [dollar] ++ hexn c ++ flat_map hex2 r
    | [] => hexn (N.of_nat (length b)) ++ [dollar]
    end.
Proof. intros H. unfold display. rewrite H. destruct (utf8_decode b); reflexivity. Qed.

Lemma display_roundtrip b : bytes_ok b -> N.of_nat (length b) <= max_length ->
  (printable b = true -> ~ In dollar b) -> from_str (display b) = Done b.
Proof.
  intros Hb Hl Hd. unfold max_length in Hl. destruct (printable b) eqn:P.
  - rewrite display_printable by assumption. unfold from_str.
    destruct b as [|c r]; [reflexivity|]. rewrite split_first_none by auto.
    unfold try_from_bytes, max_length. destruct (N.leb_spec (N.of_nat (length (c :: r))) 65535); [reflexivity|lia].
  - rewrite display_hex by assumption. destruct (leading_spec b) as [L1 L2].
    set (z := leading_zeroes b) in *.
    assert (Hz : (z <= length b)%nat).
    { rewrite L1, app_length, repeat_length. lia. }
    destruct (skipn z b) as [|c r] eqn:E.
    + (* all zeroes *)
      rewrite app_nil_r in L1. assert (Hpos : (0 < length b)%nat).
      { destruct b; [discriminate|simpl; lia]. }
      destruct (count_facts (N.of_nat (length b)) Hl) as (l & C1 & C2 & C3 & C4).
      unfold from_str. destruct (hexn (N.of_nat (length b)) ++ [dollar]) as [|x0 rest0] eqn:E0.
      { destruct (hexn (N.of_nat (length b))); discriminate. }
      rewrite <- E0, split_first_app by assumption.
      destruct (Nat.ltb_spec 5 (length (hexn (N.of_nat (length b))))); [lia|].
      destruct (hexn (N.of_nat (length b))) as [|y0 ys] eqn:Eh; [simpl in C3; lia|]. rewrite <- Eh in *.
      rewrite C1, C2. change (decode_hex []) with (@Done bytes iderr []).
      destruct (N.ltb_spec 0 (N.of_nat (length b))); [|lia].
      unfold max_length. cbn [length]. 
      destruct (N.ltb_spec 65535 (N.of_nat (length b) + N.of_nat 0)); [lia|].
      rewrite Nat2N.id, app_nil_r. f_equal. symmetry. rewrite <- L2. exact L1.
    + assert (Hcr : bytes_ok (c :: r)).
      { rewrite L1 in Hb. apply bytes_ok_app in Hb. tauto. }
      assert (Len : (length b = z + S (length r))%nat).
      { rewrite L1, app_length, repeat_length. reflexivity. }
      assert (HD := decode_hex_body c r Hcr).
      destruct (Nat.ltb_spec 0 z) as [Zp|Zp].
      * destruct (count_facts (N.of_nat z) ltac:(lia)) as (l & C1 & C2 & C3 & C4).
        unfold from_str. destruct (hexn (N.of_nat z) ++ [dollar] ++ hexn c ++ flat_map hex2 r) as [|x0 rest0] eqn:E0.
        { destruct (hexn (N.of_nat z)); discriminate. }
        rewrite <- E0. cbn [app]. rewrite split_first_app by assumption.
        destruct (Nat.ltb_spec 5 (length (hexn (N.of_nat z)))); [lia|].
        destruct (hexn (N.of_nat z)) as [|y0 ys] eqn:Eh; [simpl in C3; lia|]. rewrite <- Eh in *.
        rewrite C1, C2, HD. destruct (N.ltb_spec 0 (N.of_nat z)); [|lia].
        cbn [length]. unfold max_length.
        destruct (N.ltb_spec 65535 (N.of_nat z + N.of_nat (S (length r)))); [lia|].
        rewrite Nat2N.id. f_equal. symmetry. exact L1.
      * unfold from_str. cbn [app split_first]. rewrite N.eqb_refl. cbn [length].
        destruct (Nat.ltb_spec 5 0); [lia|]. rewrite HD. change (0 <? 0) with false. cbv iota.
        assert (z = 0%nat) as Hz0 by lia. rewrite Hz0 in L1. cbn [repeat app] in L1. f_equal. symmetry. exact L1.
Qed.

Lemma from_str_none_length s b : split_first dollar s = None -> from_str s = Done b -> N.of_nat (length b) <= max_length.
Proof.
  intros H. unfold from_str. destruct s as [|c r]; [intros [= <-]; unfold max_length; simpl; lia|].
  rewrite H. unfold try_from_bytes. destruct (N.leb_spec (N.of_nat (length (c :: r))) max_length); [|discriminate].
  intros [= <-]. assumption.
Qed.

Lemma decode_pairs_len_n n : forall l o, (length l <= n)%nat -> decode_pairs l = Done o -> length l = (2 * length o)%nat.
Proof.
  induction n as [|n IH]; intros l o Hl H.
  - destruct l; [injection H as <-; reflexivity|simpl in Hl; lia].
  - destruct l as [|a [|b r]]; [injection H as <-; reflexivity|discriminate|].
    cbn [decode_pairs] in H. destruct (decode_nibble a); try discriminate. destruct (decode_nibble b); try discriminate.
    destruct (decode_pairs r) as [o'| |] eqn:E; try discriminate. injection H as <-.
    apply IH in E; [|simpl in Hl; lia]. simpl. lia.
Qed.

Lemma decode_hex_len l o : decode_hex l = Done o -> (length l <= 2 * length o)%nat /\ (2 * length o <= length l + 1)%nat.
Proof.
  unfold decode_hex. destruct (Nat.even (length l)) eqn:E.
  - intros H. apply (decode_pairs_len_n (length l)) in H; lia.
  - destruct l as [|a r]; [discriminate|]. destruct (decode_nibble a); try discriminate.
    destruct (decode_pairs r) as [o'| |] eqn:E2; try discriminate. intros [= <-].
    apply (decode_pairs_len_n (length r)) in E2; [|lia]. simpl. lia.
Qed.

(* parsing respects the maximum when the text itself is short enough (two
   digits per byte), whatever the text *)
Lemma from_str_length s b : N.of_nat (length s) <= 2 * max_length -> from_str s = Done b ->
  N.of_nat (length b) <= max_length.
Proof.
  intros Hs. destruct (split_first dollar s) as [[pre rest]|] eqn:E.
  2: { apply from_str_none_length. assumption. }
  unfold from_str. destruct s as [|c r]; [discriminate|]. rewrite E.
  assert (Hlen : (length rest < length (c :: r))%nat).
  { clear -E. remember (c :: r) as s. clear Heqs. revert pre rest E. induction s as [|x s IH]; intros; [discriminate|].
    cbn [split_first] in E. destruct (x =? dollar); [injection E as <- <-; simpl; lia|].
    destruct (split_first dollar s) as [[a b']|]; [|discriminate]. injection E as <- <-.
    specialize (IH _ _ eq_refl). simpl. lia. }
  destruct (5 <? length pre)%nat; [discriminate|].
  destruct (match pre with [] => Done 0 | _ :: _ => match decode_hex pre with Done l => Done (of_be l) | Fail e => Fail e | Panic => Panic end end)
    as [z| |]; try discriminate.
  destruct (decode_hex rest) as [id| |] eqn:Ed; try discriminate.
  apply decode_hex_len in Ed. unfold max_length in *.
  destruct (N.ltb_spec 0 z).
  - destruct (N.ltb_spec 65535 (z + N.of_nat (length id))); [discriminate|]. intros [= <-].
    rewrite app_length, repeat_length. lia.
  - intros [= <-]. lia.
Qed.

Lemma from_str_ones n : from_str (36 :: repeat 49 (2 * n)) = Done (repeat 17 n).
Proof.
  unfold from_str. cbn [split_first]. change (36 =? dollar) with true. cbv iota.
  cbn [length]. change (5 <? 0)%nat with false. cbv iota.
  assert (E : decode_hex (repeat 49 (2 * n)) = Done (repeat 17 n)).
  { unfold decode_hex. rewrite repeat_length, even_double.
    induction n as [|n IH]; [reflexivity|].
    replace (2 * S n)%nat with (S (S (2 * n))) by lia. cbn [repeat decode_pairs].
    change (decode_nibble 49) with (@Done N iderr 1). cbv beta iota. rewrite IH. reflexivity. }
  rewrite E. reflexivity.
Qed.

Lemma from_str_too_long : exists s b, from_str s = Done b /\ 65535 < N.of_nat (length b).
Proof.
  exists (36 :: repeat 49 (2 * N.to_nat 65536)), (repeat 17 (N.to_nat 65536)).
  split; [apply from_str_ones|]. rewrite repeat_length, N2Nat.id. reflexivity.
Qed.

Lemma visit_too_long : exists s b, visit_bytes s = Done b /\ 65535 < N.of_nat (length b).
Proof.
  exists (repeat 1 (N.to_nat 65536)), (repeat 1 (N.to_nat 65536)).
  split; [reflexivity|]. rewrite repeat_length, N2Nat.id. reflexivity.
Qed.
