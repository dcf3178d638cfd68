(* Property theorems C11 and C12: document ids. Text is a list of ASCII bytes. *)
From Verif Require Import Base Utf8 Key DocId DocIdProofs.
Local Open Scope N_scope.

(* C11, full claim: forall b, length b <= 65535 -> from_str (display b) = Done b.
   Proved for every id except printable ones containing '$'. *)
Theorem C11_display_parse_roundtrip : forall b,
  bytes_ok b -> N.of_nat (length b) <= 65535 ->
  (printable b = true -> ~ In dollar b) -> from_str (display b) = Done b.
Proof. exact display_roundtrip. Qed.
Example C11_ex :
  display [0; 0x0A; 0xAF; 0xFA] = [49; 36; 97; 97; 102; 102; 97] /\ (* "1$aaffa" *)
  printable [0; 0x0A; 0xAF; 0xFA] = false /\
  from_str [49; 36; 97; 97; 102; 102; 97] = Done [0; 0x0A; 0xAF; 0xFA].
Proof. vm_compute. auto. Qed.
(* an id "a$b" (the string) parses as 10 zero bytes followed by 0x0b *)
Theorem C11_dollar_roundtrip_refuted : exists b b',
  N.of_nat (length b) <= 65535 /\ bytes_ok b /\ from_str (display b) = Done b' /\ b' <> b.
Proof.
  exists [97; 36; 98], [0;0;0;0;0;0;0;0;0;0;11]. split; [vm_compute; discriminate|].
  split; [repeat constructor|]. split; [vm_compute; reflexivity|discriminate].
Qed.
Theorem C11_dollar_unparseable_refuted : exists b,
  N.of_nat (length b) <= 65535 /\ bytes_ok b /\ from_str (display b) = Fail InvalidHex.
Proof.
  exists [36; 120]. split; [vm_compute; discriminate|]. split; [repeat constructor|vm_compute; reflexivity].
Qed.
Print Assumptions C11_display_parse_roundtrip.
Print Assumptions C11_dollar_roundtrip_refuted.
Print Assumptions C11_dollar_unparseable_refuted.

(* The text consists of the characters 32 to 127, and an id that consists of them is
   its own text. *)
Lemma nib_char d : d < 16 -> 32 <= nib d <= 127.
Proof. unfold nib. destruct (N.ltb_spec d 10); lia. Qed.
Lemma hex_fuel_char k : forall n c, In c (hex_fuel k n) -> 32 <= c <= 127.
Proof.
  induction k as [|k IH]; intros n c I; [destruct I|]. cbn [hex_fuel] in I. destruct (N.ltb_spec n 16) as [L|L].
  - destruct I as [<-|[]]. apply nib_char. exact L.
  - apply in_app_or in I. destruct I as [I|[<-|[]]]; [eapply IH, I|]. apply nib_char, N.mod_lt. lia.
Qed.
Theorem C11_text_is_printable : forall b, bytes_ok b ->
  (forall c, In c (display b) -> 32 <= c <= 127) /\
  ((forall c, In c b -> 32 <= c <= 127) -> display b = b).
Proof.
  intros b OK. split.
  - intros c I. unfold display in I. destruct (match utf8_decode b with Some _ => printable b | None => false end) eqn:P.
    + destruct (utf8_decode b); [|discriminate]. unfold printable in P. rewrite forallb_forall in P. specialize (P c I).
      apply andb_true_iff in P. rewrite !N.leb_le in P. exact P.
    + assert (D : 32 <= dollar <= 127) by (unfold dollar; lia).
      assert (OKs : bytes_ok (skipn (leading_zeroes b) b)).
      { unfold bytes_ok in *. rewrite Forall_forall in *. intros x J. apply OK. rewrite <- (firstn_skipn (leading_zeroes b) b). apply in_or_app. right. exact J. }
      destruct (skipn (leading_zeroes b) b) as [|x r] eqn:K.
      * apply in_app_or in I. destruct I as [I|[<-|[]]]; [eapply hex_fuel_char, I|exact D].
      * apply in_app_or in I. destruct I as [I|I]; [destruct (0 <? leading_zeroes b)%nat; [eapply hex_fuel_char, I|destruct I]|].
        apply in_app_or in I. destruct I as [[<-|[]]|I]; [exact D|]. apply in_app_or in I. destruct I as [I|I]; [eapply hex_fuel_char, I|].
        apply in_flat_map in I. destruct I as (y & Iy & I). inversion OKs as [|? ? _ OKr]; subst. unfold bytes_ok in OKr. rewrite Forall_forall in OKr. specialize (OKr y Iy).
        unfold byte_ok in OKr. destruct I as [<-|[<-|[]]]; apply nib_char; [apply N.div_lt_upper_bound; lia|apply N.mod_lt; lia].
  - intros A. unfold display. assert (P : printable b = true).
    { unfold printable. apply forallb_forall. intros c I. specialize (A c I). apply andb_true_iff. rewrite !N.leb_le. exact A. }
    rewrite P. assert (U : utf8_decode b = Some b).
    { assert (H : Forall (fun c => c <= 127) b) by (apply Forall_forall; intros c I; specialize (A c I); lia).
      assert (E : utf8 b = b). { clear -H. induction H as [|c r Hc _ IH]; [reflexivity|]. change (utf8 (c :: r)) with (utf8_char c ++ utf8 r). rewrite IH.
        unfold utf8_char. replace (c <? 0x80) with true by (symmetry; apply N.ltb_lt; lia). reflexivity. }
      rewrite <- E at 1. apply utf8_roundtrip. revert H. apply Forall_impl. intros c L. unfold char_ok, char_okb. replace (c <? 0xD800) with true by (symmetry; apply N.ltb_lt; lia). reflexivity. }
    rewrite U. reflexivity.
Qed.
Example C11_text_ex : display [104; 105] = [104; 105] /\ display [0; 0; 255; 9] = [50; 36; 102; 102; 48; 57] /\ bytes_ok [0; 0; 255; 9].
Proof. split; [reflexivity|]. split; [reflexivity|]. repeat constructor. Qed.
Print Assumptions C11_text_is_printable.

(* C12 *)
Theorem C12_bytes_limit : forall b,
  (try_from_bytes b = Done b /\ N.of_nat (length b) <= 65535) \/
  (try_from_bytes b = Fail TooLong /\ 65535 < N.of_nat (length b)).
Proof.
  intros b. unfold try_from_bytes, max_length.
  destruct (N.leb_spec (N.of_nat (length b)) 65535); auto.
Qed.
(* Parsing text: the limit holds when the text has at most 131070 bytes, or
   contains no '$'. *)
Theorem C12_parse_limit : forall s b,
  N.of_nat (length s) <= 2 * 65535 -> from_str s = Done b -> N.of_nat (length b) <= 65535.
Proof. exact from_str_length. Qed.
Theorem C12_parse_plain_limit : forall s b,
  split_first dollar s = None -> from_str s = Done b -> N.of_nat (length b) <= 65535.
Proof. exact from_str_none_length. Qed.
Example C12_ex : N.of_nat (length [97; 36; 98]) <= 2 * 65535 /\ exists b, from_str [97; 36; 98] = Done b.
Proof. split; [vm_compute; discriminate|]. eexists. vm_compute. reflexivity. Qed.
(* longer text starting with '$' and serde deserialization are not limited *)
Theorem C12_parse_limit_refuted : exists s b, from_str s = Done b /\ 65535 < N.of_nat (length b).
Proof. exact from_str_too_long. Qed.
Theorem C12_deserialize_limit_refuted : exists s b, visit_bytes s = Done b /\ 65535 < N.of_nat (length b).
Proof. exact visit_too_long. Qed.
Print Assumptions C12_bytes_limit.
Print Assumptions C12_parse_limit.
Print Assumptions C12_parse_plain_limit.
Print Assumptions C12_parse_limit_refuted.
Print Assumptions C12_deserialize_limit_refuted.
