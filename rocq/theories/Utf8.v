(* UTF-8, as used by Rust's str/String: str::as_bytes, String::from_utf8,
   char::encode_utf8. A Rust `String` is modelled as its list of code points;
   the standard library is outside /repo, so this file is part of the trusted
   base (it is the definition in RFC 3629). *)
From Verif Require Import Base.
From Coq Require Import ZifyBool ZifyNat ZifyN.
Ltac Zify.zify_post_hook ::= Z.div_mod_to_equations.
Local Open Scope N_scope.

(* char: a Unicode scalar value *)
Definition char_okb (c : N) : bool := (c <? 0xD800) || ((0xE000 <=? c) && (c <=? 0x10FFFF)).
Definition char_ok (c : N) : Prop := char_okb c = true.
Definition str := list N.
Definition str_ok (s : str) : Prop := Forall char_ok s.
Definition str_okb (s : str) : bool := forallb char_okb s.

(* char::encode_utf8 *)
Definition utf8_char (c : N) : bytes :=
  if c <? 0x80 then [c]
  else if c <? 0x800 then [0xC0 + c / 64; 0x80 + c mod 64]
  else if c <? 0x10000 then [0xE0 + c / 4096; 0x80 + (c / 64) mod 64; 0x80 + c mod 64]
  else [0xF0 + c / 262144; 0x80 + (c / 4096) mod 64; 0x80 + (c / 64) mod 64; 0x80 + c mod 64].

(* str::as_bytes *)
Definition utf8 (s : str) : bytes := flat_map utf8_char s.

Definition cont (b : N) : bool := (0x80 <=? b) && (b <=? 0xBF).

(* String::from_utf8: strict decoding (no overlong forms, no surrogates) *)
Fixpoint utf8_decode (b : bytes) : option str :=
  match b with
  | [] => Some []
  | b0 :: r0 =>
      if b0 <? 0x80 then option_map (cons b0) (utf8_decode r0)
      else match r0 with
      | [] => None
      | b1 :: r1 =>
          if (0xC2 <=? b0) && (b0 <=? 0xDF) && cont b1 then
            option_map (cons ((b0 - 0xC0) * 64 + (b1 - 0x80))) (utf8_decode r1)
          else match r1 with
          | [] => None
          | b2 :: r2 =>
              if (0xE0 <=? b0) && (b0 <=? 0xEF) && cont b1 && cont b2 then
                let c := (b0 - 0xE0) * 4096 + (b1 - 0x80) * 64 + (b2 - 0x80) in
                if (0x800 <=? c) && char_okb c then option_map (cons c) (utf8_decode r2) else None
              else match r2 with
              | [] => None
              | b3 :: r3 =>
                  if (0xF0 <=? b0) && (b0 <=? 0xF4) && cont b1 && cont b2 && cont b3 then
                    let c := (b0 - 0xF0) * 262144 + (b1 - 0x80) * 4096 + (b2 - 0x80) * 64 + (b3 - 0x80) in
                    if (0x10000 <=? c) && char_okb c then option_map (cons c) (utf8_decode r3) else None
                  else None
              end
          end
      end
  end.

(* ---------- facts ---------- *)
Arguments N.div : simpl never.
Arguments N.modulo : simpl never.
Arguments N.add : simpl never.
Arguments N.sub : simpl never.
Arguments N.mul : simpl never.
Arguments N.ltb : simpl never.
Arguments N.leb : simpl never.

Lemma str_okb_spec s : str_okb s = true <-> str_ok s.
Proof. unfold str_okb, str_ok. rewrite forallb_forall, Forall_forall. reflexivity. Qed.

Lemma char_ok_iff c : char_ok c <-> c < 0xD800 \/ (0xE000 <= c <= 0x10FFFF).
Proof. unfold char_ok, char_okb. lia. Qed.

Lemma utf8_char_cases c (P : bytes -> Prop) :
  (c < 0x80 -> P [c]) ->
  (0x80 <= c < 0x800 -> P [0xC0 + c / 64; 0x80 + c mod 64]) ->
  (0x800 <= c < 0x10000 -> P [0xE0 + c / 4096; 0x80 + (c / 64) mod 64; 0x80 + c mod 64]) ->
  (0x10000 <= c -> P [0xF0 + c / 262144; 0x80 + (c / 4096) mod 64; 0x80 + (c / 64) mod 64; 0x80 + c mod 64]) ->
  P (utf8_char c).
Proof.
  intros H1 H2 H3 H4. unfold utf8_char.
  destruct (N.ltb_spec c 0x80); [apply H1; lia|].
  destruct (N.ltb_spec c 0x800); [apply H2; lia|].
  destruct (N.ltb_spec c 0x10000); [apply H3; lia|]. apply H4; lia.
Qed.

Lemma utf8_char_nonempty c : utf8_char c <> [].
Proof. apply utf8_char_cases; discriminate. Qed.

Lemma utf8_char_bytes c : char_ok c -> bytes_ok (utf8_char c).
Proof.
  intros H. apply char_ok_iff in H.
  apply (utf8_char_cases c (fun l => bytes_ok l)); intros Hc; unfold bytes_ok, byte_ok;
    repeat constructor; lia.
Qed.

Lemma utf8_bytes s : str_ok s -> bytes_ok (utf8 s).
Proof.
  induction 1 as [|c s Hc _ IH]; [constructor|].
  simpl. apply Forall_app. split; [apply utf8_char_bytes; assumption|exact IH].
Qed.

Lemma utf8_app a b : utf8 (a ++ b) = utf8 a ++ utf8 b.
Proof. apply flat_map_app. Qed.

(* split all comparisons in the goal's test expression by lia *)
Ltac testb b v := replace b with v by (unfold cont, char_okb; lia).

Lemma utf8_decode_char c rest :
  char_ok c -> utf8_decode (utf8_char c ++ rest) = option_map (cons c) (utf8_decode rest).
Proof.
  intros H. apply char_ok_iff in H.
  apply (utf8_char_cases c (fun l => utf8_decode (l ++ rest) = option_map (cons c) (utf8_decode rest)));
    intros Hc; cbn [app utf8_decode].
  - testb (c <? 0x80) true. reflexivity.
  - match goal with |- context [if ?b then _ else _] => testb b false end.
    match goal with |- context [if ?b then _ else _] => testb b true end.
    f_equal. f_equal. lia.
  - match goal with |- context [if ?b then _ else _] => testb b false end.
    match goal with |- context [if ?b then _ else _] => testb b false end.
    match goal with |- context [if ?b then _ else _] => testb b true end.
    cbv zeta.
    match goal with |- context [char_okb ?x] => replace x with c by lia end.
    match goal with |- context [if ?b then _ else _] => testb b true end.
    reflexivity.
  - match goal with |- context [if ?b then _ else _] => testb b false end.
    match goal with |- context [if ?b then _ else _] => testb b false end.
    match goal with |- context [if ?b then _ else _] => testb b false end.
    match goal with |- context [if ?b then _ else _] => testb b true end.
    cbv zeta.
    match goal with |- context [char_okb ?x] => replace x with c by lia end.
    match goal with |- context [if ?b then _ else _] => testb b true end.
    reflexivity.
Qed.

Lemma utf8_roundtrip s : str_ok s -> utf8_decode (utf8 s) = Some s.
Proof.
  induction 1 as [|c s Hc _ IH]; [reflexivity|].
  cbn [utf8 flat_map]. rewrite utf8_decode_char by assumption.
  change (flat_map utf8_char s) with (utf8 s). rewrite IH. reflexivity.
Qed.

(* decoding only accepts the canonical form *)
Lemma utf8_decode_sound_len n : forall b s, (length b <= n)%nat -> bytes_ok b ->
  utf8_decode b = Some s -> str_ok s /\ utf8 s = b.
Proof.
  induction n as [|n IH]; intros b s Hl Hb Hd.
  - destruct b; [|simpl in Hl; lia]. injection Hd as <-. split; [constructor|reflexivity].
  - destruct b as [|b0 r0]; [injection Hd as <-; split; [constructor|reflexivity]|].
    cbn [utf8_decode] in Hd. simpl in Hl.
    inversion Hb as [|? ? Hb0 Hr0]; subst. unfold byte_ok in Hb0.
    destruct (N.ltb_spec b0 0x80) as [H0|H0].
    + destruct (utf8_decode r0) as [s'|] eqn:E; [|discriminate]. injection Hd as <-.
      apply IH in E; [|lia|assumption]. destruct E as [Hs E]. split.
      * constructor; [|exact Hs]. apply char_ok_iff; lia.
      * cbn [utf8 flat_map]. fold (utf8 s'). rewrite E. unfold utf8_char.
        testb (b0 <? 0x80) true. reflexivity.
    + destruct r0 as [|b1 r1]; [discriminate|].
      inversion Hr0 as [|? ? Hb1 Hr1]; subst. unfold byte_ok in Hb1.
      match type of Hd with (if ?b then _ else _) = _ => destruct b eqn:T1 end.
      * destruct (utf8_decode r1) as [s'|] eqn:E; [|discriminate]. injection Hd as <-.
        unfold cont in T1.
        apply IH in E; [|simpl in Hl; lia|assumption]. destruct E as [Hs E]. split.
        -- constructor; [|exact Hs]. apply char_ok_iff; lia.
        -- cbn [utf8 flat_map]. fold (utf8 s'). rewrite E. unfold utf8_char.
           match goal with |- context [if ?b then _ else _] => testb b false end.
           match goal with |- context [if ?b then _ else _] => testb b true end.
           cbn [app]. f_equal; [lia|]. f_equal. lia.
      * destruct r1 as [|b2 r2]; [discriminate|].
        inversion Hr1 as [|? ? Hb2 Hr2]; subst. unfold byte_ok in Hb2.
        match type of Hd with (if ?b then _ else _) = _ => destruct b eqn:T2 end.
        -- cbv zeta in Hd.
           match type of Hd with (if ?b then _ else _) = _ => destruct b eqn:T3 end; [|discriminate].
           destruct (utf8_decode r2) as [s'|] eqn:E; [|discriminate]. injection Hd as <-.
           unfold cont in T2.
           apply IH in E; [|simpl in Hl; lia|assumption]. destruct E as [Hs E].
           apply andb_prop in T3. destruct T3 as [T3 T4]. split.
           ++ constructor; [|exact Hs]. exact T4.
           ++ apply char_ok_iff in T4.
              cbn [utf8 flat_map]. fold (utf8 s'). rewrite E. unfold utf8_char.
              match goal with |- context [if ?b then _ else _] => testb b false end.
              match goal with |- context [if ?b then _ else _] => testb b false end.
              match goal with |- context [if ?b then _ else _] => testb b true end.
              cbn [app]. f_equal; [lia|]. f_equal; [lia|]. f_equal. lia.
        -- destruct r2 as [|b3 r3]; [discriminate|].
           inversion Hr2 as [|? ? Hb3 Hr3]; subst. unfold byte_ok in Hb3.
           match type of Hd with (if ?b then _ else _) = _ => destruct b eqn:T3 end; [|discriminate].
           cbv zeta in Hd.
           match type of Hd with (if ?b then _ else _) = _ => destruct b eqn:T5 end; [|discriminate].
           destruct (utf8_decode r3) as [s'|] eqn:E; [|discriminate]. injection Hd as <-.
           unfold cont in T3.
           apply IH in E; [|simpl in Hl; lia|assumption]. destruct E as [Hs E].
           apply andb_prop in T5. destruct T5 as [T5 T6]. split.
           ++ constructor; [|exact Hs]. exact T6.
           ++ apply char_ok_iff in T6.
              cbn [utf8 flat_map]. fold (utf8 s'). rewrite E. unfold utf8_char.
              match goal with |- context [if ?b then _ else _] => testb b false end.
              match goal with |- context [if ?b then _ else _] => testb b false end.
              match goal with |- context [if ?b then _ else _] => testb b false end.
              cbn [app]. f_equal; [lia|]. f_equal; [lia|]. f_equal; [lia|]. f_equal. lia.
Qed.

Lemma utf8_decode_sound b s : bytes_ok b -> utf8_decode b = Some s -> str_ok s /\ utf8 s = b.
Proof. intros Hb. apply (utf8_decode_sound_len (length b)); [lia|assumption]. Qed.

Lemma utf8_inj a b : str_ok a -> str_ok b -> utf8 a = utf8 b -> a = b.
Proof.
  intros Ha Hb E. assert (H := utf8_roundtrip a Ha). rewrite E, utf8_roundtrip in H by assumption.
  congruence.
Qed.

(* Byte order of UTF-8 is code point order. *)
Lemma compare_lt x y : x < y -> (x ?= y) = Lt. Proof. apply N.compare_lt_iff. Qed.
Lemma compare_gt x y : y < x -> (x ?= y) = Gt. Proof. apply N.compare_gt_iff. Qed.

Lemma lex_head_lt x y a b : x < y -> lex (x :: a) (y :: b) = Lt.
Proof. intros H. cbn [lex]. rewrite compare_lt by assumption. reflexivity. Qed.
Lemma lex_head_eq x y a b : x = y -> lex (x :: a) (y :: b) = lex a b.
Proof. intros ->. cbn [lex]. rewrite N.compare_refl. reflexivity. Qed.

Lemma utf8_char_lt c d x y :
  char_ok c -> char_ok d -> c < d -> lex (utf8_char c ++ x) (utf8_char d ++ y) = Lt.
Proof.
  intros Hc Hd H. apply char_ok_iff in Hc, Hd. unfold utf8_char.
  destruct (N.ltb_spec c 0x80); [|destruct (N.ltb_spec c 0x800); [|destruct (N.ltb_spec c 0x10000)]];
  (destruct (N.ltb_spec d 0x80); [try lia|destruct (N.ltb_spec d 0x800); [try lia|destruct (N.ltb_spec d 0x10000); try lia]]);
  cbn [app]; try (apply lex_head_lt; lia).
  - destruct (N.eq_dec (c / 64) (d / 64)); [rewrite lex_head_eq by lia; apply lex_head_lt; lia | apply lex_head_lt; lia].
  - destruct (N.eq_dec (c / 4096) (d / 4096)); [rewrite lex_head_eq by lia | apply lex_head_lt; lia].
    destruct (N.eq_dec ((c / 64) mod 64) ((d / 64) mod 64)); [rewrite lex_head_eq by lia|]; apply lex_head_lt; lia.
  - destruct (N.eq_dec (c / 262144) (d / 262144)); [rewrite lex_head_eq by lia | apply lex_head_lt; lia].
    destruct (N.eq_dec ((c / 4096) mod 64) ((d / 4096) mod 64)); [rewrite lex_head_eq by lia| apply lex_head_lt; lia].
    destruct (N.eq_dec ((c / 64) mod 64) ((d / 64) mod 64)); [rewrite lex_head_eq by lia|]; apply lex_head_lt; lia.
Qed.

Lemma utf8_char_lex c d x y :
  char_ok c -> char_ok d ->
  lex (utf8_char c ++ x) (utf8_char d ++ y) = match c ?= d with Eq => lex x y | r => r end.
Proof.
  intros Hc Hd. destruct (N.compare_spec c d) as [->|H|H].
  - apply lex_app_same.
  - apply utf8_char_lt; assumption.
  - apply lex_gt_lt. apply utf8_char_lt; assumption.
Qed.

Lemma utf8_lex a b : str_ok a -> str_ok b -> lex (utf8 a) (utf8 b) = lex a b.
Proof.
  intros Ha. revert b. induction Ha as [|c a Hc Ha IH]; intros b Hb.
  - destruct b as [|d b]; [reflexivity|]. cbn [utf8 flat_map].
    destruct (utf8_char d) eqn:E; [exfalso; exact (utf8_char_nonempty d E)|reflexivity].
  - destruct Hb as [|d b Hd Hb].
    + cbn [utf8 flat_map].
      destruct (utf8_char c) eqn:E; [exfalso; exact (utf8_char_nonempty c E)|reflexivity].
    + cbn [utf8 flat_map]. rewrite utf8_char_lex by assumption. fold (utf8 a) (utf8 b).
      cbn [lex]. destruct (c ?= d); [apply IH; assumption|reflexivity|reflexivity].
Qed.

Lemma utf8_char_nul c : char_ok c -> (In 0 (utf8_char c) <-> c = 0).
Proof.
  intros H. apply char_ok_iff in H.
  apply (utf8_char_cases c (fun l => In 0 l <-> c = 0)); intros Hc; simpl; lia.
Qed.

Lemma utf8_nul s : str_ok s -> (In 0 (utf8 s) <-> In 0 s).
Proof.
  induction 1 as [|c s Hc _ IH]; [reflexivity|].
  cbn [utf8 flat_map]. rewrite in_app_iff. fold (utf8 s). rewrite IH, utf8_char_nul by assumption.
  simpl. intuition.
Qed.

(* starts_with on strings is starts_with on bytes *)
Lemma utf8_starts_with p s : str_ok p -> str_ok s ->
  starts_with (utf8 p) (utf8 s) = starts_with p s.
Proof.
  intros Hp Hs. apply eq_true_iff_eq. rewrite !starts_with_spec. split.
  - revert s Hs. induction Hp as [|c p Hc Hp IH]; intros s Hs [r Hr]; [exists s; reflexivity|].
    destruct Hs as [|d s Hd Hs].
    + exfalso. cbn [utf8 flat_map] in Hr. symmetry in Hr. apply app_eq_nil in Hr. destruct Hr as [Hr _].
      apply app_eq_nil in Hr. destruct Hr as [Hr _]. exact (utf8_char_nonempty c Hr).
    + assert (c = d) as <-.
      { assert (E : lex (utf8_char d ++ utf8 s) (utf8_char c ++ (utf8 p ++ r)) = Eq).
        { apply lex_eq. cbn [utf8 flat_map] in Hr. rewrite <- app_assoc in Hr. exact Hr. }
        rewrite utf8_char_lex in E by assumption.
        destruct (N.compare_spec d c); [congruence|discriminate|discriminate]. }
      cbn [utf8 flat_map] in Hr. rewrite <- app_assoc in Hr. apply app_inv_head in Hr.
      destruct (IH s Hs) as [r' Hr']; [exists r; exact Hr|].
      exists r'. rewrite Hr'. reflexivity.
  - intros [r ->]. exists (utf8 r). apply utf8_app.
Qed.
