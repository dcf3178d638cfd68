From Verif Require Import Base Utf8 KeyPrefix.
From Coq Require Import ZifyBool ZifyNat ZifyN.
Local Open Scope N_scope.

Section Alphabet.
  Variable ok : N -> Prop.
  Variable succ : N -> option N.
  Hypothesis succ_some : forall c d, ok c -> succ c = Some d -> ok d /\ c < d /\ forall x, ok x -> c < x -> d <= x.
  Hypothesis succ_none : forall c, ok c -> succ c = None -> forall x, ok x -> x <= c.

  Lemma next_rev_spec r : Forall ok r ->
    match next_rev succ r with
    | Some e => exists q b c tl, rev r = q ++ b :: tl /\ e = q ++ [c] /\ succ b = Some c /\
                  Forall (fun x => succ x = None) tl
    | None => Forall (fun x => succ x = None) r
    end.
  Proof.
    induction 1 as [|b r Hb Hr IH]; cbn [next_rev]; [constructor|].
    destruct (succ b) as [c|] eqn:E.
    - exists (rev r), b, c, []. cbn [rev]. auto.
    - destruct (next_rev succ r) as [e|].
      + destruct IH as (q & b' & c' & tl & H1 & H2 & H3 & H4).
        exists q, b', c', (tl ++ [b]). cbn [rev]. rewrite H1, <- app_assoc. cbn [app].
        repeat split; auto. apply Forall_app. auto.
      + constructor; assumption.
  Qed.

  (* a maximal tail is a lower bound only of its extensions *)
  Lemma max_tail tl : forall k, Forall ok tl -> Forall (fun x => succ x = None) tl -> Forall ok k ->
    lex tl k <> Gt -> starts_with tl k = true.
  Proof.
    induction tl as [|x tl IH]; intros [|y k] Hok Hmax Hk H; try reflexivity.
    - exfalso. apply H. reflexivity.
    - inversion Hok; inversion Hmax; inversion Hk; subst. cbn [lex] in H. cbn [starts_with].
      assert (y <= x) by (eapply succ_none; eauto).
      destruct (N.compare_spec x y) as [->|L|L]; [|lia|congruence].
      rewrite N.eqb_refl. cbn [andb]. apply IH; auto.
  Qed.

  Lemma range_spec p k : Forall ok p -> Forall ok k ->
    (lex p k <> Gt /\ match next_rev succ (rev p) with Some e => lex k e = Lt | None => True end)
    <-> starts_with p k = true.
  Proof.
    intros Hp Hk. assert (S := next_rev_spec (rev p) ltac:(apply Forall_rev; assumption)).
    rewrite rev_involutive in S. split.
    - destruct (next_rev succ (rev p)) as [e|].
      + destruct S as (q & b & c & tl & -> & -> & Hs & Hm). intros [H1 H2].
        apply Forall_app in Hp. destruct Hp as [Hq Hp]. inversion Hp as [|? ? Hb Htl]; subst.
        revert k Hk H1 H2. induction q as [|x q IH]; intros k Hk H1 H2; cbn [app] in *.
        * destruct k as [|y k]; [exfalso; apply H1; reflexivity|].
          inversion Hk as [|? ? Hy Hk']; subst. cbn [lex] in H1, H2. cbn [starts_with].
          destruct (succ_some b c Hb Hs) as (Hc & Hlt & Hmin).
          destruct (N.compare_spec b y) as [->|L|L]; [|exfalso|congruence].
          -- rewrite N.eqb_refl. cbn [andb]. apply max_tail; auto.
          -- specialize (Hmin y Hy L).
             destruct (N.compare_spec y c) as [->|L2|L2]; [|lia|discriminate].
             destruct k; discriminate.
        * destruct k as [|y k]; [exfalso; apply H1; reflexivity|].
          inversion Hk as [|? ? Hy Hk']; inversion Hq; subst. cbn [lex] in H1, H2. cbn [starts_with].
          destruct (N.compare_spec x y) as [->|L|L]; [|exfalso|congruence].
          -- rewrite N.compare_refl in H2. rewrite N.eqb_refl. cbn [andb]. apply IH; auto.
          -- apply N.compare_gt_iff in L. rewrite L in H2. discriminate.
      + intros [H1 _]. apply max_tail; auto. rewrite <- (rev_involutive p). apply Forall_rev. exact S.
    - intros H. apply starts_with_spec in H. destruct H as [s ->]. split.
      + rewrite <- (app_nil_r p) at 1. rewrite lex_app_same. apply lex_nil_l.
      + destruct (next_rev succ (rev p)) as [e|]; [|exact I].
        destruct S as (q & b & c & tl & -> & -> & Hs & Hm).
        rewrite <- app_assoc, lex_app_same. cbn [app].
        apply Forall_app in Hp. destruct Hp as [_ Hp]. inversion Hp; subst.
        apply lex_head_lt. eapply succ_some; eauto.
  Qed.
  Lemma next_rev_ok r e : Forall ok r -> next_rev succ r = Some e -> Forall ok e.
  Proof.
    intros H E. assert (S := next_rev_spec r H). rewrite E in S.
    destruct S as (q & b & c & tl & H1 & -> & Hs & _).
    assert (Hr : Forall ok (rev r)) by (apply Forall_rev; assumption). rewrite H1 in Hr.
    apply Forall_app in Hr. destruct Hr as [Hq Hb]. inversion Hb; subst.
    apply Forall_app. split; [assumption|]. constructor; [|constructor]. eapply succ_some; eauto.
  Qed.
End Alphabet.

Lemma succ_byte_some c d : byte_ok c -> succ_byte c = Some d ->
  byte_ok d /\ c < d /\ forall x, byte_ok x -> c < x -> d <= x.
Proof.
  unfold succ_byte, byte_ok. destruct (N.ltb_spec (c + 1) 256); [|discriminate].
  intros _ [= <-]. repeat split; lia.
Qed.
Lemma succ_byte_none c : byte_ok c -> succ_byte c = None -> forall x, byte_ok x -> x <= c.
Proof. unfold succ_byte, byte_ok. destruct (N.ltb_spec (c + 1) 256); [discriminate|]. intros. lia. Qed.

Lemma succ_char_some c d : char_ok c -> succ_char c = Some d ->
  char_ok d /\ c < d /\ forall x, char_ok x -> c < x -> d <= x.
Proof.
  unfold succ_char. intros Hc. apply char_ok_iff in Hc.
  destruct (N.eqb_spec (c + 1) 0xD800).
  - intros [= <-]. repeat split; try lia. intros x Hx. apply char_ok_iff in Hx. lia.
  - destruct (N.ltb_spec 0x10FFFF (c + 1)); [discriminate|]. intros [= <-].
    repeat split; try lia. apply char_ok_iff. lia.
Qed.
Lemma succ_char_none c : char_ok c -> succ_char c = None -> forall x, char_ok x -> x <= c.
Proof.
  unfold succ_char. intros _. destruct (N.eqb_spec (c + 1) 0xD800); [discriminate|].
  destruct (N.ltb_spec 0x10FFFF (c + 1)); [|discriminate]. intros _ x Hx. apply char_ok_iff in Hx. lia.
Qed.

Lemma lex_leb_spec a b : lex_leb a b = true <-> lex a b <> Gt.
Proof. unfold lex_leb. destruct (lex a b); split; congruence. Qed.
Lemma lex_ltb_spec a b : lex_ltb a b = true <-> lex a b = Lt.
Proof. unfold lex_ltb. destruct (lex a b); split; congruence. Qed.

Lemma bytes_prefix_exact p k : bytes_ok p -> bytes_ok k ->
  (in_bounds (fst (bytes_prefix_range p)) (snd (bytes_prefix_range p)) k = true <-> exists s, k = p ++ s).
Proof.
  intros Hp Hk. rewrite <- starts_with_spec.
  rewrite <- (range_spec byte_ok succ_byte succ_byte_some succ_byte_none p k Hp Hk).
  unfold bytes_prefix_range, in_bounds, next_byte_sequence. cbn [fst snd].
  destruct (next_rev succ_byte (rev p)); rewrite andb_true_iff, lex_leb_spec, ?lex_ltb_spec; intuition.
Qed.

Lemma str_prefix_exact p s : str_ok p -> str_ok s ->
  (in_bounds (fst (str_prefix_range p)) (snd (str_prefix_range p)) (utf8 s) = true <-> exists r, s = p ++ r).
Proof.
  intros Hp Hk. rewrite <- starts_with_spec.
  rewrite <- (range_spec char_ok succ_char succ_char_some succ_char_none p s Hp Hk).
  unfold str_prefix_range, in_bounds. cbn [fst snd].
  destruct (next_rev succ_char (rev p)) as [e|] eqn:E; rewrite andb_true_iff, lex_leb_spec, ?lex_ltb_spec.
  - assert (He : str_ok e).
    { eapply next_rev_ok with (ok := char_ok); [exact succ_char_some| |exact E].
      apply Forall_rev. exact Hp. }
    rewrite !utf8_lex by assumption. reflexivity.
  - rewrite utf8_lex by assumption. intuition.
Qed.

(* byte prefix and string prefix agree, so the range is also exact on bytes *)
Lemma str_prefix_bytes p s : str_ok p -> str_ok s ->
  ((exists r, s = p ++ r) <-> exists r, utf8 s = utf8 p ++ r).
Proof. intros Hp Hs. rewrite <- !starts_with_spec. rewrite utf8_starts_with by assumption. reflexivity. Qed.

Lemma next_string_sequence_exact p s : str_ok p -> str_ok s -> next_rev succ_char (rev p) <> None ->
  (lex (utf8 p) (utf8 s) <> Gt /\ lex (utf8 s) (utf8 (next_string_sequence p)) = Lt <-> exists r, s = p ++ r).
Proof.
  intros Hp Hk Hn. rewrite <- starts_with_spec.
  rewrite <- (range_spec char_ok succ_char succ_char_some succ_char_none p s Hp Hk).
  unfold next_string_sequence. destruct (next_rev succ_char (rev p)) as [e|] eqn:E; [|congruence].
  assert (He : str_ok e).
  { eapply next_rev_ok with (ok := char_ok); [exact succ_char_some| |exact E]. apply Forall_rev. exact Hp. }
  rewrite !utf8_lex by assumption. reflexivity.
Qed.
