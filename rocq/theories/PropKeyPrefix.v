(* Property theorems C07 and C08: prefix ranges. *)
From Verif Require Import Base Utf8 KeyPrefix KeyPrefixProofs.
From Coq Require Import ZifyBool.
Local Open Scope N_scope.

Theorem C07_byte_prefix_range_exact : forall p k, bytes_ok p -> bytes_ok k ->
  (in_bounds (fst (bytes_prefix_range p)) (snd (bytes_prefix_range p)) k = true
   <-> exists s, k = p ++ s).
Proof. exact bytes_prefix_exact. Qed.
Example C07_ex : bytes_ok [1; 255] /\ bytes_prefix_range [1; 255] = (Included [1; 255], Excluded [2]) /\
  bytes_prefix_range [255; 255] = (Included [255; 255], Unbounded) /\
  in_bounds (Included [1;255]) (Excluded [2]) [1;255;0] = true.
Proof. split; [|vm_compute; auto]. repeat constructor. Qed.
Print Assumptions C07_byte_prefix_range_exact.

(* strings are code point lists; keys are their UTF-8 bytes *)
Theorem C08_string_prefix_range_exact : forall p s, str_ok p -> str_ok s ->
  (in_bounds (fst (str_prefix_range p)) (snd (str_prefix_range p)) (utf8 s) = true
   <-> exists r, s = p ++ r).
Proof. exact str_prefix_exact. Qed.
Theorem C08_utf8_order_is_code_point_order : forall a b, str_ok a -> str_ok b ->
  lex (utf8 a) (utf8 b) = lex a b.
Proof. exact utf8_lex. Qed.
Theorem C08_string_prefix_is_byte_prefix : forall p s, str_ok p -> str_ok s ->
  ((exists r, s = p ++ r) <-> exists r, utf8 s = utf8 p ++ r).
Proof. exact str_prefix_bytes. Qed.
(* 0xD7FF is followed by the surrogate gap; 0x10FFFF is the last character *)
Example C08_ex : str_okb [97; 0xD7FF; 0x10FFFF] = true /\
  str_prefix_range [97; 0xD7FF; 0x10FFFF] = (Included (utf8 [97; 0xD7FF; 0x10FFFF]), Excluded (utf8 [97; 0xE000])) /\
  str_prefix_range [0x10FFFF] = (Included (utf8 [0x10FFFF]), Unbounded).
Proof. vm_compute. auto. Qed.
(* the public helper of bonsaidb-utils that file listings use: the strings from p up to
   its result are those that begin with p, unless p consists of the last character only
   (then the result is the empty string, and the "range" p..."" is empty) *)
Theorem C08_next_string_sequence : forall p s, str_ok p -> str_ok s ->
  ((exists c, In c p /\ c <> 0x10FFFF) ->
     (lex (utf8 p) (utf8 s) <> Gt /\ lex (utf8 s) (utf8 (next_string_sequence p)) = Lt <-> exists r, s = p ++ r)) /\
  ((forall c, In c p -> c = 0x10FFFF) -> next_string_sequence p = []).
Proof.
  intros p s Hp Hs. split.
  - intros (c & I & NE). apply next_string_sequence_exact; [exact Hp|exact Hs|]. apply in_rev in I. revert I.
    assert (Hr : Forall (fun c => c <= 0x10FFFF) (rev p)).
    { apply Forall_rev. revert Hp. apply Forall_impl. unfold char_ok, char_okb. intros x Hx. lia. }
    revert Hr. induction (rev p) as [|x r IH]; [intros _ []|]. intros Hr I. inversion Hr as [|? ? Hx Hr']; subst. cbn [next_rev].
    destruct (succ_char x) eqn:E; [discriminate|]. destruct I as [->|I]; [|apply IH; assumption].
    exfalso. unfold succ_char in E. destruct (c + 1 =? 0xD800); [discriminate|]. destruct (N.ltb_spec 0x10FFFF (c + 1)); [lia|discriminate].
  - intros A. assert (R : next_rev succ_char (rev p) = None).
    { assert (A' : forall c, In c (rev p) -> c = 0x10FFFF) by (intros c I; apply A, in_rev, I). revert A'.
      induction (rev p) as [|x r IH]; [reflexivity|]. intros A'. cbn [next_rev]. rewrite (A' x (or_introl eq_refl)).
      change (succ_char 0x10FFFF) with (@None N). cbv iota. apply IH. intros c I. apply A'. right. exact I. }
    unfold next_string_sequence. rewrite R. reflexivity.
Qed.
Example C08_next_ex : next_string_sequence [97; 0xD7FF; 0x10FFFF] = [97; 0xE000] /\ next_string_sequence [0x10FFFF; 0x10FFFF] = [] /\
  In 97 ([97; 0xD7FF; 0x10FFFF] : list N) /\ 97 <> 0x10FFFF.
Proof. vm_compute. repeat split; [auto|discriminate]. Qed.
Print Assumptions C08_next_string_sequence.
Print Assumptions C08_string_prefix_range_exact.
Print Assumptions C08_utf8_order_is_code_point_order.
Print Assumptions C08_string_prefix_is_byte_prefix.
