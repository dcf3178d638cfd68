(* Proofs about VarKey.v, and a variable-length format that meets the contract. *)
From Verif Require Import Base Utf8 Key KeySpec KeyProofs KeyOrder Time TimeProofs VarKey.
From Coq Require Import ZifyBool ZifyNat ZifyN Lia Arith.
Local Open Scope Z_scope.

(* ---------- the contract ---------- *)
Lemma lawful_prefix V lo hi tlo thi y z a s : lawful V lo hi tlo thi -> lo <= y <= hi -> lo <= z <= hi ->
  venc V y = Some (a ++ s) -> venc V z = Some a -> s = [].
Proof.
  intros (_ & D & _ & _) Hy Hz Ey Ez.
  assert (X := D y (a ++ s) [] Hy Ey). rewrite app_nil_r in X. rewrite (D z a s Hz Ez) in X. congruence.
Qed.

Lemma lawful_dsafe V lo hi tlo thi y z a b : lawful V lo hi tlo thi -> lo <= y <= hi -> lo <= z <= hi ->
  venc V y = Some a -> venc V z = Some b -> dsafe a b.
Proof.
  intros L Hy Hz Ea Eb. split; intros s ->.
  - discriminate (lawful_prefix V lo hi tlo thi y z b (0%N :: s) L Hy Hz Ea Eb).
  - discriminate (lawful_prefix V lo hi tlo thi z y a (0%N :: s) L Hz Hy Eb Ea).
Qed.

Lemma num_roundtrip V lo hi tlo thi z : lawful V lo hi tlo thi -> lo <= z <= hi ->
  exists b, venc V z = Some b /\ forall rest, vdec V (b ++ rest) = Some (z, rest).
Proof.
  intros (E & D & _ & _) H. destruct (E z H) as [b Hb]. exists b. split; [exact Hb|].
  intros rest. apply D; assumption.
Qed.

(* ---------- durations ---------- *)
Lemma merged_order a b : dur_ok a -> dur_ok b ->
  Z.compare (as_secs a * 2 ^ 30 + subsec_nanos a) (as_secs b * 2 ^ 30 + subsec_nanos b) = Z.compare a b.
Proof.
  intros Ha Hb. unfold as_secs, subsec_nanos, dur_ok in *. assert (Hs : sec = 1000000000) by reflexivity.
  assert (Xa := Z.div_mod a sec ltac:(lia)). assert (Xb := Z.div_mod b sec ltac:(lia)).
  assert (Ya := Z.mod_pos_bound a sec ltac:(lia)). assert (Yb := Z.mod_pos_bound b sec ltac:(lia)).
  change (2 ^ 30) with 1073741824. rewrite Hs in *. clear Hs.
  destruct (Z.compare_spec a b) as [->|L|L].
  - apply Z.compare_refl.
  - apply Z.compare_lt_iff. nia.
  - apply Z.compare_gt_iff. nia.
Qed.

Lemma merged_bound d : dur_ok d -> 0 <= as_secs d * 2 ^ 30 + subsec_nanos d <= 2 ^ 124 - 1 /\
  (as_secs d * 2 ^ 30 + subsec_nanos d) / 2 ^ 30 = as_secs d /\
  (as_secs d * 2 ^ 30 + subsec_nanos d) mod 2 ^ 30 = subsec_nanos d.
Proof.
  intros [H0 H1]. unfold as_secs, subsec_nanos.
  assert (Y := Z.mod_pos_bound d sec ltac:(reflexivity)).
  assert (S0 : 0 <= d / sec <= 2 ^ 64 - 1).
  { split; [apply Z.div_pos; [lia|reflexivity]|]. unfold dur_max in H1.
    assert (d / sec < 2 ^ 64) by (apply Z.div_lt_upper_bound; [reflexivity|lia]). lia. }
  assert (Hs : sec < 2 ^ 30) by reflexivity.
  repeat apply conj.
  - lia.
  - change (2 ^ 124) with (2 ^ 64 * 2 ^ 60). change (2 ^ 64) with 18446744073709551616 in *.
    change (2 ^ 60) with 1152921504606846976. change (2 ^ 30) with 1073741824 in *. lia.
  - rewrite Z.add_comm, Z.div_add by lia. rewrite Z.div_small by lia. lia.
  - rewrite Z.add_comm, Z_mod_plus_full. apply Z.mod_small. lia.
Qed.

Lemma dur_decode_merged V b rest d : dur_ok d ->
  vdec V b = Some (as_secs d * 2 ^ 30 + subsec_nanos d, rest) -> dur_decode V b = Done d.
Proof.
  intros H E. unfold dur_decode. rewrite E. destruct (merged_bound d H) as (_ & -> & ->).
  assert (Q : as_secs d * sec + subsec_nanos d = d).
  { unfold as_secs, subsec_nanos. rewrite (Z.mul_comm _ sec). symmetry. apply Z.div_mod. discriminate. }
  cbv zeta. rewrite Q. destruct H as [H0 H1].
  destruct (Z.ltb_spec u64_max (as_secs d)) as [X|X].
  - exfalso. unfold u64_max, as_secs, dur_max in *.
    assert (d / sec < 2 ^ 64) by (apply Z.div_lt_upper_bound; [reflexivity|lia]). lia.
  - destruct (Z.ltb_spec dur_max d); [lia|reflexivity].
Qed.

(* ---------- enums ---------- *)
Lemma dec_field_swap d d' h len all st v v' st' :
  dec_field d h len all st = Done (v, st') ->
  (forall x, d x = Done v -> d' x = Done v') ->
  dec_field d' h len all st = Done (v', st').
Proof.
  intros H K. unfold dec_field in *. destruct st as [off en].
  destruct (match len with Some n => _ | None => _ end) as [[n en']| |]; try discriminate.
  destruct (_ <=? _)%N; [discriminate|]. destruct (_ <=? _)%N; [|discriminate].
  destruct (slice all off _) as [s|]; [|discriminate].
  destruct (match len with Some _ => Done s | None => _ end) as [s'| |]; try discriminate.
  destruct (d s') as [w| |] eqn:E; try discriminate. injection H as -> <-.
  rewrite (K s' E). reflexivity.
Qed.

Lemma enum_enc_fields h b ts vs e :
  match push_field h None b ([], []) with
  | Done st => finish_outcome (enc_fields encode h ts vs st)
  | Fail x => Fail x | Panic => Panic
  end = Done e ->
  finish_outcome (enc_fields encode h (TBytes :: ts) (VBytes b :: vs) ([], [])) = Done e.
Proof. intros H. cbn [enc_fields encode klen]. destruct (push_field h None b ([], [])); exact H || discriminate H. Qed.

Lemma enum_roundtrip V lo hi tlo thi h vars d vs e : lawful V lo hi tlo thi -> lo <= d <= hi ->
  enum_encode V h vars d vs = Done e ->
  match find_disc d vars with
  | Some ts => all2 _ _ typed ts vs = true /\ forallb (fun t => exact t && no_sized_option t) ts = true
  | None => False
  end ->
  (N.of_nat (length e) < 2 ^ 63)%N ->
  enum_decode V h vars e = Done (d, vs).
Proof.
  intros L Hd He HT Hl. unfold enum_encode in He. unfold enum_decode.
  destruct (find_disc d vars) as [ts|] eqn:Ef; [|contradiction]. destruct HT as [HT HN].
  destruct (num_roundtrip V lo hi tlo thi d L Hd) as (b & Eb & Db). rewrite Eb in He.
  destruct (unit_only vars) eqn:U.
  - injection He as <-. specialize (Db []). rewrite app_nil_r in Db. rewrite Db, Ef.
    assert (ts = []) as ->.
    { unfold unit_only in U. clear - Ef U. induction vars as [|[d' t] r IH]; [discriminate|].
      cbn [find_disc forallb snd] in *. apply andb_prop in U. destruct U as [U1 U2].
      destruct (d =? d'); [injection Ef as ->; destruct ts; [reflexivity|discriminate]|auto]. }
    destruct vs; [reflexivity|discriminate].
  - apply enum_enc_fields in He.
    assert (R := composite_roundtrip h (TBytes :: ts) (VBytes b :: vs) e VTup He).
    assert (F : Forall (fun t => forall v e, no_sized_option t = true -> typed t v = true -> encode t v = Done e ->
                   (N.of_nat (length e) < 2 ^ 63)%N -> decode t e = Done v) (TBytes :: ts)).
    { apply Forall_forall. intros t _ v x A B C D. apply roundtrip; assumption. }
    specialize (R F). cbn [forallb exact no_sized_option all2 typed] in R. specialize (R HN HT Hl).
    unfold dec_composite in R. cbn [dec_fields] in R.
    destruct (dec_field (decode TBytes) h (klen TBytes) e (0%nat, length e)) as [[w st]| |] eqn:E1; try discriminate.
    destruct (dec_fields decode h e ts st) as [[ws st']| |] eqn:E2; try discriminate.
    destruct (finish_dec st') eqn:E3; try discriminate. injection R as -> ->. cbn [klen] in E1.
    rewrite (dec_field_swap _ (fun x => match vdec V x with Some (z, _) => Done (VI z) | None => Fail EInvalidData end)
               _ _ _ _ _ (VI d) _ E1).
    + rewrite Ef, E2, E3. reflexivity.
    + intros x Hx. cbn [decode] in Hx. injection Hx as ->. specialize (Db []). rewrite app_nil_r in Db. rewrite Db. reflexivity.
Qed.

Lemma unit_ts d vars ts : unit_only vars = true -> find_disc d vars = Some ts -> ts = [].
Proof.
  intros U Ef. unfold unit_only in U. induction vars as [|[d' t] r IH]; [discriminate|].
  cbn [find_disc forallb snd] in *. apply andb_prop in U. destruct U as [U1 U2].
  destruct (d =? d'); [injection Ef as ->; destruct ts; [reflexivity|discriminate]|auto].
Qed.

Lemma handle_dsafe h a b a' b' x y : dsafe a b -> handle_nulls h a = Done a' -> handle_nulls h b = Done b' ->
  lex (a' ++ 0%N :: x) (b' ++ 0%N :: y) = thenc (lex a b) (lex x y).
Proof.
  intros D N1 N2. destruct h; cbn [handle_nulls] in N1, N2.
  - injection N1 as <-. injection N2 as <-. apply delim_esc. exact D.
  - injection N1 as <-. injection N2 as <-. apply delim_raw. exact D.
  - destruct (existsb _ a); [discriminate|]. destruct (existsb _ b); [discriminate|].
    injection N1 as <-. injection N2 as <-. apply delim_raw. exact D.
Qed.

Lemma enum_order V lo hi tlo thi h vars d1 v1 e1 d2 v2 e2 : lawful V lo hi tlo thi ->
  lo <= d1 <= hi -> lo <= d2 <= hi ->
  enum_encode V h vars d1 v1 = Done e1 -> enum_encode V h vars d2 v2 = Done e2 ->
  match find_disc d1 vars with
  | Some ts => all2 _ _ typed ts v1 = true /\ all2 _ _ (orderable (inside_of h)) ts v1 = true | None => False end ->
  match find_disc d2 vars with
  | Some ts => all2 _ _ typed ts v2 = true /\ all2 _ _ (orderable (inside_of h)) ts v2 = true | None => False end ->
  lex e1 e2 = match Z.compare d1 d2 with Eq => list_cmp _ kcmp v1 v2 | c => c end.
Proof.
  intros L H1 H2 E1 E2 T1 T2. unfold enum_encode in E1, E2.
  destruct (find_disc d1 vars) as [ts1|] eqn:F1; [|contradiction].
  destruct (find_disc d2 vars) as [ts2|] eqn:F2; [|contradiction].
  destruct T1 as [T1 O1], T2 as [T2 O2].
  destruct (venc V d1) as [a|] eqn:Ea; [|discriminate]. destruct (venc V d2) as [b|] eqn:Eb; [|discriminate].
  assert (C : lex a b = Z.compare d1 d2) by (destruct L as (_ & _ & L & _); apply L; assumption).
  destruct (unit_only vars) eqn:U.
  - injection E1 as <-. injection E2 as <-. rewrite C.
    apply unit_ts in F1, F2; try assumption. subst ts1 ts2. destruct v1; [|discriminate]. destruct v2; [|discriminate].
    destruct (d1 ?= d2); reflexivity.
  - assert (DS := lawful_dsafe V lo hi tlo thi d1 d2 a b L H1 H2 Ea Eb).
    unfold push_field in E1, E2. cbn [fst snd app] in E1, E2.
    destruct (handle_nulls h a) as [a'| |] eqn:Na; try discriminate.
    destruct (handle_nulls h b) as [b'| |] eqn:Nb; try discriminate.
    destruct (N.of_nat (length a') <=? 65535)%N; [|discriminate].
    destruct (N.of_nat (length b') <=? 65535)%N; [|discriminate].
    destruct (enc_fields encode h ts1 v1 _) as [s1| |] eqn:G1; try discriminate.
    destruct (enc_fields encode h ts2 v2 _) as [s2| |] eqn:G2; try discriminate.
    apply enc_fields_FE in G1, G2. destruct G1 as (b1 & l1 & G1 & ->), G2 as (b2 & l2 & G2 & ->).
    injection E1 as <-. injection E2 as <-. unfold finish_enc. cbn [fst snd].
    rewrite <- !app_assoc. cbn [app]. rewrite (handle_dsafe h a b a' b' _ _ DS Na Nb). rewrite C.
    destruct (Z.compare_spec d1 d2) as [->|X|X]; try reflexivity. cbn [thenc].
    rewrite F1 in F2. injection F2 as <-. rewrite Ea in Eb. injection Eb as <-. rewrite Na in Nb. injection Nb as <-.
    rewrite (FE_order h ts1) with (l1 := l1) (l2 := l2) (v1 := v1) (v2 := v2); try assumption.
    + destruct (list_cmp _ kcmp v1 v2) eqn:Q; try reflexivity. cbn [thenc].
      assert (v1 = v2) as <-.
      { eapply list_cmp_eq with (ts := ts1); eauto. apply Forall_forall. intros t _. apply kcmp_eq. }
      destruct (FE_fun _ _ _ _ _ _ _ G1 G2) as [<- <-]. apply lex_refl.
    + apply Forall_forall. intros t _. apply ordered.
Qed.

(* ---------- a format that meets the contract (not the crate's: only a witness) ----------
   the distance from lo, big endian, without leading zeros, after its length *)
Fixpoint fit (fuel k : nat) (n : N) : option nat :=
  match fuel with O => None | S f => if (n <? 256 ^ N.of_nat k)%N then Some k else fit f (S k) n end.
Definition sample (lo hi : Z) : vint :=
  mkvint
    (fun z => if (lo <=? z) && (z <=? hi)
              then match fit 17 0 (Z.to_N (z - lo)) with
                   | Some k => Some (N.of_nat k :: be k (Z.to_N (z - lo)))
                   | None => None
                   end
              else None)
    (fun b => match b with
              | [] => None
              | c :: r => let k := N.to_nat c in
                          let z := lo + Z.of_N (of_be (firstn k r)) in
                          if (k <=? length r)%nat && (lo <=? z) && (z <=? hi) then Some (z, skipn k r) else None
              end).

Lemma fit_spec f : forall k0 n k, fit f k0 n = Some k ->
  (k0 <= k < k0 + f)%nat /\ (n < 256 ^ N.of_nat k)%N /\ (forall j, (k0 <= j < k)%nat -> (256 ^ N.of_nat j <= n)%N).
Proof.
  induction f as [|f IH]; intros k0 n k H; [discriminate|]. cbn [fit] in H.
  destruct (N.ltb_spec n (256 ^ N.of_nat k0)) as [L|L].
  - injection H as <-. split; [lia|]. split; [exact L|]. intros j Hj. lia.
  - apply IH in H. destruct H as (A & B & C). split; [lia|]. split; [exact B|].
    intros j Hj. destruct (Nat.eq_dec j k0) as [->|]; [exact L|]. apply C. lia.
Qed.
Lemma fit_total f : forall k0 n, (n < 256 ^ N.of_nat (k0 + f))%N -> (1 <= f)%nat -> exists k, fit (S f) k0 n = Some k.
Proof.
  induction f as [|f IH]; intros k0 n H F; [lia|]. cbn [fit].
  destruct (n <? 256 ^ N.of_nat k0)%N eqn:E; [eauto|].
  destruct f as [|f].
  - exists (S k0). cbn [fit]. replace (S k0) with (k0 + 1)%nat by lia.
    destruct (N.ltb_spec n (256 ^ N.of_nat (k0 + 1))); [reflexivity|lia].
  - apply (IH (S k0) n); [|lia]. replace (S k0 + S f)%nat with (k0 + S (S f))%nat by lia. exact H.
Qed.

Lemma sample_lawful lo hi lo' hi' : lo <= lo' -> hi' <= hi -> hi - lo < 2 ^ 128 -> lawful (sample lo hi) lo' hi' lo hi.
Proof.
  intros Hlo Hhi Hr.
  assert (B16 : forall z, lo <= z <= hi -> (Z.to_N (z - lo) < 256 ^ N.of_nat 16)%N).
  { intros z Hz. change (256 ^ N.of_nat 16)%N with (Z.to_N (2 ^ 128)). lia. }
  repeat apply conj; unfold sample; cbn [venc vdec].
  - intros z Hz. destruct (fit_total 16 0 (Z.to_N (z - lo)) (B16 z ltac:(lia)) ltac:(lia)) as [k Hk].
    rewrite Hk. replace ((lo <=? z) && (z <=? hi)) with true by lia. eauto.
  - intros z b rest Hz E. replace ((lo <=? z) && (z <=? hi)) with true in E by lia.
    destruct (fit 17 0 (Z.to_N (z - lo))) as [k|] eqn:Hk; [|discriminate]. injection E as <-.
    apply fit_spec in Hk. destruct Hk as (A & B & _). cbn [app]. cbv zeta. rewrite Nat2N.id.
    rewrite firstn_app, be_length, Nat.sub_diag, firstn_O, app_nil_r.
    rewrite firstn_all2 by (rewrite be_length; lia). rewrite of_be_be by exact B.
    rewrite skipn_app, be_length, Nat.sub_diag, skipn_O. rewrite skipn_all2 by (rewrite be_length; lia).
    rewrite Z2N.id by lia. replace (lo + (z - lo)) with z by lia. rewrite app_length, be_length.
    replace ((k <=? k + length rest)%nat && (lo <=? z) && (z <=? hi)) with true by lia. reflexivity.
  - intros y z a b Hy Hz Ea Eb.
    replace ((lo <=? y) && (y <=? hi)) with true in Ea by lia. replace ((lo <=? z) && (z <=? hi)) with true in Eb by lia.
    destruct (fit 17 0 (Z.to_N (y - lo))) as [k|] eqn:Hk; [|discriminate]. injection Ea as <-.
    destruct (fit 17 0 (Z.to_N (z - lo))) as [j|] eqn:Hj; [|discriminate]. injection Eb as <-.
    apply fit_spec in Hk, Hj. destruct Hk as (A & B & C), Hj as (A' & B' & C').
    destruct (Nat.lt_trichotomy k j) as [L|[->|L]].
    + rewrite lex_head_lt by lia. symmetry. apply Z.compare_lt_iff.
      assert (X := C' k ltac:(lia)). lia.
    + rewrite lex_head_eq by reflexivity. rewrite be_lex by assumption.
      destruct (Z.compare_spec y z) as [->|L|L]; [apply N.compare_refl|apply N.compare_lt_iff; lia|apply N.compare_gt_iff; lia].
    + symmetry. assert (X := C j ltac:(lia)).
      assert (z < y) by lia.
      assert (G : lex (N.of_nat k :: be k (Z.to_N (y - lo))) (N.of_nat j :: be j (Z.to_N (z - lo))) = Gt)
        by (apply lex_gt_lt; apply lex_head_lt; lia).
      rewrite G. apply Z.compare_gt_iff. lia.
  - intros b z rest E. destruct b as [|c r]; [discriminate|]. cbv zeta in E.
    destruct ((N.to_nat c <=? length r)%nat && _ && _) eqn:K; [|discriminate]. injection E as <- _. lia.
Qed.
