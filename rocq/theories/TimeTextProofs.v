(* Lemmas about TimeText.v. *)
From Coq Require Import ZifyBool Lia Arith.
From Verif Require Import Base Key Time TimeProofs OpenStorage OpenStorageProofs TimeText.
Local Open Scope Z_scope.

Definition all_digits (l : bytes) : Prop := l <> [] /\ forall b, In b l -> is_digit b = true.
(* a decimal number of seconds, as nanoseconds *)
Inductive decimal : bytes -> Z -> Prop :=
| whole ds : all_digits ds -> decimal ds (Z.of_N (num ds) * 1000000000)
| fraction ds fs : all_digits ds -> all_digits fs -> (length fs <= 9)%nat ->
    decimal (ds ++ dot :: fs) (Z.of_N (num ds) * 1000000000 + Z.of_N (num fs) * 10 ^ (9 - Z.of_nat (length fs))).

Lemma pad_length k : forall n, length (pad k n) = k.
Proof. induction k as [|k IH]; intros n; [reflexivity|]. cbn [pad]. rewrite app_length, IH. cbn. lia. Qed.
Lemma pad_digit k : forall n b, In b (pad k n) -> is_digit b = true.
Proof.
  induction k as [|k IH]; intros n b; cbn [pad]; [intros []|]. rewrite in_app_iff. intros [X|[<-|[]]].
  - exact (IH _ _ X).
  - unfold is_digit. pose proof (N.mod_upper_bound n 10 ltac:(lia)). lia.
Qed.
Lemma num_pad k : forall n, (n < 10 ^ N.of_nat k)%N -> num (pad k n) = n.
Proof.
  induction k as [|k IH]; intros n B.
  - cbn in B. assert (n = 0%N) by lia. subst. reflexivity.
  - cbn [pad]. rewrite num_snoc. replace (48 + n mod 10 - 48)%N with (n mod 10)%N by lia.
    pose proof (N.div_mod n 10 ltac:(lia)). rewrite IH; [lia|].
    apply N.div_lt_upper_bound; [lia|]. rewrite <- N.pow_succ_r by lia. replace (N.succ (N.of_nat k)) with (N.of_nat (S k)) by lia. exact B.
Qed.
Lemma pad_all k n : (0 < k)%nat -> all_digits (pad k n).
Proof. intros K. split; [|apply pad_digit]. intros E. apply (f_equal (@length N)) in E. rewrite pad_length in E. cbn in E. lia. Qed.
Lemma to_string_all n : all_digits (to_string n).
Proof. split; [apply to_string_nonempty|]. intros b. apply digits_digit. Qed.

Lemma digit_not_dot b : is_digit b = true -> (b =? dot)%N = false.
Proof. unfold is_digit, dot. lia. Qed.
Lemma split_app ds rest : (forall b, In b ds -> (b =? dot)%N = false) ->
  split dot (ds ++ dot :: rest) = (ds, fst (split dot rest) :: snd (split dot rest)).
Proof.
  induction ds as [|x r IH]; intros D; cbn [app split].
  - destruct (split dot rest) as [p t]. rewrite N.eqb_refl. reflexivity.
  - rewrite IH by (intros b X; apply D; right; exact X). rewrite (D x (or_introl eq_refl)). reflexivity.
Qed.
Lemma split_whole ds : (forall b, In b ds -> (b =? dot)%N = false) -> split dot ds = (ds, []).
Proof.
  induction ds as [|x r IH]; intros D; cbn [split]; [reflexivity|].
  rewrite IH by (intros b X; apply D; right; exact X). rewrite (D x (or_introl eq_refl)). reflexivity.
Qed.
(* the pieces put together again *)
Fixpoint join (p : bytes) (rest : list bytes) : bytes :=
  match rest with [] => p | q :: t => p ++ dot :: join q t end.
Lemma join_split l : join (fst (split dot l)) (snd (split dot l)) = l.
Proof.
  induction l as [|x t IH]; [reflexivity|]. cbn [split]. destruct (split dot t) as [p rest]. cbn [fst snd] in IH.
  destruct (N.eqb_spec x dot) as [->|N0]; cbn [fst snd join app]; [rewrite IH; reflexivity|].
  destruct rest as [|q u]; cbn [join] in *; [rewrite IH; reflexivity|]. rewrite <- IH. reflexivity.
Qed.

Lemma value_bound l : forall acc n, value acc l = Some n -> (acc < 2 ^ 64)%N -> (n < 2 ^ 64)%N /\ (forall b, In b l -> is_digit b = true) /\
  n = fold_left (fun a b => a * 10 + (b - 48))%N l acc.
Proof.
  induction l as [|b r IH]; intros acc n; cbn [value fold_left].
  - intros [= <-] B. repeat split; [exact B|intros x []].
  - destruct (is_digit b) eqn:Db; [|discriminate]. destruct (N.ltb_spec (acc * 10 + (b - 48)) (2 ^ 64)) as [L|L]; [|discriminate].
    intros E _. apply IH in E as (B & D & ->); [|exact L]. repeat split; [exact B|]. intros x [<-|X]; [exact Db|exact (D x X)].
Qed.
(* what str::parse::<u64> accepts: digits, possibly after a plus sign *)
Lemma parse_inv l n : parse l = Some n -> (n < 2 ^ 64)%N /\ exists ds, all_digits ds /\ num ds = n /\ (l = ds \/ l = 43%N :: ds).
Proof.
  unfold parse. destruct l as [|b r]; [discriminate|]. destruct (N.eqb_spec b 43) as [->|N0].
  - destruct r as [|c t]; [discriminate|]. intros E. apply value_bound in E as (B & D & E); [|lia]. split; [exact B|].
    exists (c :: t). repeat split; [discriminate|exact D|symmetry; exact E|right; reflexivity].
  - intros E. apply value_bound in E as (B & D & E); [|lia]. split; [exact B|].
    exists (b :: r). repeat split; [discriminate|exact D|symmetry; exact E|left; reflexivity].
Qed.
Lemma num_bound l : (forall b, In b l -> is_digit b = true) -> (num l < 10 ^ N.of_nat (length l))%N.
Proof.
  induction l as [|b r IH] using rev_ind; intros D; [reflexivity|]. rewrite num_snoc, app_length. cbn [length].
  replace (N.of_nat (length r + 1)) with (N.succ (N.of_nat (length r))) by lia. rewrite N.pow_succ_r by lia.
  specialize (IH (fun x X => D x ltac:(apply in_app_iff; left; exact X))).
  pose proof (D b ltac:(apply in_app_iff; right; left; reflexivity)) as Db. unfold is_digit in Db. lia.
Qed.
Lemma parse_all ds : all_digits ds -> (num ds < 2 ^ 64)%N -> parse ds = Some (num ds).
Proof. intros [N0 D] B. apply parse_digits; assumption. Qed.
Lemma parse_too_large ds : all_digits ds -> (2 ^ 64 <= num ds)%N -> parse ds = None.
Proof.
  intros [N0 D] B. destruct (parse ds) as [n|] eqn:E; [|reflexivity]. exfalso.
  destruct (parse_inv _ _ E) as (L & es & [_ De] & En & [->| ->]); [lia|].
  pose proof (D 43%N (or_introl eq_refl)). discriminate.
Qed.
Lemma pow9 k : (k <= 9)%nat -> (10 ^ N.of_nat k * 10 ^ (9 - N.of_nat k) = 10 ^ 9)%N.
Proof. intros K. rewrite <- N.pow_add_r. f_equal. lia. Qed.
Lemma pow9Z k n : (k <= 9)%nat -> Z.of_N (n * 10 ^ (9 - N.of_nat k)) = Z.of_N n * 10 ^ (9 - Z.of_nat k).
Proof. intros K. rewrite N2Z.inj_mul, N2Z.inj_pow, N2Z.inj_sub by lia. rewrite nat_N_Z. reflexivity. Qed.
Lemma fraction_bound fs n : all_digits fs -> (length fs <= 9)%nat -> num fs = n -> (n * 10 ^ (9 - N.of_nat (length fs)) < 10 ^ 9)%N.
Proof.
  intros [_ D] L <-. pose proof (num_bound fs D) as B. rewrite <- (pow9 (length fs) L).
  apply N.mul_lt_mono_pos_r; [|exact B]. apply N.neq_0_lt_0. apply N.pow_nonzero. lia.
Qed.
(* what the text of a duration stands for, with the sign that parse accepts *)
Definition plus (l ds : bytes) : Prop := l = ds \/ l = 43%N :: ds.

Lemma parse_dur_whole p ds : plus p ds -> all_digits ds -> (num ds < 2 ^ 64)%N -> parse_dur p = Done (Z.of_N (num ds) * sec).
Proof.
  intros P A B. unfold parse_dur. assert (ND : forall b, In b p -> (b =? dot)%N = false).
  { destruct A as [_ D]. destruct P as [->| ->]; intros b; [|intros [<-|X]; [reflexivity|revert X]]; intros X; apply digit_not_dot; exact (D _ X). }
  rewrite split_whole by exact ND. assert (E : parse p = Some (num ds)).
  { destruct P as [->| ->]; [apply parse_all; assumption|]. unfold parse. cbn [N.eqb Pos.eqb]. destruct A as [N0 D]. destruct ds as [|c t]; [congruence|].
    apply value_num; assumption. }
  rewrite E. reflexivity.
Qed.
Lemma plus_nodot p ds : plus p ds -> all_digits ds -> forall b, In b p -> (b =? dot)%N = false.
Proof.
  intros P [_ D]. destruct P as [->| ->]; intros b; [|intros [<-|X]; [reflexivity|revert X]]; intros X; apply digit_not_dot; exact (D _ X).
Qed.
Lemma plus_parse p ds : plus p ds -> all_digits ds -> (num ds < 2 ^ 64)%N -> parse p = Some (num ds).
Proof.
  intros P A B. destruct P as [->| ->]; [apply parse_all; assumption|]. unfold parse. cbn [N.eqb Pos.eqb]. destruct A as [N0 D]. destruct ds as [|c t]; [congruence|].
  apply value_num; assumption.
Qed.
Lemma parse_dur_fraction p ds f fs : plus p ds -> all_digits ds -> plus f fs -> all_digits fs -> (length f <= 9)%nat ->
  (num ds < 2 ^ 64)%N -> parse_dur (p ++ dot :: f) = Done (Z.of_N (num ds) * sec + Z.of_N (num fs) * 10 ^ (9 - Z.of_nat (length f))).
Proof.
  intros P A Q F L B. unfold parse_dur. rewrite split_app by (eapply plus_nodot; eassumption).
  rewrite split_whole by (eapply plus_nodot; eassumption). cbn [fst snd]. rewrite (plus_parse p ds P A B).
  assert (Lf : (length fs <= length f)%nat) by (destruct Q as [->| ->]; cbn [length]; lia).
  assert (Bf : (num fs * 10 ^ (9 - N.of_nat (length f)) < 10 ^ 9)%N).
  { pose proof (fraction_bound fs (num fs) F ltac:(lia) eq_refl) as X. eapply N.le_lt_trans; [|exact X].
    apply N.mul_le_mono_l. apply N.pow_le_mono_r; lia. }
  assert (B1 : (num fs < 10 ^ 9)%N).
  { destruct F as [_ D]. pose proof (num_bound fs D). assert (10 ^ N.of_nat (length fs) <= 10 ^ 9)%N by (apply N.pow_le_mono_r; lia). lia. }
  replace (9 <? length f)%nat with false by lia. cbn [orb length Nat.ltb Nat.leb]. unfold parse_u32.
  rewrite (plus_parse f fs Q F) by (change (2 ^ 64)%N with 18446744073709551616%N; change (10 ^ 9)%N with 1000000000%N in B1; lia).
  replace (num fs <? 2 ^ 32)%N with true by (change (10 ^ 9)%N with 1000000000%N in B1; lia).
  set (x := (num fs * 10 ^ (9 - N.of_nat (length f)))%N) in *. change (10 ^ 9)%N with 1000000000%N in *.
  replace (2 ^ 32 <=? x)%N with false by lia.
  destruct (Z.ltb_spec dur_max (Z.of_N (num ds) * sec + Z.of_N x)) as [O|O]; [exfalso; cbv [dur_max sec] in *; lia|].
  f_equal. f_equal. subst x. apply pow9Z. exact L.
Qed.
(* everything parse_dur accepts *)
Lemma parse_dur_inv s d : parse_dur s = Done d ->
  exists p ds, plus p ds /\ all_digits ds /\ (num ds < 2 ^ 64)%N /\
    ((s = p /\ d = Z.of_N (num ds) * sec) \/
     exists f fs, plus f fs /\ all_digits fs /\ (length f <= 9)%nat /\ s = p ++ dot :: f /\
       d = Z.of_N (num ds) * sec + Z.of_N (num fs) * 10 ^ (9 - Z.of_nat (length f))).
Proof.
  intros E. pose proof (join_split s) as J. unfold parse_dur in E. destruct (split dot s) as [p rest] eqn:Sp. cbn [fst snd] in J.
  destruct (parse p) as [n|] eqn:Pp; [|discriminate]. destruct (parse_inv _ _ Pp) as (B & ds & A & En & P). subst n.
  exists p, ds. split; [exact P|]. split; [exact A|]. split; [exact B|]. destruct rest as [|f more]; cbn [join] in J.
  - left. split; [symmetry; exact J|]. injection E as <-. reflexivity.
  - right. destruct (Nat.ltb_spec 9 (length f)) as [L|L]; [discriminate|]. cbn [orb] in E.
    destruct more as [|m0 more]; [|discriminate]. cbn [length Nat.ltb Nat.leb] in E. unfold parse_u32 in E.
    destruct (parse f) as [m|] eqn:Pf; [|discriminate]. destruct (parse_inv _ _ Pf) as (Bf & fs & F & Ef & Q).
    destruct (N.ltb_spec m (2 ^ 32)) as [L2|L2]; [|discriminate]. exists f, fs. split; [exact Q|]. split; [exact F|]. split; [exact L|].
    split; [symmetry; exact J|]. cbn beta zeta in E.
    destruct (2 ^ 32 <=? m * 10 ^ (9 - N.of_nat (length f)))%N; [discriminate|].
    destruct (dur_max <? _); [discriminate|]. injection E as <-. f_equal. subst m. apply pow9Z. exact L.
Qed.
Lemma parse_dur_nopanic s : parse_dur s <> Panic.
Proof.
  intros E. unfold parse_dur in E. destruct (split dot s) as [p rest] eqn:Sp.
  destruct (parse p) as [n|] eqn:Pp; [|discriminate]. destruct (parse_inv _ _ Pp) as (B & ds & A & En & P).
  destruct rest as [|f more]; [discriminate|]. destruct (Nat.ltb_spec 9 (length f)) as [L|L]; [discriminate|]. cbn [orb] in E.
  destruct (0 <? length more)%nat; [discriminate|]. unfold parse_u32 in E. destruct (parse f) as [m|] eqn:Pf; [|discriminate].
  destruct (parse_inv _ _ Pf) as (Bf & fs & F & Ef & Q). destruct (N.ltb_spec m (2 ^ 32)) as [L2|L2]; [|discriminate]. cbn beta zeta in E.
  assert (Lf : (length fs <= length f)%nat) by (destruct Q as [->| ->]; cbn [length]; lia).
  assert (Bx : (m * 10 ^ (9 - N.of_nat (length f)) < 10 ^ 9)%N).
  { pose proof (fraction_bound fs m F ltac:(lia) Ef) as X. eapply N.le_lt_trans; [|exact X].
    apply N.mul_le_mono_l. apply N.pow_le_mono_r; lia. }
  set (x := (m * 10 ^ (9 - N.of_nat (length f)))%N) in *. change (10 ^ 9)%N with 1000000000%N in *.
  replace (2 ^ 32 <=? x)%N with false in E by lia.
  destruct (Z.ltb_spec dur_max (Z.of_N n * sec + Z.of_N x)) as [O|O]; [cbv [dur_max sec] in *; lia|discriminate].
Qed.

Lemma show_decimal d : dur_ok d -> decimal (show d) d.
Proof.
  intros H. unfold show.
  assert (Bs : 0 <= as_secs d < 2 ^ 64) by (unfold as_secs; consts; zsolve).
  assert (Bn : 0 <= subsec_nanos d < 1000000000) by (unfold subsec_nanos; consts; zsolve).
  assert (Ed : d = as_secs d * 1000000000 + subsec_nanos d) by (unfold as_secs, subsec_nanos; consts; zsolve).
  assert (En : Z.of_N (num (to_string (Z.to_N (as_secs d)))) = as_secs d).
  { rewrite num_to_string; [lia|]. zify. lia. }
  set (n := subsec_nanos d) in *. set (w := as_secs d) in *.
  assert (K : forall k m, (0 < k <= 9)%nat -> 0 <= m < 10 ^ Z.of_nat k -> n = m * 10 ^ (9 - Z.of_nat k) ->
              decimal (to_string (Z.to_N w) ++ dot :: pad k (Z.to_N m)) d).
  { intros k m Hk Hm E. rewrite Ed. pose proof (fraction (to_string (Z.to_N w)) (pad k (Z.to_N m)) (to_string_all _) (pad_all k _ ltac:(lia))) as F.
    rewrite pad_length in F. specialize (F ltac:(lia)). rewrite num_pad in F.
    - rewrite En, Z2N.id in F by lia. rewrite <- E in F. exact F.
    - apply N2Z.inj_lt. rewrite Z2N.id by lia. rewrite N2Z.inj_pow, nat_N_Z. exact (proj2 Hm). }
  destruct (Z.ltb_spec 0 n) as [L|L].
  - destruct (Z.eqb_spec (n mod 1000000) 0) as [M|M]; [|destruct (Z.eqb_spec (n mod 1000) 0) as [M2|M2]].
    + apply K; [lia|cbn; zsolve|change (10 ^ (9 - Z.of_nat 3)) with 1000000; zsolve].
    + apply K; [lia|cbn; zsolve|change (10 ^ (9 - Z.of_nat 6)) with 1000; zsolve].
    + apply K; [lia|cbn; lia|change (10 ^ (9 - Z.of_nat 9)) with 1; lia].
  - rewrite app_nil_r. replace d with (Z.of_N (num (to_string (Z.to_N w))) * 1000000000) by lia. apply whole. apply to_string_all.
Qed.
Lemma decimal_parse s d : decimal s d -> d <= dur_max -> parse_dur s = Done d.
Proof.
  intros D B. destruct D as [ds A|ds fs A F L].
  - apply parse_dur_whole; [left; reflexivity|exact A|]. zify. cbv [dur_max sec] in *. lia.
  - apply parse_dur_fraction; [left; reflexivity|exact A|left; reflexivity|exact F|exact L|].
    assert (0 <= Z.of_N (num fs) * 10 ^ (9 - Z.of_nat (length fs))) by (apply Z.mul_nonneg_nonneg; [lia|apply Z.pow_nonneg; lia]).
    zify. cbv [dur_max sec] in *. lia.
Qed.
Lemma decimal_too_large s d : decimal s d -> dur_max < d -> parse_dur s = Fail InvalidValue.
Proof.
  intros D B. destruct D as [ds A|ds fs A F L].
  - unfold parse_dur. rewrite split_whole by (intros b X; apply digit_not_dot; apply A; exact X).
    rewrite parse_too_large; [reflexivity|exact A|]. cbv [dur_max sec] in *. lia.
  - unfold parse_dur. rewrite split_app by (intros b X; apply digit_not_dot; apply A; exact X).
    rewrite parse_too_large; [reflexivity|exact A|].
    pose proof (fraction_bound fs _ F L eq_refl) as X. apply N2Z.inj_lt in X. rewrite pow9Z in X by exact L.
    change (Z.of_N (10 ^ 9)) with 1000000000 in X. cbv [dur_max sec] in *. lia.
Qed.
Lemma since_unix_cases epoch r z : dur_ok epoch -> repr_ok r z ->
  match since_unix epoch r z with
  | Done d => d = epoch + sdur_val (repr_to_duration r z) /\ dur_ok d
  | Fail e => e = DeltaNotRepresentable /\ ~ dur_ok (epoch + sdur_val (repr_to_duration r z))
  | Panic => False
  end.
Proof.
  intros H R. pose proof (repr_sdur_ok r z R) as O. unfold since_unix, dur_checked_add, dur_checked_sub, dur_ok in *.
  destruct (repr_to_duration r z) as [o|o]; cbn [sdur_val sdur_ok] in *; unfold dur_ok in *.
  - destruct (Z.leb_spec (epoch + o) dur_max); split; try reflexivity; lia.
  - destruct (Z.leb_spec o epoch); split; try reflexivity; lia.
Qed.
(* ---------- sums of limited resolution durations ---------- *)
Lemma fold_map r l : forall a,
  fold_left (fun acc x => match acc with Some v => sdur_add v (repr_to_duration r x) | None => None end) l a =
  fold_left (fun acc x => match acc with Some v => sdur_add v x | None => None end) (map (repr_to_duration r) l) a.
Proof. induction l as [|x l IH]; intros a; [reflexivity|]. cbn [fold_left map]. apply IH. Qed.
Lemma limited_sum_eq r l : limited_sum r l =
  match sdur_sum (map (repr_to_duration r) l) with
  | Some d => match duration_to_repr r d with Done z => Done (Some z) | Fail _ => Done None | Panic => Panic end
  | None => Done None
  end.
Proof. destruct l as [|a l]; [reflexivity|]. cbn [limited_sum map sdur_sum]. rewrite fold_map. reflexivity. Qed.
Definition exact (r : res) (z : Z) : Prop := repr_ok r z /\ (full_range r = true \/ subsecond_exact r = false \/ z <> repr_min r).
Lemma total_map r l : Forall (exact r) l -> total (map (repr_to_duration r) l) = fold_right Z.add 0 l * unit_ns r.
Proof.
  induction l as [|x l IH]; intros H; [reflexivity|]. inversion_clear H as [|? ? [Hr Hx] Hl].
  cbn [map fold_right]. unfold total in *. cbn [fold_right]. rewrite IH by exact Hl. rewrite repr_value by assumption. lia.
Qed.
Lemma map_sdur_ok r l : Forall (exact r) l -> Forall sdur_ok (map (repr_to_duration r) l).
Proof. intros H. induction H as [|x l [Hr Hx] Hl IH]; constructor; [apply repr_sdur_ok; exact Hr|exact IH]. Qed.
Lemma sdur_sum_ok l : forall d, Forall sdur_ok l -> sdur_sum l = Some d -> sdur_ok d.
Proof.
  destruct l as [|a l]; [discriminate|]. cbn [sdur_sum]. revert a.
  induction l as [|b l IH]; intros a d H; cbn [fold_left].
  - injection 1 as <-. inversion_clear H. assumption.
  - intros E. inversion_clear H as [|? ? Ha Hl]. inversion_clear Hl as [|? ? Hb Hl'].
    destruct (sdur_add a b) as [ab|] eqn:Eab; [|rewrite fold_none in E; discriminate].
    apply sdur_add_exact in Eab as [_ O]; [|assumption|assumption]. apply (IH ab); [constructor; assumption|exact E].
Qed.
(* a whole number of units converts exactly *)
Lemma to_repr_multiple r d z k : sdur_ok d -> sdur_val d = k * unit_ns r -> duration_to_repr r d = Done z ->
  (r = Days -> repr_min r < z) -> z = k.
Proof.
  intros O V E X. destruct d as [d|d]; cbn [sdur_val sdur_ok] in *.
  - apply to_repr_pos in E as [E _]; [|exact O]. subst d. destruct r; cbn [unit_ns] in *; lia.
  - destruct (subsecond_exact r) eqn:S.
    + apply to_repr_neg_exact in E as [E _]; [|exact S|exact O]. destruct r; cbn [unit_ns] in *; lia.
    + apply to_repr_neg_coarse in E as [E _]; [|exact S|exact O|exact X].
      assert (M : as_secs d * sec = d) by (unfold as_secs; destruct r; try discriminate; cbn [unit_ns] in *; consts; zsolve).
      rewrite M in E. destruct r; cbn [unit_ns] in *; lia.
Qed.
Lemma to_repr_multiple_done r d k : sdur_ok d -> sdur_val d = k * unit_ns r ->
  repr_min r < k <= repr_max r -> duration_to_repr r d = Done k.
Proof.
  intros O V B. destruct (duration_to_repr r d) as [z|e|] eqn:E.
  - f_equal. destruct (Z.eq_dec z (repr_min Days)) as [Ez|Nz].
    + destruct r; try (apply (to_repr_multiple _ _ _ _ O V E); discriminate).
      destruct d as [d|d]; cbn [duration_to_repr sdur_val sdur_ok] in *.
      * unfold to_int, as_secs in E. consts. destruct (_ <=? _) in E; [injection E as <-|discriminate]. zsolve.
      * unfold neg_factor, as_secs in E. consts. destruct (_ <? _) in E; [discriminate|].
        match type of E with (if ?b then _ else _) = _ => destruct b eqn:Bb end; injection E as <-; zsolve.
    + apply (to_repr_multiple _ _ _ _ O V E). intros ->. destruct d as [d|d]; cbn [duration_to_repr sdur_val sdur_ok] in *.
      * unfold to_int, as_secs in E. consts. destruct (_ <=? _) in E; [injection E as <-|discriminate]. zsolve.
      * unfold neg_factor, as_secs in E. consts. destruct (_ <? _) in E; [discriminate|].
        match type of E with (if ?b then _ else _) = _ => destruct b eqn:Bb end; injection E as <-; zsolve.
  - destruct d as [d|d]; cbn [sdur_val sdur_ok] in *.
    + destruct (to_repr_fail_pos r d O) as [_ F]. destruct (F e E) as [_ F']. destruct r; consts; lia.
    + apply to_repr_fail_neg in E as [_ E]; [|exact O]. destruct r; consts; lia.
  - exfalso. destruct d as [d|d]; cbn [sdur_val sdur_ok] in *.
    + destruct (to_repr_fail_pos r d O) as [F _]. contradiction.
    + apply to_repr_panic in E as [S E]; [|exact O]. destruct r; try discriminate; consts; lia.
Qed.
