(* Property theorems C73: timestamps as text and the time between timestamps; and
   C58 for sums of limited resolution durations. [epoch] is the epoch's offset
   from 1970 in nanoseconds: unix_epoch and bonsai_epoch are the two the library
   has. A timestamp of resolution r with representation z stands for
   epoch + z * unit_ns r. [decimal s d] (TimeTextProofs): s is a plain decimal
   number of seconds, with at most nine digits after the point, of value d
   nanoseconds. *)
From Coq Require Import ZifyBool Lia Arith.
From Verif Require Import Base Key Time TimeProofs OpenStorage OpenStorageProofs TimeText TimeTextProofs.
Local Open Scope Z_scope.

(* The text is the decimal number of seconds since 1970, exactly. *)
Theorem C73_text : forall epoch r z s, dur_ok epoch -> exact r z ->
  to_timestamp_string epoch r z = Done s -> decimal s (epoch + z * unit_ns r).
Proof.
  intros epoch r z s He [Hr Hx] E. unfold to_timestamp_string in E. pose proof (since_unix_cases epoch r z He Hr) as C.
  destruct (since_unix epoch r z) as [d|e|]; try discriminate. destruct C as [-> O]. injection E as <-.
  rewrite repr_value in * by assumption. apply show_decimal. exact O.
Qed.
(* There is a text exactly for the times from 1970 on (up to 2^64 seconds); the
   other times are reported as not representable. *)
Theorem C73_text_exists : forall epoch r z, dur_ok epoch -> exact r z ->
  (dur_ok (epoch + z * unit_ns r) -> exists s, to_timestamp_string epoch r z = Done s) /\
  (~ dur_ok (epoch + z * unit_ns r) -> to_timestamp_string epoch r z = Fail DeltaNotRepresentable).
Proof.
  intros epoch r z He [Hr Hx]. unfold to_timestamp_string. pose proof (since_unix_cases epoch r z He Hr) as C.
  destruct (since_unix epoch r z) as [d|e|]; [| |contradiction]; destruct C as [C1 C2]; rewrite repr_value in * by assumption.
  - split; [intros _; eexists; reflexivity|]. subst d. contradiction.
  - subst e. split; [contradiction|reflexivity].
Qed.
(* The fewest digits of 0, 3, 6 and 9 that show the time are written. *)
Theorem C73_shortest : forall epoch r z s ds fs, dur_ok epoch -> exact r z ->
  to_timestamp_string epoch r z = Done s -> s = ds ++ dot :: fs -> all_digits ds -> all_digits fs ->
  (length fs = 3 \/ length fs = 6 \/ length fs = 9)%nat /\ num fs <> 0%N /\
  ((3 < length fs)%nat -> (num fs mod 1000 <> 0)%N).
Proof.
  intros epoch r z s ds fs He [Hr Hx] E Es A F. unfold to_timestamp_string in E.
  destruct (since_unix epoch r z) as [d|e|]; try discriminate. injection E as E. rewrite <- E in Es. clear E s.
  assert (Bn : 0 <= subsec_nanos d < 1000000000) by (unfold subsec_nanos; consts; zsolve).
  assert (P : forall k m, (0 < k)%nat -> (m < 10 ^ N.of_nat k)%N -> to_string (Z.to_N (as_secs d)) ++ dot :: pad k m = ds ++ dot :: fs -> length fs = k /\ num fs = m).
  { intros k m K M X. apply (f_equal (split dot)) in X.
    rewrite !split_app in X by (intros b I; apply digit_not_dot; first [apply A; exact I | eapply digits_digit; exact I]).
    rewrite (split_whole fs) in X by (intros b I; apply digit_not_dot; apply F; exact I).
    rewrite (split_whole (pad k m)) in X by (intros b I; apply digit_not_dot; eapply pad_digit; exact I).
    cbn [fst snd] in X. injection X as _ <-. split; [apply pad_length|apply num_pad; exact M]. }
  unfold show in Es. set (n := subsec_nanos d) in *. destruct (Z.ltb_spec 0 n) as [L|L].
  - destruct (Z.eqb_spec (n mod 1000000) 0) as [M|M]; [|destruct (Z.eqb_spec (n mod 1000) 0) as [M2|M2]].
    + apply P in Es as [-> ->]; [|lia|change (10 ^ N.of_nat 3)%N with 1000%N; zify; zsolve]. split; [lia|]. split; [zify; zsolve|lia].
    + apply P in Es as [-> ->]; [|lia|change (10 ^ N.of_nat 6)%N with 1000000%N; zify; zsolve].
      split; [lia|]. split; [zify; zsolve|]. intros _ Z0. apply (f_equal Z.of_N) in Z0. rewrite N2Z.inj_mod, Z2N.id in Z0 by zsolve. cbn in Z0. zsolve.
    + apply P in Es as [-> ->]; [|lia|change (10 ^ N.of_nat 9)%N with 1000000000%N; zify; lia].
      split; [lia|]. split; [zify; lia|]. intros _ Z0. apply (f_equal Z.of_N) in Z0. rewrite N2Z.inj_mod, Z2N.id in Z0 by lia. cbn in Z0. lia.
  - rewrite app_nil_r in Es. exfalso. assert (I : In dot (to_string (Z.to_N (as_secs d)))) by (rewrite Es; apply in_app_iff; right; left; reflexivity).
    apply digits_digit in I. discriminate.
Qed.
(* Parsing the text gives the same timestamp. *)
Lemma roundtrip epoch r z s : dur_ok epoch -> repr_ok r z -> full_range r = true \/ z <> repr_min r ->
  to_timestamp_string epoch r z = Done s -> timestamp_from_str epoch r s = Done z.
Proof.
  intros He Hr Hx E. unfold to_timestamp_string in E. pose proof (since_unix_cases epoch r z He Hr) as C.
  destruct (since_unix epoch r z) as [d|e|]; try discriminate. destruct C as [Ed O]. injection E as <-.
  unfold timestamp_from_str. rewrite (decimal_parse _ _ (show_decimal d O)) by apply O.
  pose proof (repr_roundtrip r z Hr Hx) as R. pose proof (repr_sdur_ok r z Hr) as Ok.
  assert (Sg : match repr_to_duration r z with Pos _ => True | Neg o => 0 < o end).
  { destruct r; unfold repr_to_duration, abs_or; destruct (Z.leb_spec 0 z); try exact I; try (destruct (Z.eqb_spec z i64_min)); consts; lia. }
  destruct (repr_to_duration r z) as [o|o]; cbn [sdur_val sdur_ok] in *; unfold dur_ok in *.
  - destruct (Z.ltb_spec d epoch); [lia|]. replace (d - epoch) with o by lia. exact R.
  - destruct (Z.ltb_spec d epoch); [|lia]. replace (epoch - d) with o by lia. exact R.
Qed.
Theorem C73_roundtrip : forall epoch r z s, epoch = unix_epoch \/ epoch = bonsai_epoch -> repr_ok r z ->
  to_timestamp_string epoch r z = Done s -> timestamp_from_str epoch r s = Done z.
Proof.
  intros epoch r z s He Hr E. assert (D : dur_ok epoch) by (consts; lia).
  destruct (full_range r) eqn:Fr; [apply roundtrip; auto|]. destruct (Z.eq_dec z (repr_min r)) as [Ez|Nz]; [|apply roundtrip; auto].
  exfalso. unfold to_timestamp_string in E. destruct He as [-> | ->], r; try discriminate; subst z; vm_compute in E; discriminate.
Qed.
(* for any other epoch as well, except for the smallest representation of the
   resolutions that treat it specially *)
Theorem C73_roundtrip_any_epoch : forall epoch r z s, dur_ok epoch -> repr_ok r z -> full_range r = true \/ z <> repr_min r ->
  to_timestamp_string epoch r z = Done s -> timestamp_from_str epoch r s = Done z.
Proof. exact roundtrip. Qed.
(* Different timestamps have different texts. *)
Theorem C73_injective : forall epoch r z z' s, epoch = unix_epoch \/ epoch = bonsai_epoch -> repr_ok r z -> repr_ok r z' ->
  to_timestamp_string epoch r z = Done s -> to_timestamp_string epoch r z' = Done s -> z = z'.
Proof. intros epoch r z z' s He H H' E E'. apply C73_roundtrip in E, E'; auto. congruence. Qed.
(* to_string never fails, and parsing it never gives another timestamp: either the
   same one or, for a time before 1970, an error. *)
Theorem C73_to_string : forall epoch r z, epoch = unix_epoch \/ epoch = bonsai_epoch -> repr_ok r z ->
  timestamp_from_str epoch r (timestamp_to_string epoch r z) =
  if 0 <=? epoch + z * unit_ns r then Done z else Fail InvalidValue.
Proof.
  intros epoch r z He Hr. assert (D : dur_ok epoch) by (consts; lia). unfold timestamp_to_string.
  pose proof (since_unix_cases epoch r z D Hr) as C. pose proof (C73_roundtrip epoch r z (show (match since_unix epoch r z with Done d => d | _ => 0 end)) He Hr) as R.
  unfold to_timestamp_string in R.
  assert (V : dur_ok (epoch + sdur_val (repr_to_duration r z)) <-> 0 <= epoch + z * unit_ns r).
  { destruct (Z.eq_dec z (repr_min r)) as [->|Nz].
    - destruct He as [-> | ->], r; vm_compute; split; try (intros [X Y]; try congruence; try discriminate; try exact X); try congruence; try discriminate; try (split; congruence).
    - rewrite repr_value by (first [exact Hr | right; right; exact Nz]). unfold dur_ok. split; [lia|]. intros P. split; [exact P|].
      destruct r; consts; lia. }
  destruct (since_unix epoch r z) as [d|e|] eqn:E; [| |contradiction]; destruct C as [C1 C2].
  - subst d. rewrite (R eq_refl). destruct (Z.leb_spec 0 (epoch + z * unit_ns r)); [reflexivity|]. apply V in C2. lia.
  - destruct (Z.leb_spec 0 (epoch + z * unit_ns r)) as [L|L]; [apply V in L; contradiction|].
    unfold timestamp_from_str. destruct (parse_dur (show_repr r z)) as [d|e'|] eqn:Ep.
    + exfalso. apply parse_dur_inv in Ep as (p & ds & P & [Nd A] & _ & Cs).
      assert (Sf : exists pre, show_repr r z = pre ++ [last (suffix r) 0%N]).
      { unfold show_repr. destruct r; cbn [suffix last];
          try (exists (show_int z); reflexivity);
          (match goal with |- exists pre, _ ++ [?a; ?b] = _ => exists (show_int z ++ [a]); rewrite <- app_assoc; reflexivity end). }
      destruct Sf as (pre & Sf).
      assert (Lst : forall ds0 : bytes, (forall b, In b ds0 -> is_digit b = true) -> forall q, show_repr r z = q ++ ds0 -> ds0 = []).
      { intros ds0 Dd q Eq. destruct ds0 as [|x ds0] using rev_ind; [reflexivity|]. rewrite app_assoc in Eq. rewrite Sf in Eq.
        apply app_inj_tail in Eq as [_ Eq]. pose proof (Dd x ltac:(apply in_app_iff; right; left; reflexivity)) as Dx. rewrite <- Eq in Dx.
        destruct r; discriminate Dx. }
      destruct Cs as [[Es _]|(f & fs & Q & [Nf F] & _ & Es & _)].
      * assert (ds = []); [|congruence]. destruct P as [-> | ->]; [apply (Lst ds A [])|apply (Lst ds A [43%N])]; exact Es.
      * assert (fs = []); [|congruence]. destruct Q as [-> | ->]; [apply (Lst fs F (p ++ [dot]))|apply (Lst fs F (p ++ [dot; 43%N]))]; rewrite <- app_assoc; exact Es.
    + unfold parse_dur in Ep. destruct (split dot (show_repr r z)) as [p rest].
      destruct (parse p); [|injection Ep as <-; reflexivity]. destruct rest as [|f more]; [discriminate|].
      destruct ((9 <? length f)%nat || (0 <? length more)%nat); [injection Ep as <-; reflexivity|].
      destruct (parse_u32 f); [|injection Ep as <-; reflexivity]. cbv zeta in Ep. destruct (_ <=? _)%N in Ep; [discriminate|]. destruct (_ <? _) in Ep; discriminate.
    + destruct (parse_dur_nopanic _ Ep).
Qed.
(* Parsing a decimal number of seconds gives the same timestamp as converting that
   SystemTime: *)
Theorem C73_parse : forall epoch r s t, epoch = unix_epoch \/ epoch = bonsai_epoch -> decimal s t -> time_ok t ->
  timestamp_from_str epoch r s = of_time epoch r t.
Proof.
  intros epoch r s t He D T. unfold timestamp_from_str. rewrite (decimal_parse s t D) by (consts; lia). unfold of_time.
  destruct (Z.ltb_spec time_max epoch); [consts; lia|]. destruct (Z.ltb_spec t epoch), (Z.leb_spec epoch t); try lia; reflexivity.
Qed.
(* that is, the number of whole units, rounded down *)
Theorem C73_parse_floor : forall epoch r s t z, dur_ok epoch -> decimal s t -> epoch <= t \/ subsecond_exact r = true ->
  timestamp_from_str epoch r s = Done z -> epoch + z * unit_ns r <= t < epoch + (z + 1) * unit_ns r.
Proof.
  intros epoch r s t z He D X E. unfold timestamp_from_str in E. destruct (Z.leb_spec t dur_max) as [L|L];
    [rewrite (decimal_parse s t D L) in E|rewrite (decimal_too_large s t D L) in E; discriminate].
  assert (T0 : 0 <= t).
  { destruct D as [ds|ds fs]; [lia|]. assert (0 <= 10 ^ (9 - Z.of_nat (length fs))) by (apply Z.pow_nonneg; lia). nia. }
  unfold dur_ok in *. destruct (Z.ltb_spec t epoch) as [B|B].
  - destruct X as [X|X]; [lia|]. apply to_repr_neg_exact in E as [E _]; [lia|exact X|unfold dur_ok; lia].
  - apply to_repr_pos in E as [E _]; [lia|unfold dur_ok; lia].
Qed.
(* within one unit for the coarse resolutions before the epoch, where it rounds
   up or down; Days stand still at their smallest value *)
Theorem C73_parse_close : forall epoch r s t z, dur_ok epoch -> decimal s t -> (r = Days -> repr_min r < z) ->
  timestamp_from_str epoch r s = Done z -> Z.abs (epoch + z * unit_ns r - t) < unit_ns r.
Proof.
  intros epoch r s t z He D X E. destruct (Z.leb_spec epoch t) as [L|L].
  - pose proof (C73_parse_floor epoch r s t z He D (or_introl L) E). destruct r; cbn [unit_ns] in *; lia.
  - destruct (subsecond_exact r) eqn:Sx; [pose proof (C73_parse_floor epoch r s t z He D (or_intror Sx) E); destruct r; cbn [unit_ns] in *; lia|].
    unfold timestamp_from_str in E. rewrite (decimal_parse s t D) in E by (unfold dur_ok in *; lia).
    assert (T0 : 0 <= t).
    { destruct D as [ds|ds fs]; [lia|]. assert (0 <= 10 ^ (9 - Z.of_nat (length fs))) by (apply Z.pow_nonneg; lia). nia. }
    replace (t <? epoch) with true in E by lia.
    apply to_repr_neg_coarse in E as [E _]; [|exact Sx|unfold dur_ok in *; lia|exact X].
    assert (M : as_secs (epoch - t) * sec <= epoch - t < as_secs (epoch - t) * sec + sec) by (unfold as_secs; consts; zsolve).
    assert (U : exists k, unit_ns r = k * sec /\ 0 < k).
    { destruct r; try discriminate; cbn [unit_ns]; unfold sec; [exists 60|exists 3600|exists 86400|exists 604800]; lia. }
    destruct U as (k & U & K). rewrite U in *. unfold sec in *. nia.
Qed.
(* Parsing is total: any text is parsed or refused, nothing panics. *)
Theorem C73_parse_total : forall epoch r s, epoch = unix_epoch \/ epoch = bonsai_epoch -> timestamp_from_str epoch r s <> Panic.
Proof.
  intros epoch r s He E. unfold timestamp_from_str in E. destruct (parse_dur s) as [d|e|] eqn:Ep; [|discriminate|exact (parse_dur_nopanic s Ep)].
  assert (Db : 0 <= d <= dur_max).
  { apply parse_dur_inv in Ep as (p & ds & P & A & B & [[_ ->]|(f & fs & Q & F & L & _ & ->)]); [consts; lia|].
    assert (Lf : (length fs <= length f)%nat) by (destruct Q as [->| ->]; cbn [length]; lia).
    pose proof (fraction_bound fs _ F ltac:(lia) eq_refl) as X.
    assert (Y : (num fs * 10 ^ (9 - N.of_nat (length f)) < 10 ^ 9)%N) by (eapply N.le_lt_trans; [|exact X]; apply N.mul_le_mono_l; apply N.pow_le_mono_r; lia).
    apply N2Z.inj_lt in Y. rewrite pow9Z in Y by exact L. change (Z.of_N (10 ^ 9)) with 1000000000 in Y.
    assert (0 <= 10 ^ (9 - Z.of_nat (length f))) by (apply Z.pow_nonneg; lia). consts. nia. }
  destruct (Z.ltb_spec d epoch).
  - apply to_repr_panic in E as [_ E]; [consts; lia|consts; lia].
  - destruct (to_repr_fail_pos r (d - epoch)) as [F _]; [consts; lia|contradiction].
Qed.
(* Nothing else is accepted than decimal numbers of seconds, except that each of
   the two parts may begin with a plus sign. *)
Theorem C73_parse_only : forall epoch r s z, timestamp_from_str epoch r s = Done z ->
  exists p ds, (p = ds \/ p = 43%N :: ds) /\ all_digits ds /\
    (s = p \/ exists f fs, (f = fs \/ f = 43%N :: fs) /\ all_digits fs /\ (length f <= 9)%nat /\ s = p ++ dot :: f).
Proof.
  intros epoch r s z E. unfold timestamp_from_str in E. destruct (parse_dur s) as [d|e|] eqn:Ep; try discriminate.
  apply parse_dur_inv in Ep as (p & ds & P & A & _ & [[Es _]|(f & fs & Q & F & L & Es & _)]); exists p, ds; split; auto; split; auto.
  right. exists f, fs. auto.
Qed.
(* FINDING: the sign in the second part counts as a digit, so that a text that is
   no number is read as a time: "1.+5" is 1.05 seconds. *)
Theorem C73_plus_refuted : timestamp_from_str unix_epoch Milliseconds [49; 46; 43; 53]%N = Done 1050.
Proof. vm_compute. reflexivity. Qed.
(* A time that does not fit is refused. *)
Theorem C73_parse_range : forall epoch r s t e, epoch = unix_epoch \/ epoch = bonsai_epoch -> decimal s t ->
  timestamp_from_str epoch r s = Fail e ->
  dur_max < t \/ t < epoch + (repr_min r + 1) * unit_ns r \/ epoch + (repr_max r + 1) * unit_ns r <= t.
Proof.
  intros epoch r s t e He D E. destruct (Z.leb_spec t dur_max) as [L|L]; [|left; exact L]. right.
  unfold timestamp_from_str in E. rewrite (decimal_parse s t D L) in E.
  assert (T0 : 0 <= t).
  { destruct D as [ds|ds fs]; [lia|]. assert (0 <= 10 ^ (9 - Z.of_nat (length fs))) by (apply Z.pow_nonneg; lia). nia. }
  destruct (Z.ltb_spec t epoch).
  - left. apply to_repr_fail_neg in E as [_ E]; [lia|consts; lia].
  - right. destruct (to_repr_fail_pos r (t - epoch)) as [_ F]; [consts; lia|]. destruct (F e E). lia.
Qed.
Example C73_ex :
  repr_ok Milliseconds (-5000000000) /\
  to_timestamp_string bonsai_epoch Milliseconds (-5000000000) = Done [49; 57; 50; 54; 55; 52; 55; 53; 48; 55]%N /\
  to_timestamp_string bonsai_epoch Microseconds 7 = Done [49; 57; 51; 49; 55; 52; 55; 53; 48; 55; 46; 48; 48; 48; 48; 48; 55]%N /\
  timestamp_from_str bonsai_epoch Microseconds [49; 57; 51; 49; 55; 52; 55; 53; 48; 55; 46; 48; 48; 48; 48; 48; 55]%N = Done 7 /\
  timestamp_to_string unix_epoch Seconds (-5) = [45; 53; 115]%N /\
  timestamp_from_str unix_epoch Seconds [45; 53; 115]%N = Fail InvalidValue.
Proof. vm_compute. repeat split; discriminate. Qed.
Example C73_ex_decimal : decimal [49; 46; 53]%N 1500000000 /\ timestamp_from_str unix_epoch Seconds [49; 46; 53]%N = Done 1 /\ time_ok 1500000000.
Proof.
  split; [|split; vm_compute; [reflexivity|split; discriminate]].
  change 1500000000 with (Z.of_N (num [49%N]) * 1000000000 + Z.of_N (num [53%N]) * 10 ^ (9 - Z.of_nat (length [53%N]))).
  apply (fraction [49%N] [53%N]); [| |cbn; lia]; (split; [discriminate|]); intros b [<-|[]]; reflexivity.
Qed.
Example C73_ex_shortest : exact Microseconds 7 /\ to_timestamp_string bonsai_epoch Microseconds 7 =
  Done (map N.of_nat [49; 57; 51; 49; 55; 52; 55; 53; 48; 55]%nat ++ dot :: map N.of_nat [48; 48; 48; 48; 48; 55]%nat).
Proof. split; [split; [vm_compute; split; discriminate|right; right; vm_compute; discriminate]|vm_compute; reflexivity]. Qed.

(* ---------- time between timestamps ---------- *)
(* the moment a timestamp stands for, in nanoseconds since 1970 *)
Definition moment (a : any) : Z := match a with Limited epoch r z => epoch + z * unit_ns r | System t => t end.
Definition sound (a : any) : Prop :=
  match a with Limited epoch r z => dur_ok epoch /\ exact r z | System t => time_ok t end.
Lemma since_moment a : sound a ->
  (dur_ok (moment a) -> any_since_unix a = Done (moment a)) /\
  (forall d, any_since_unix a = Done d -> d = moment a /\ dur_ok d).
Proof.
  destruct a as [epoch r z|t]; cbn [sound moment any_since_unix].
  - intros (He & Hr & Hx). pose proof (since_unix_cases epoch r z He Hr) as C. destruct (since_unix epoch r z) as [d|e|]; [| |contradiction];
      destruct C as [C1 C2]; rewrite repr_value in * by assumption.
    + subst d. split; [reflexivity|]. intros d [= <-]. split; [reflexivity|exact C2].
    + split; [contradiction|discriminate].
  - intros T. destruct (Z.leb_spec 0 t); split.
    + reflexivity.
    + intros d [= <-]. split; [reflexivity|consts; lia].
    + intros D. consts. lia.
    + discriminate.
Qed.
(* duration_since: how much later a timestamp is, None if it is earlier. *)
Theorem C73_since : forall epoch r z other d, sound (Limited epoch r z) -> sound other ->
  duration_since epoch r z other = Done d ->
  d = if moment other <=? moment (Limited epoch r z) then Some (moment (Limited epoch r z) - moment other) else None.
Proof.
  intros epoch r z other d Sa So E. unfold duration_since in E. destruct (since_moment _ Sa) as [_ A]. destruct (since_moment _ So) as [_ O].
  cbn [any_since_unix] in A. destruct (since_unix epoch r z) as [x| |]; try discriminate. destruct (A x eq_refl) as [-> _].
  destruct (any_since_unix other) as [y| |]; try discriminate. destruct (O y eq_refl) as [-> _]. injection E as <-.
  unfold dur_checked_sub. reflexivity.
Qed.
(* duration_between: the distance, whichever is earlier. *)
Theorem C73_between : forall epoch r z other d, sound (Limited epoch r z) -> sound other ->
  duration_between epoch r z other = Done d -> d = Z.abs (moment (Limited epoch r z) - moment other).
Proof.
  intros epoch r z other d Sa So E. unfold duration_between in E. destruct (since_moment _ Sa) as [_ A]. destruct (since_moment _ So) as [_ O].
  cbn [any_since_unix] in A. destruct (since_unix epoch r z) as [x| |]; try discriminate. destruct (A x eq_refl) as [-> _].
  destruct (any_since_unix other) as [y| |]; try discriminate. destruct (O y eq_refl) as [-> _]. injection E as <-.
  cbn [moment]. generalize (epoch + z * unit_ns r), (moment other). intros x y. destruct (Z.ltb_spec x y); lia.
Qed.
(* Both answer whenever both timestamps are from 1970 on. *)
Theorem C73_since_answers : forall epoch r z other, sound (Limited epoch r z) -> sound other ->
  dur_ok (moment (Limited epoch r z)) -> dur_ok (moment other) ->
  (exists d, duration_since epoch r z other = Done d) /\ (exists d, duration_between epoch r z other = Done d).
Proof.
  intros epoch r z other Sa So Da Do. unfold duration_since, duration_between. destruct (since_moment _ Sa) as [A _]. destruct (since_moment _ So) as [O _].
  specialize (A Da). cbn [any_since_unix] in A. rewrite A, (O Do). split; eexists; reflexivity.
Qed.
(* FINDING: the documentation has it the other way round ("returns None if `other`
   is before `self`"): that is the case that gives a duration. *)
Theorem C73_documented_since_refuted : exists epoch r z other d, sound (Limited epoch r z) /\ sound other /\
  moment other < moment (Limited epoch r z) /\ duration_since epoch r z other = Done (Some d).
Proof.
  exists unix_epoch, Seconds, 10, (Limited unix_epoch Minutes 0), (10 * sec). cbn [sound moment].
  repeat split; try (vm_compute; congruence); try (vm_compute; reflexivity); try (right; right; vm_compute; discriminate).
Qed.
(* FINDING: the distance to a SystemTime before 1970 panics, although the function
   returns a Result, and a limited timestamp before 1970 is an error although the
   distance is representable. *)
Theorem C73_before_1970_refuted :
  duration_between unix_epoch Seconds 10 (System (- sec)) = Panic /\
  duration_between unix_epoch Seconds 10 (Limited unix_epoch Seconds (-1)) = Fail DeltaNotRepresentable.
Proof. vm_compute. split; reflexivity. Qed.
Example C73_ex_since : sound (Limited bonsai_epoch Hours 2) /\ sound (System 0) /\
  duration_since bonsai_epoch Hours 2 (System 0) = Done (Some (1931754707 * sec)) /\
  duration_since bonsai_epoch Hours 2 (Limited bonsai_epoch Hours 3) = Done None /\
  duration_between bonsai_epoch Hours 2 (Limited bonsai_epoch Hours 3) = Done (3600 * sec).
Proof. repeat split; try (vm_compute; congruence); try (vm_compute; reflexivity); try (right; left; reflexivity). Qed.

(* ---------- C58: sums of limited resolution durations ---------- *)
Theorem C58_limited_sum : forall r l z, Forall (exact r) l -> limited_sum r l = Done (Some z) ->
  (r = Days -> repr_min r < z) -> z = fold_right Z.add 0 l.
Proof.
  intros r l z H E X. rewrite limited_sum_eq in E. destruct (sdur_sum (map (repr_to_duration r) l)) as [d|] eqn:Es; [|discriminate].
  pose proof (sdur_sum_exact _ _ (map_sdur_ok r l H) Es) as V. rewrite (total_map r l H) in V.
  destruct (duration_to_repr r d) as [w| |] eqn:Ed; try discriminate. injection E as ->.
  exact (to_repr_multiple r d z _ (sdur_sum_ok _ d (map_sdur_ok r l H) Es) V Ed X).
Qed.
(* A sum that fits is found, if the sums of the leading elements fit in a Duration. *)
Theorem C58_limited_sum_found : forall r l, Forall (exact r) l -> l <> [] ->
  (forall n, Z.abs (fold_right Z.add 0 (firstn n l)) * unit_ns r <= dur_max) ->
  repr_min r < fold_right Z.add 0 l <= repr_max r ->
  limited_sum r l = Done (Some (fold_right Z.add 0 l)).
Proof.
  intros r l H N0 P B. rewrite limited_sum_eq. destruct (sdur_sum (map (repr_to_duration r) l)) as [d|] eqn:Es.
  - pose proof (sdur_sum_exact _ _ (map_sdur_ok r l H) Es) as V. rewrite (total_map r l H) in V.
    rewrite (to_repr_multiple_done r d _ (sdur_sum_ok _ d (map_sdur_ok r l H) Es) V B). reflexivity.
  - exfalso. destruct l as [|a l]; [contradiction|]. cbn [map sdur_sum] in Es. rewrite <- fold_map in Es.
    assert (G : forall l pre v, Forall (exact r) l -> sdur_ok v -> sdur_val v = fold_right Z.add 0 pre * unit_ns r ->
      (forall n, Z.abs (fold_right Z.add 0 (pre ++ firstn n l)) * unit_ns r <= dur_max) ->
      fold_left (fun acc x => match acc with Some v => sdur_add v (repr_to_duration r x) | None => None end) l (Some v) <> None).
    { clear. assert (T : forall p q, fold_right Z.add 0 (p ++ q) = fold_right Z.add 0 p + fold_right Z.add 0 q)
        by (induction p as [|x p IHp]; intros q; cbn [app fold_right]; [lia|]; rewrite IHp; lia).
      induction l as [|b l IH]; intros pre v H Ov V P; [discriminate|]. inversion_clear H as [|? ? Hb Hl]. cbn [fold_left].
      pose proof Hb as [Hr Hx]. pose proof (repr_sdur_ok r b Hr) as Ob. pose proof (repr_value r b Hr Hx) as Vb.
      destruct (sdur_add v (repr_to_duration r b)) as [ab|] eqn:Eab.
      - apply sdur_add_exact in Eab as [V' O]; [|assumption|assumption]. apply (IH (pre ++ [b])); [assumption|assumption| |].
        + rewrite T. cbn [fold_right]. lia.
        + intros n. rewrite <- app_assoc. exact (P (S n)).
      - apply sdur_add_none in Eab; [|assumption|assumption]. specialize (P 1%nat). cbn [firstn] in P. rewrite T in P. cbn [fold_right] in P.
        assert (U : 0 < unit_ns r) by (destruct r; reflexivity).
        assert (Hab : sdur_val v + sdur_val (repr_to_duration r b) = (fold_right Z.add 0 pre + (b + 0)) * unit_ns r) by lia.
        rewrite Hab, Z.abs_mul, (Z.abs_eq (unit_ns r)) in Eab by lia. lia. }
    inversion_clear H as [|? ? Ha Hl]. pose proof Ha as [Hr Hx]. apply (G l [a] _ Hl (repr_sdur_ok r a Hr)) in Es; [exact Es| |].
    + rewrite (repr_value r a Hr Hx). cbn [fold_right]. lia.
    + intros n. exact (P (S n)).
Qed.
(* FINDING: too small a sum of days is not reported, the sum stops at the smallest
   number of days. *)
Theorem C58_limited_days_refuted : Forall (exact Days) [repr_min Days; -1] /\
  limited_sum Days [repr_min Days; -1] = Done (Some (repr_min Days)).
Proof.
  split; [|vm_compute; reflexivity].
  repeat constructor; try (vm_compute; congruence).
Qed.
Example C58_ex_limited : Forall (exact Hours) [5; -7; 3] /\ limited_sum Hours [5; -7; 3] = Done (Some 1) /\
  limited_sum Nanoseconds [i64_max; 1] = Done None.
Proof.
  split; [|vm_compute; split; reflexivity].
  assert (X : forall z, -10 <= z <= 10 -> exact Hours z) by (intros z B; split; [consts; lia|right; left; reflexivity]).
  repeat constructor; apply X; lia.
Qed.
(* A limited resolution duration, and a timestamp before 1970, is printed as the number
   in decimal, without leading zeros, and the unit: no two durations print alike. *)
Definition unit_text (r : res) : list N :=
  match r with
  | Nanoseconds => [110; 115] (* ns *) | Microseconds => [117; 115] (* us *) | Milliseconds => [109; 115] (* ms *)
  | Seconds => [115] | Minutes => [109] | Hours => [104] | Days => [100] | Weeks => [119]
  end%N.
Lemma digits_head k : forall n, (n <> 0)%N -> hd 48%N (digits (S k) n) <> 48%N \/ (10 ^ N.of_nat (S k) <= n)%N.
Proof.
  induction k as [|k IH]; intros n Hn.
  - cbn [digits]. destruct (N.ltb_spec n 10) as [L|L].
    + left. cbn [app hd]. rewrite N.mod_small by exact L. lia.
    + right. change (10 ^ N.of_nat 1)%N with 10%N. exact L.
  - change (digits (S (S k)) n) with ((if (n <? 10)%N then [] else digits (S k) (n / 10)%N) ++ [48 + n mod 10]%N).
    destruct (N.ltb_spec n 10) as [L|L].
    + left. cbn [app hd]. rewrite N.mod_small by exact L. lia.
    + assert (Q : (n / 10 <> 0)%N) by (pose proof (N.div_mod n 10 ltac:(lia)); pose proof (N.mod_lt n 10 ltac:(lia)); lia).
      destruct (IH (n / 10)%N Q) as [A|A].
      * left. destruct (digits (S k) (n / 10)%N) as [|c l]; [cbn in A; congruence|exact A].
      * right. replace (N.of_nat (S (S k))) with (N.succ (N.of_nat (S k))) by lia. rewrite N.pow_succ_r'.
        pose proof (N.div_mod n 10 ltac:(lia)). lia.
Qed.
Theorem C73_display : forall r z, repr_ok r z ->
  exists ds, show_repr r z = (if z <? 0 then [45]%N else []) ++ ds ++ unit_text r /\
    all_digits ds /\ Z.of_N (num ds) = Z.abs z /\ (z = 0 -> ds = [48]%N) /\ (z <> 0 -> hd 48%N ds <> 48%N).
Proof.
  intros r z Hz. assert (B : (Z.to_N (Z.abs z) < 2 ^ 64)%N) by (destruct r; unfold repr_ok, repr_min, repr_max, i64_min, i64_max, i32_min, i32_max in Hz; lia).
  exists (to_string (Z.to_N (Z.abs z))). split; [|split; [apply to_string_all|split; [rewrite num_to_string by exact B; lia|split]]].
  - unfold show_repr, show_int. replace (unit_text r) with (suffix r) by (destruct r; reflexivity).
    destruct (Z.ltb_spec z 0); [replace (Z.abs z) with (- z) by lia|replace (Z.abs z) with z by lia]; cbn [app]; reflexivity.
  - intros ->. reflexivity.
  - intros N0. unfold to_string. destruct (digits_head 19 (Z.to_N (Z.abs z)) ltac:(lia)) as [A|A]; [exact A|]. exfalso.
    assert (2 ^ 64 <= 10 ^ N.of_nat 20)%N by (vm_compute; discriminate). lia.
Qed.
Lemma digits_app_inj a b c d : all_digits a -> all_digits b ->
  match c with [] => True | x :: _ => is_digit x = false end -> match d with [] => True | x :: _ => is_digit x = false end ->
  a ++ c = b ++ d -> a = b /\ c = d.
Proof.
  intros [_ A] [_ B] C D. revert b B. induction a as [|x a IH]; intros [|y b] B E; cbn [app] in E.
  - auto.
  - subst c. rewrite (B y (or_introl eq_refl)) in C. discriminate.
  - subst d. rewrite (A x (or_introl eq_refl)) in D. discriminate.
  - injection E as -> E. destruct (IH (fun k K => A k (or_intror K)) b (fun k K => B k (or_intror K)) E) as [-> ->]. auto.
Qed.
Theorem C73_display_injective : forall r r' z z', repr_ok r z -> repr_ok r' z' -> show_repr r z = show_repr r' z' -> r = r' /\ z = z'.
Proof.
  intros r r' z z' H H' E. destruct (C73_display r z H) as (a & Ea & Da & Va & _). destruct (C73_display r' z' H') as (b & Eb & Db & Vb & _).
  rewrite Ea, Eb in E.
  assert (U : forall r, match unit_text r with [] => True | x :: _ => is_digit x = false end) by (intros []; reflexivity).
  assert (K : a ++ unit_text r = b ++ unit_text r' /\ (z <? 0) = (z' <? 0)).
  { assert (F : forall q l m, all_digits q -> 45%N :: l = q ++ m -> False).
    { intros [|c q] l m [Q0 Q1] X; [congruence|]. cbn in X. injection X as <- _. discriminate (Q1 45%N (or_introl eq_refl)). }
    destruct (z <? 0), (z' <? 0); cbn [app] in E; [injection E as E; auto|exfalso; exact (F _ _ _ Db E)|exfalso; symmetry in E; exact (F _ _ _ Da E)|auto]. }
  destruct K as [K S]. destruct (digits_app_inj a b _ _ Da Db (U r) (U r') K) as [-> R].
  split; [destruct r, r'; cbn in R; congruence|]. lia.
Qed.
Example C73_ex_display : show_repr Days (-30) = [45; 51; 48; 100]%N /\ show_repr Nanoseconds 0 = [48; 110; 115]%N.
Proof. vm_compute. auto. Qed.
Print Assumptions C73_text.
Print Assumptions C73_text_exists.
Print Assumptions C73_shortest.
Print Assumptions C73_roundtrip.
Print Assumptions C73_roundtrip_any_epoch.
Print Assumptions C73_injective.
Print Assumptions C73_to_string.
Print Assumptions C73_parse.
Print Assumptions C73_parse_floor.
Print Assumptions C73_parse_close.
Print Assumptions C73_parse_total.
Print Assumptions C73_parse_only.
Print Assumptions C73_plus_refuted.
Print Assumptions C73_parse_range.
Print Assumptions C73_since.
Print Assumptions C73_between.
Print Assumptions C73_since_answers.
Print Assumptions C73_documented_since_refuted.
Print Assumptions C73_before_1970_refuted.
Print Assumptions C58_limited_sum.
Print Assumptions C58_limited_sum_found.
Print Assumptions C58_limited_days_refuted.
Print Assumptions C73_display.
Print Assumptions C73_display_injective.
