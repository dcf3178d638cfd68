(* C74: keys stored with a variable number of bytes. *)
From Verif Require Import Base Utf8 Key KeySpec KeyProofs KeyOrder Time TimeProofs VarKey VarKeyProofs PropTime.
From Coq Require Import ZifyBool Lia.
Local Open Scope Z_scope.

(* VarInt<T>, isize, usize, Signed, Unsigned: every number the crate can encode comes
   back, the bytes compare like the numbers, and two numbers never share a key *)
Theorem C74_numbers : forall V lo hi tlo thi, lawful V lo hi tlo thi ->
  forall y z, lo <= y <= hi -> lo <= z <= hi ->
  exists a b, num_encode V y = Done a /\ num_encode V z = Done b /\
    num_decode V a = Done y /\ lex a b = Z.compare y z /\ (a = b -> y = z).
Proof.
  intros V lo hi tlo thi L y z Hy Hz.
  destruct (num_roundtrip V lo hi tlo thi y L Hy) as (a & Ea & Da).
  destruct (num_roundtrip V lo hi tlo thi z L Hz) as (b & Eb & Db).
  exists a, b. unfold num_encode, num_decode. rewrite Ea, Eb. specialize (Da []). rewrite app_nil_r in Da. rewrite Da.
  assert (C : lex a b = Z.compare y z) by (destruct L as (_ & _ & L & _); apply L; assumption).
  repeat (split; [first [reflexivity|exact C]|]). intros ->. rewrite lex_refl in C.
  symmetry in C. apply Z.compare_eq in C. exact C.
Qed.
(* the numbers of the non-zero types *)
Theorem C74_nonzero : forall V lo hi tlo thi, lawful V lo hi tlo thi ->
  forall z b, lo <= z <= hi -> num_encode V z = Done b ->
  nonzero_decode V b = (if z =? 0 then Fail VZero else Done z).
Proof.
  intros V lo hi tlo thi L z b Hz E. unfold num_encode in E. destruct (venc V z) as [x|] eqn:Ez; [|discriminate].
  injection E as ->. destruct L as (_ & D & _). specialize (D z b [] Hz Ez). rewrite app_nil_r in D.
  unfold nonzero_decode. rewrite D. reflexivity.
Qed.
(* whatever bytes are decoded, the number is one of the type, and for the non-zero
   types never zero *)
Theorem C74_decoded_in_range : forall V lo hi tlo thi b z, lawful V lo hi tlo thi ->
  (num_decode V b = Done z -> tlo <= z <= thi) /\
  (nonzero_decode V b = Done z -> tlo <= z <= thi /\ z <> 0).
Proof.
  intros V lo hi tlo thi b z (_ & _ & _ & R). unfold num_decode, nonzero_decode.
  destruct (vdec V b) as [[x r]|] eqn:E; [|split; discriminate]. specialize (R b x r E). split.
  - intros H. injection H as <-. exact R.
  - destruct (Z.eqb_spec x 0); intros H; [discriminate|]. injection H as <-. auto.
Qed.
Example C74_numbers_example :
  lawful (sample (-2 ^ 63) (2 ^ 63 - 1)) (-2 ^ 63) (2 ^ 63 - 1) (-2 ^ 63) (2 ^ 63 - 1) /\
  num_encode (sample (-2 ^ 63) (2 ^ 63 - 1)) (-2 ^ 63 + 300) = Done [2; 1; 44]%N /\
  num_encode (sample (-2 ^ 63) (2 ^ 63 - 1)) 5 = Done [8; 128; 0; 0; 0; 0; 0; 0; 5]%N /\
  num_decode (sample (-2 ^ 63) (2 ^ 63 - 1)) [8; 128; 0; 0; 0; 0; 0; 0; 5]%N = Done 5 /\
  nonzero_decode (sample 0 (2 ^ 64 - 1)) [0]%N = Fail VZero.
Proof. split; [apply sample_lawful; lia|]. vm_compute. auto. Qed.

(* the next number, used as the exclusive end of a range: the least larger one of the
   type, or an error exactly for the largest *)
Theorem C74_next : forall min max z, min <= z <= max ->
  match next_num max z with
  | Done y => min <= y <= max /\ z < y /\ forall x, min <= x <= max -> z < x -> y <= x
  | Fail e => e = WouldWrap /\ z = max
  | Panic => False
  end.
Proof.
  intros min max z H. unfold next_num. destruct (Z.leb_spec (z + 1) max); [|split; [reflexivity|lia]].
  split; [lia|]. split; [lia|]. intros. lia.
Qed.
Theorem C74_next_nonzero : forall min max z, min <= z <= max -> z <> 0 -> 0 < max ->
  match next_nonzero max z with
  | Done y => min <= y <= max /\ y <> 0 /\ z < y /\ forall x, min <= x <= max -> x <> 0 -> z < x -> y <= x
  | Fail e => e = WouldWrap /\ z = max
  | Panic => False
  end.
Proof.
  intros min max z H Hz Hm. unfold next_nonzero. destruct (Z.leb_spec (z + 1) max); [|split; [reflexivity|lia]].
  destruct (Z.eqb_spec (z + 1) 0).
  - split; [lia|]. split; [lia|]. split; [lia|]. intros. lia.
  - split; [lia|]. split; [lia|]. split; [lia|]. intros. lia.
Qed.
Example C74_next_example : next_num 127 127 = Fail WouldWrap /\ next_nonzero 127 (-1) = Done 1 /\ next_num 127 (-1) = Done 0.
Proof. vm_compute. auto. Qed.

(* std::time::Duration: u128's numbers below 2^124 are what the crate can encode *)
Definition lawful_u128 (V : vint) : Prop := lawful V 0 (2 ^ 124 - 1) 0 (2 ^ 128 - 1).
(* storing never panics, every duration comes back to the nanosecond, the bytes
   compare like the durations *)
Theorem C74_durations : forall V, lawful_u128 V -> forall d e, dur_ok d -> dur_ok e ->
  exists a b, dur_encode V d = Done a /\ dur_encode V e = Done b /\
    dur_decode V a = Done d /\ lex a b = Z.compare d e.
Proof.
  intros V L d e Hd He. unfold dur_encode.
  destruct (num_roundtrip V _ _ _ _ _ L (proj1 (merged_bound d Hd))) as (a & Ea & Da).
  destruct (num_roundtrip V _ _ _ _ _ L (proj1 (merged_bound e He))) as (b & Eb & Db).
  exists a, b. rewrite Ea, Eb. split; [reflexivity|]. split; [reflexivity|].
  specialize (Da []). rewrite app_nil_r in Da. split; [apply (dur_decode_merged V a [] d Hd Da)|].
  rewrite <- merged_order by assumption. destruct L as (_ & _ & L & _).
  apply L; try assumption; apply merged_bound; assumption.
Qed.
(* std::time::SystemTime from 1970 on *)
Theorem C74_system_time : forall V, lawful_u128 V -> forall t u, 0 <= t <= time_max -> 0 <= u <= time_max ->
  exists a b, sys_encode V t = Done a /\ sys_encode V u = Done b /\
    sys_decode V a = Done t /\ lex a b = Z.compare t u.
Proof.
  intros V L t u Ht Hu. assert (M : time_max <= dur_max) by (vm_compute; discriminate).
  destruct (C74_durations V L t u) as (a & b & A & B & C & D); [split; lia|split; lia|].
  exists a, b. unfold sys_encode, sys_decode.
  destruct (Z.ltb_spec t 0); [lia|]. destruct (Z.ltb_spec u 0); [lia|]. rewrite C.
  destruct (Z.leb_spec t time_max); [|lia]. auto.
Qed.
(* before 1970: every one of them panics when used as a key *)
Theorem C74_before_1970_refuted : forall V t, t < 0 -> sys_encode V t = Panic.
Proof. intros V t H. unfold sys_encode. destruct (Z.ltb_spec t 0); [reflexivity|lia]. Qed.
(* decoding a stored duration gives a duration; but bytes that were not written by
   the encoder can panic the reader, and two byte strings can be the same duration *)
Theorem C74_duration_decoded : forall V b d, lawful_u128 V -> dur_decode V b = Done d -> dur_ok d.
Proof.
  intros V b d (_ & _ & _ & R) H. unfold dur_decode in H. destruct (vdec V b) as [[m r]|] eqn:E; [|discriminate].
  specialize (R b m r E). cbv zeta in H. destruct (u64_max <? m / 2 ^ 30); [discriminate|].
  destruct (Z.ltb_spec dur_max (m / 2 ^ 30 * sec + m mod 2 ^ 30)) as [X|X]; [discriminate|].
  injection H as <-. split; [|exact X].
  assert (0 <= m / 2 ^ 30) by (apply Z.div_pos; lia). assert (Y := Z.mod_pos_bound m (2 ^ 30) ltac:(lia)).
  assert (0 < sec) by reflexivity. nia.
Qed.
Theorem C74_duration_bytes_panic_refuted : forall V, lawful_u128 V -> exists b, dur_decode V b = Panic.
Proof.
  intros V L. destruct (num_roundtrip V _ _ _ _ (u64_max * 2 ^ 30 + sec) L ltac:(vm_compute; split; discriminate)) as (b & _ & D).
  exists b. specialize (D []). rewrite app_nil_r in D. unfold dur_decode. rewrite D. reflexivity.
Qed.
Theorem C74_duration_bytes_differ_refuted : forall V, lawful_u128 V ->
  exists a b, a <> b /\ dur_decode V a = Done sec /\ dur_decode V b = Done sec /\ lex a b = Lt.
Proof.
  intros V L. destruct (num_roundtrip V _ _ _ _ sec L ltac:(vm_compute; split; discriminate)) as (a & Ea & Da).
  destruct (num_roundtrip V _ _ _ _ (2 ^ 30) L ltac:(vm_compute; split; discriminate)) as (b & Eb & Db).
  exists a, b. specialize (Da []). specialize (Db []). rewrite app_nil_r in Da, Db. unfold dur_decode. rewrite Da, Db.
  assert (C : lex a b = Lt).
  { destruct L as (_ & _ & L & _). rewrite (L sec (2 ^ 30) a b) by (assumption || (vm_compute; split; discriminate)). reflexivity. }
  split; [|split; [reflexivity|split; [reflexivity|exact C]]]. intros ->. rewrite lex_refl in C. discriminate.
Qed.
(* no decoder looks at what follows the number *)
Theorem C74_trailing_bytes_refuted : forall V lo hi tlo thi z b rest, lawful V lo hi tlo thi -> lo <= z <= hi ->
  num_encode V z = Done b -> num_decode V (b ++ rest) = Done z.
Proof.
  intros V lo hi tlo thi z b rest (_ & D & _) Hz E. unfold num_encode in E. destruct (venc V z) as [x|] eqn:Ez; [|discriminate].
  injection E as ->. unfold num_decode. rewrite (D z b rest Hz Ez). reflexivity.
Qed.
(* bytes the integer decoder rejects are reported, and numbers too large for a
   duration too *)
Theorem C74_rejected : forall V b,
  (vdec V b = None -> num_decode V b = Fail VIo /\ nonzero_decode V b = Fail VIo /\
     dur_decode V b = Fail InvalidValue /\ sys_decode V b = Fail InvalidValue /\ limited_decode V b = Fail InvalidValue) /\
  (forall n rest, vdec V b = Some (n, rest) -> 2 ^ 94 <= n -> dur_decode V b = Fail DeltaNotRepresentable) /\
  (forall d, time_max < d <= dur_max -> dur_decode V b = Done d -> sys_decode V b = Fail DeltaNotRepresentable).
Proof.
  intros V b. split; [|split].
  - intros E. unfold sys_decode, num_decode, nonzero_decode, dur_decode, limited_decode. rewrite E. auto.
  - intros n rest E H. unfold dur_decode. rewrite E. cbv zeta. destruct (Z.ltb_spec u64_max (n / 2 ^ 30)) as [X|X]; [reflexivity|].
    exfalso. assert (2 ^ 64 <= n / 2 ^ 30) by (apply Z.div_le_lower_bound; lia). unfold u64_max in X. lia.
  - intros d H E. unfold sys_decode. rewrite E. destruct (Z.leb_spec d time_max); [lia|reflexivity].
Qed.
Example C74_durations_example : lawful_u128 (sample 0 (2 ^ 128 - 1)) /\ dur_ok dur_max /\
  dur_encode (sample 0 (2 ^ 128 - 1)) dur_max = Done [12; 63; 255; 255; 255; 255; 255; 255; 255; 251; 154; 201; 255]%N /\
  dur_encode (sample 0 (2 ^ 128 - 1)) (sec + 1) = Done [4; 64; 0; 0; 1]%N /\
  sys_decode (sample 0 (2 ^ 128 - 1)) [4; 64; 0; 0; 1]%N = Done (sec + 1) /\
  dur_decode (sample 0 (2 ^ 128 - 1)) [4; 59; 154; 202; 0]%N = Done sec /\
  dur_decode (sample 0 (2 ^ 128 - 1)) [16; 255; 255; 255; 255; 255; 255; 255; 255; 255; 255; 255; 255; 255; 255; 255; 255]%N = Fail DeltaNotRepresentable.
Proof. split; [apply sample_lawful; lia|]. split; [vm_compute; split; discriminate|]. vm_compute. repeat split. Qed.

(* LimitedResolutionDuration and LimitedResolutionTimestamp: i64 or i32 numbers of
   units: they come back, and the bytes are in chronological order *)
Theorem C74_limited : forall V r epoch, lawful V (repr_min r) (repr_max r) (repr_min r) (repr_max r) ->
  forall y z, repr_ok r y -> repr_ok r z ->
  exists a b, limited_encode V y = Done a /\ limited_encode V z = Done b /\
    limited_decode V a = Done y /\
    lex a b = Z.compare (epoch + y * unit_ns r) (epoch + z * unit_ns r).
Proof.
  intros V r epoch L y z Hy Hz.
  destruct (num_roundtrip V _ _ _ _ y L Hy) as (a & Ea & Da).
  destruct (num_roundtrip V _ _ _ _ z L Hz) as (b & Eb & Db).
  exists a, b. unfold limited_encode, limited_decode. rewrite Ea, Eb. specialize (Da []). rewrite app_nil_r in Da. rewrite Da.
  split; [reflexivity|]. split; [reflexivity|]. split; [reflexivity|].
  assert (0 < unit_ns r) by (destruct r; reflexivity).
  destruct L as (_ & _ & L & _). rewrite (L y z a b Hy Hz Ea Eb).
  destruct (Z.compare_spec y z) as [->|X|X]; symmetry; [apply Z.compare_refl|apply Z.compare_lt_iff; nia|apply Z.compare_gt_iff; nia].
Qed.
Example C74_limited_example :
  lawful (sample i32_min i32_max) (repr_min Weeks) (repr_max Weeks) (repr_min Weeks) (repr_max Weeks) /\
  limited_encode (sample i32_min i32_max) (-1) = Done [4; 127; 255; 255; 255]%N /\
  limited_encode (sample i32_min i32_max) 1 = Done [4; 128; 0; 0; 1]%N.
Proof. split; [apply sample_lawful; vm_compute; discriminate || reflexivity|]. vm_compute. auto. Qed.

(* enums with derived keys and no #[repr]: a key is the discriminant and the
   variant's fields. What is stored comes back ... *)
Theorem C74_enum_roundtrip : forall V lo hi tlo thi h vars d ts vs e, lawful V lo hi tlo thi -> lo <= d <= hi ->
  find_disc d vars = Some ts -> all2 _ _ typed ts vs = true ->
  forallb (fun t => exact t && no_sized_option t) ts = true ->
  enum_encode V h vars d vs = Done e -> (N.of_nat (length e) < 2 ^ 63)%N ->
  enum_decode V h vars e = Done (d, vs).
Proof.
  intros V lo hi tlo thi h vars d ts vs e L Hd F T K E Hl. apply (enum_roundtrip V lo hi tlo thi); try assumption.
  rewrite F. auto.
Qed.
(* ... and keys sort like Rust's derived Ord: by discriminant, then by the fields *)
Theorem C74_enum_order : forall V lo hi tlo thi h vars d1 t1 v1 e1 d2 t2 v2 e2, lawful V lo hi tlo thi ->
  lo <= d1 <= hi -> lo <= d2 <= hi -> find_disc d1 vars = Some t1 -> find_disc d2 vars = Some t2 ->
  all2 _ _ typed t1 v1 = true -> all2 _ _ typed t2 v2 = true ->
  all2 _ _ (orderable (inside_of h)) t1 v1 = true -> all2 _ _ (orderable (inside_of h)) t2 v2 = true ->
  enum_encode V h vars d1 v1 = Done e1 -> enum_encode V h vars d2 v2 = Done e2 ->
  lex e1 e2 = match Z.compare d1 d2 with Eq => list_cmp _ kcmp v1 v2 | c => c end.
Proof.
  intros V lo hi tlo thi h vars d1 t1 v1 e1 d2 t2 v2 e2 L H1 H2 F1 F2 T1 T2 O1 O2 E1 E2.
  apply (enum_order V lo hi tlo thi h vars d1 v1 e1 d2 v2 e2); try assumption; [rewrite F1|rewrite F2]; auto.
Qed.
(* an enum whose variants all have no fields is stored as its discriminant is *)
Theorem C74_enum_units : forall V h vars d, (forall p, In p vars -> snd p = []) -> In d (map fst vars) ->
  enum_encode V h vars d [] = match venc V d with Some b => Done b | None => Fail EInvalidData end.
Proof.
  intros V h vars d U I. unfold enum_encode.
  assert (F : exists ts, find_disc d vars = Some ts).
  { clear U. induction vars as [|[d' ts] r IH]; [destruct I|]. cbn. destruct (Z.eqb_spec d d') as [E|E]; [eauto|]. cbn in I. destruct I as [I|I]; [congruence|auto]. }
  assert (UO : unit_only vars = true).
  { apply forallb_forall. intros p J. rewrite (U p J). reflexivity. }
  destruct F as [ts ->]. rewrite UO. reflexivity.
Qed.
(* decoding any bytes never gives a value that is not one of the variants *)
Theorem C74_enum_decoded : forall V h vars b d vs, enum_decode V h vars b = Done (d, vs) ->
  exists ts, find_disc d vars = Some ts /\ length vs = length ts.
Proof.
  intros V h vars b d vs H. unfold enum_decode in H. destruct (unit_only vars) eqn:U.
  - destruct (vdec V b) as [[z r]|]; [|discriminate]. destruct (find_disc z vars) as [ts|] eqn:F; [|discriminate].
    injection H as <- <-. exists ts. split; [exact F|]. rewrite (unit_ts _ _ _ U F). reflexivity.
  - destruct (dec_field _ h None b (0%nat, length b)) as [[v st]| |]; try discriminate.
    destruct v; try discriminate. destruct (find_disc z vars) as [ts|] eqn:F; [|discriminate].
    destruct (dec_fields decode h b ts st) as [[ws st']| |] eqn:D; try discriminate.
    destruct (finish_dec st'); [|discriminate]. injection H as <- <-. exists ts. split; [exact F|].
    clear F U. revert st ws st' D. induction ts as [|t ts IH]; intros st ws st' D; cbn [dec_fields] in D.
    + injection D as <- _. reflexivity.
    + destruct (dec_field (decode t) h (klen t) b st) as [[v s1]| |]; try discriminate.
      destruct (dec_fields decode h b ts s1) as [[vs s2]| |] eqn:D2; try discriminate.
      injection D as <- _. cbn [length]. rewrite (IH _ _ _ D2). reflexivity.
Qed.
Definition ex_vars : list (Z * list kty) := [(0, [TStr; TU 2]); (-1, []); (7, [TBytes])].
Example C74_enum_example :
  let V := sample (-2 ^ 63) (2 ^ 63 - 1) in
  let h := EscapeNulls in
  enum_encode V h ex_vars 0 [VStr [104; 105]; VU 258]%N
    = Done [8; 128; 0; 0; 0; 0; 0; 0; 0; 0; 0; 0; 0; 0; 0; 0; 0; 104; 105; 0; 1; 2; 2; 16]%N /\
  enum_encode V h ex_vars (-1) [] = Done [8; 127; 255; 255; 255; 255; 255; 255; 255; 0; 9]%N /\
  enum_decode V h ex_vars [8; 127; 255; 255; 255; 255; 255; 255; 255; 0; 9]%N = Done (-1, []) /\
  enum_decode V h ex_vars [8; 128; 0; 0; 0; 0; 0; 0; 0; 0; 0; 0; 0; 0; 0; 0; 0; 104; 105; 0; 1; 2; 2; 16]%N
    = Done (0, [VStr [104; 105]; VU 258]%N) /\
  enum_encode V h [(0, []); (1, [])] 1 [] = Done [8; 128; 0; 0; 0; 0; 0; 0; 1]%N.
Proof. vm_compute. repeat split. Qed.

Print Assumptions C74_numbers.
Print Assumptions C74_nonzero.
Print Assumptions C74_decoded_in_range.
Print Assumptions C74_next.
Print Assumptions C74_next_nonzero.
Print Assumptions C74_durations.
Print Assumptions C74_system_time.
Print Assumptions C74_before_1970_refuted.
Print Assumptions C74_duration_decoded.
Print Assumptions C74_duration_bytes_panic_refuted.
Print Assumptions C74_duration_bytes_differ_refuted.
Print Assumptions C74_trailing_bytes_refuted.
Print Assumptions C74_limited.
Print Assumptions C74_enum_roundtrip.
Print Assumptions C74_enum_order.
Print Assumptions C74_enum_decoded.
Print Assumptions C74_rejected.
Print Assumptions C74_enum_units.
