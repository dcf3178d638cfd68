(* Property theorems C13, C14, C15 and C58: time. Durations and times are whole
   numbers of nanoseconds; [unit_ns r] is the length of one unit of resolution r. *)
From Verif Require Import Base Key Time TimeProofs.
Local Open Scope Z_scope.

(* C13 *)
(* Converting a number of units to a duration is exact, except for the smallest
   number of micro-, milli- and seconds. *)
Theorem C13_value_exact : forall r z, repr_ok r z ->
  (full_range r = true \/ subsecond_exact r = false \/ z <> repr_min r) ->
  sdur_val (repr_to_duration r z) = z * unit_ns r.
Proof. exact repr_value. Qed.
Theorem C13_roundtrip : forall r z, repr_ok r z -> full_range r = true \/ z <> repr_min r ->
  duration_to_repr r (repr_to_duration r z) = Done z.
Proof. exact repr_roundtrip. Qed.
(* Durations after the epoch, and all durations down to seconds, round down. *)
Theorem C13_floor : forall r s z, sdur_ok s ->
  (exists d, s = Pos d) \/ subsecond_exact r = true ->
  duration_to_repr r s = Done z ->
  z * unit_ns r <= sdur_val s < (z + 1) * unit_ns r /\ repr_ok r z.
Proof.
  intros r [d|d] z H X E; cbn [sdur_val] in *.
  - apply to_repr_pos in E; [|exact H]. split; [lia|]. unfold repr_ok. split; [|lia].
    apply Z.le_trans with 0; [destruct r; vm_compute; discriminate|lia].
  - destruct X as [[d' X]|X]; [discriminate|]. apply to_repr_neg_exact in E; [|exact X|exact H].
    split; [lia|]. unfold repr_ok. split; [lia|]. apply Z.le_trans with 0; [lia|destruct r; vm_compute; discriminate].
Qed.
(* Every resolution: at most one unit off, unless days saturate. *)
Theorem C13_within_one_unit : forall r s z, sdur_ok s ->
  duration_to_repr r s = Done z -> (r = Days -> repr_min r < z) ->
  Z.abs (z * unit_ns r - sdur_val s) < unit_ns r /\ repr_ok r z.
Proof.
  intros r s z H E D.
  destruct (subsecond_exact r) eqn:X.
  - destruct (C13_floor r s z H (or_intror X) E). split; [lia|assumption].
  - destruct s as [d|d]; cbn [sdur_val] in *.
    + destruct (C13_floor r (Pos d) z H (or_introl (ex_intro _ d eq_refl)) E). cbn [sdur_val] in *. split; [lia|assumption].
    + pose proof E as E'. apply to_repr_neg_coarse in E; [|assumption..]. destruct E as [E B].
      split.
      * unfold as_secs in E. cbn [sdur_ok] in H. unfold dur_ok in H.
        pose proof (Z.div_mod d sec). pose proof (Z.mod_pos_bound d sec). unfold sec in *.
        destruct r; try discriminate; cbn [unit_ns] in *; lia.
      * unfold repr_ok. split; [lia|]. apply Z.le_trans with 0; [lia|destruct r; vm_compute; discriminate].
Qed.
(* An error is reported only when the time does not fit. *)
Theorem C13_error_only_out_of_range : forall r s e, sdur_ok s -> duration_to_repr r s = Fail e ->
  sdur_val s < (repr_min r + 1) * unit_ns r \/ (repr_max r + 1) * unit_ns r <= sdur_val s.
Proof.
  intros r [d|d] e H E; cbn [sdur_val].
  - right. destruct (to_repr_fail_pos r d H) as [_ F]. apply (F e E).
  - left. apply (to_repr_fail_neg r d e H E).
Qed.
(* Timestamps with an epoch *)
Theorem C13_time_roundtrip : forall epoch r z t,
  0 <= epoch <= time_max -> repr_ok r z -> full_range r = true \/ z <> repr_min r ->
  to_time epoch r z = Done t -> of_time epoch r t = Done z.
Proof. exact time_roundtrip. Qed.
Theorem C13_time_floor : forall epoch r t z,
  0 <= epoch <= time_max -> time_ok t -> (epoch <= t \/ subsecond_exact r = true) ->
  of_time epoch r t = Done z -> epoch + z * unit_ns r <= t < epoch + (z + 1) * unit_ns r.
Proof. exact time_floor. Qed.
Example C13_ex : (* 2022-02-10 as minutes relative to the BonsaiDb epoch *)
  0 <= bonsai_epoch <= time_max /\ of_time bonsai_epoch Minutes (1644451200 * sec) = Done (-4788272) /\
  repr_ok Minutes (-4788272) /\ to_time bonsai_epoch Minutes (-4788272) = Done (1644451187 * sec) /\
  of_time bonsai_epoch Milliseconds (1644451200123456789) = Done (-287296306877).
Proof. vm_compute. repeat split; discriminate. Qed.
(* The smallest representable values *)
Theorem C13_min_roundtrip_refuted : forall r, full_range r = false ->
  repr_ok r (repr_min r) /\ duration_to_repr r (repr_to_duration r (repr_min r)) = Fail DeltaNotRepresentable.
Proof. intros r H. destruct r; try discriminate; vm_compute; repeat split; discriminate. Qed.
Theorem C13_min_value_refuted :
  sdur_val (repr_to_duration Seconds (repr_min Seconds)) <> repr_min Seconds * unit_ns Seconds.
Proof. vm_compute. discriminate. Qed.
(* Before the epoch, minutes and longer can end up later than the given time *)
Theorem C13_negative_floor_refuted : forall r, subsecond_exact r = false ->
  exists d z, dur_ok d /\ duration_to_repr r (Neg d) = Done z /\ - d < z * unit_ns r.
Proof.
  intros r H. exists (unit_ns r + 1), (-1).
  destruct r; try discriminate; vm_compute; repeat split; discriminate.
Qed.
(* Days saturate instead of reporting an error; minutes, hours, days and weeks
   overflow for extreme durations *)
Theorem C13_days_saturate_refuted : exists d, dur_ok d /\ duration_to_repr Days (Neg d) = Done (repr_min Days) /\
  - d < (repr_min Days - 1) * unit_ns Days.
Proof. exists (2 ^ 32 * unit_ns Days). vm_compute. repeat split; discriminate. Qed.
Theorem C13_overflow_refuted : forall r, subsecond_exact r = false -> duration_to_repr r (Neg dur_max) = Panic.
Proof. intros r H. destruct r; try discriminate; vm_compute; reflexivity. Qed.
Print Assumptions C13_value_exact.
Print Assumptions C13_roundtrip.
Print Assumptions C13_floor.
Print Assumptions C13_within_one_unit.
Print Assumptions C13_error_only_out_of_range.
Print Assumptions C13_time_roundtrip.
Print Assumptions C13_time_floor.
Print Assumptions C13_min_roundtrip_refuted.
Print Assumptions C13_negative_floor_refuted.
Print Assumptions C13_days_saturate_refuted.

(* Going back to a system time is exact, and fails exactly when the time does not
   fit the system's range. *)
Theorem C13_to_time_exact : forall epoch r z, 0 <= epoch <= time_max -> repr_ok r z ->
  (full_range r = true \/ subsecond_exact r = false \/ z <> repr_min r) ->
  (time_ok (epoch + z * unit_ns r) -> to_time epoch r z = Done (epoch + z * unit_ns r)) /\
  (~ time_ok (epoch + z * unit_ns r) -> to_time epoch r z = Fail DeltaNotRepresentable).
Proof.
  intros epoch r z He Hz X. unfold to_time, time_ok. rewrite repr_value by assumption.
  destruct (Z.ltb_spec time_max epoch); [lia|].
  destruct (Z.leb_spec time_min (epoch + z * unit_ns r)), (Z.leb_spec (epoch + z * unit_ns r) time_max); cbn [andb]; split; intros; try reflexivity; exfalso; lia.
Qed.
(* A specification of civil time, independent of the code: days in a year, in the months before month [m], and the second a UTC date names. *)
Definition leap (y : Z) : bool := (y mod 4 =? 0) && (negb (y mod 100 =? 0) || (y mod 400 =? 0)).
Definition month_days (y m : Z) : Z :=
  if m =? 2 then (if leap y then 29 else 28) else if (m =? 4) || (m =? 6) || (m =? 9) || (m =? 11) then 30 else 31.
Definition zsum (f : Z -> Z) (from : Z) (n : nat) : Z := fold_right Z.add 0 (map (fun i => f (from + Z.of_nat i)) (seq 0 n)).
Definition utc (y m d hh mm ss : Z) : Z :=
  (zsum (fun y => if leap y then 366 else 365) 1970 (Z.to_nat (y - 1970)) + zsum (month_days y) 1 (Z.to_nat (m - 1)) + (d - 1)) * 86400
  + hh * 3600 + mm * 60 + ss.
(* The BonsaiDb epoch is the documented date: March 20, 2031 04:31:47 UTC. *)
Theorem C13_epoch : forall r z, repr_ok r z -> full_range r = true \/ z <> repr_min r -> time_ok (utc 2031 3 20 4 31 47 * sec + z * unit_ns r) ->
  to_time bonsai_epoch r z = Done (utc 2031 3 20 4 31 47 * sec + z * unit_ns r).
Proof.
  intros r z Hz X T. assert (E : utc 2031 3 20 4 31 47 * sec = bonsai_epoch) by (vm_compute; reflexivity). rewrite E in *.
  apply C13_to_time_exact; [vm_compute; split; discriminate|assumption|tauto|assumption].
Qed.
Theorem C13_unix_epoch : utc 1970 1 1 0 0 0 * sec = unix_epoch.
Proof. reflexivity. Qed.
Example C13_ex_epoch : to_time bonsai_epoch Seconds 0 = Done (utc 2031 3 20 4 31 47 * sec) /\ utc 2000 3 1 0 0 0 = 951868800.
Proof. vm_compute. split; reflexivity. Qed.
(* A time is refused only when it is too far from the epoch for the resolution. *)
Theorem C13_of_time_error_only_out_of_range : forall epoch r t e, 0 <= epoch <= time_max -> time_ok t ->
  of_time epoch r t = Fail e ->
  t < epoch + (repr_min r + 1) * unit_ns r \/ epoch + (repr_max r + 1) * unit_ns r <= t.
Proof.
  intros epoch r t e He Ht H. unfold of_time in H. destruct (Z.ltb_spec time_max epoch); [lia|].
  assert (B : forall d, 0 <= d <= time_max - time_min -> dur_ok d) by (intros d D; consts; lia).
  assert (M : time_min < 0) by (consts; lia). unfold time_ok in Ht. destruct (Z.leb_spec epoch t) as [L|L].
  - destruct (C13_error_only_out_of_range r (Pos (t - epoch)) e (B (t - epoch) ltac:(lia)) H); cbn [sdur_val] in *; lia.
  - destruct (C13_error_only_out_of_range r (Neg (epoch - t)) e (B (epoch - t) ltac:(lia)) H); cbn [sdur_val] in *; lia.
Qed.
Example C13_ex2 : time_ok (unix_epoch + 5 * unit_ns Weeks) /\ ~ time_ok (unix_epoch + i64_max * unit_ns Minutes) /\
  to_time unix_epoch Weeks 5 = Done (3024000 * sec) /\ of_time unix_epoch Nanoseconds (i64_max * sec) = Fail DeltaNotRepresentable.
Proof. repeat split; try (vm_compute; discriminate). intros [_ H]. vm_compute in H. apply H. reflexivity. Qed.
Print Assumptions C13_to_time_exact.
Print Assumptions C13_of_time_error_only_out_of_range.
Print Assumptions C13_min_value_refuted.
Print Assumptions C13_overflow_refuted.

(* C14 *)
Theorem C14_add_exact : forall t d u, ts_ok t -> dur_ok d ->
  ts_seconds t * sec + ts_nanos t + d <= dur_max -> ts_add t d = Done u ->
  ts_seconds u * sec + ts_nanos u = ts_seconds t * sec + ts_nanos t + d.
Proof. intros t d u Ht Hd B E. apply (ts_add_exact t d u Ht Hd B E). Qed.
Theorem C14_add_never_panics : forall t d, ts_ok t -> dur_ok d -> exists u, ts_add t d = Done u.
Proof. intros t d Ht Hd. destruct (ts_add_shape t d Ht Hd) as (n & _ & _ & ->). eexists. reflexivity. Qed.
Theorem C14_add_not_earlier : forall t d u, ts_ok t -> dur_ok d ->
  ts_seconds t * sec + ts_nanos t + d <= dur_max -> ts_add t d = Done u -> ts_le t u.
Proof. exact ts_add_ge. Qed.
Theorem C14_add_monotone : forall t d e u v, ts_ok t -> dur_ok d -> dur_ok e -> d <= e ->
  ts_seconds t * sec + ts_nanos t + e <= dur_max -> ts_add t d = Done u -> ts_add t e = Done v -> ts_le u v.
Proof. exact ts_add_mono. Qed.
Theorem C14_add_nanos : forall t d u, ts_ok t -> dur_ok d -> ts_add t d = Done u ->
  ts_nanos t + d mod sec <> sec -> 0 <= ts_nanos u < sec.
Proof. intros t d u Ht Hd E N. destruct (ts_add_nanos t d u Ht Hd E) as [B I]. unfold subsec_nanos in I. lia. Qed.
Example C14_ex : ts_ok (mk_ts 5 700000000) /\ dur_ok 1600000000 /\
  ts_add (mk_ts 5 700000000) 1600000000 = Done (mk_ts 7 300000000).
Proof. vm_compute. repeat split; discriminate. Qed.
(* A sum that hits a full second is not normalised and is not equal to the same time *)
Theorem C14_nanos_refuted : exists t d u, ts_ok t /\ dur_ok d /\ ts_add t d = Done u /\ ts_nanos u = sec.
Proof. exists (mk_ts 5 500000000), 500000000, (mk_ts 5 1000000000). vm_compute. repeat split; discriminate. Qed.
(* At the end of the range the result is earlier *)
Theorem C14_saturation_refuted : exists t d u, ts_ok t /\ dur_ok d /\ ts_add t d = Done u /\ ts_compare u t = Lt.
Proof. exists (mk_ts u64_max 999999999), 2, (mk_ts u64_max 1). vm_compute. repeat split; discriminate. Qed.
(* The difference of two timestamps is exact, and missing when the first is earlier. *)
Theorem C14_sub_exact : forall a b, ts_ok a -> ts_ok b ->
  (ts_le b a -> ts_sub a b = Done (Some ((ts_seconds a * sec + ts_nanos a) - (ts_seconds b * sec + ts_nanos b)))) /\
  (ts_compare a b = Lt -> ts_sub a b = Done None).
Proof.
  intros a b [A1 A2] [B1 B2]. unfold ts_sub, ts_le, ts_compare, dur_checked_sub, ts_total, dur_max, u64_max, sec in *.
  destruct (Z.ltb_spec (2 ^ 64 * 1000000000 - 1) (ts_seconds a * 1000000000 + ts_nanos a)); [lia|].
  destruct (Z.ltb_spec (2 ^ 64 * 1000000000 - 1) (ts_seconds b * 1000000000 + ts_nanos b)); [lia|]. cbn [orb].
  split; intros H1; destruct (Z.leb_spec (ts_seconds b * 1000000000 + ts_nanos b) (ts_seconds a * 1000000000 + ts_nanos a)); try reflexivity; exfalso.
  - destruct (Z.compare_spec (ts_seconds b) (ts_seconds a)); try lia; [|apply H1; reflexivity].
    destruct (Z.compare_spec (ts_nanos b) (ts_nanos a)); try lia. apply H1; reflexivity.
  - destruct (Z.compare_spec (ts_seconds a) (ts_seconds b)); try discriminate; try lia.
    destruct (Z.compare_spec (ts_nanos a) (ts_nanos b)); try discriminate; lia.
Qed.
Example C14_ex_sub : ts_ok (mk_ts 5 700000000) /\ ts_ok (mk_ts 7 200000000) /\
  ts_sub (mk_ts 7 200000000) (mk_ts 5 700000000) = Done (Some 1500000000) /\ ts_sub (mk_ts 5 700000000) (mk_ts 7 200000000) = Done None.
Proof. vm_compute. repeat split; discriminate. Qed.
Print Assumptions C14_sub_exact.
Print Assumptions C14_add_exact.
Print Assumptions C14_add_never_panics.
Print Assumptions C14_add_not_earlier.
Print Assumptions C14_add_monotone.
Print Assumptions C14_add_nanos.
Print Assumptions C14_nanos_refuted.
Print Assumptions C14_saturation_refuted.

(* C15 *)
Theorem C15_order : forall a b, ts_typed a -> ts_typed b -> lex (ts_encode a) (ts_encode b) = ts_compare a b.
Proof. exact ts_encode_lex. Qed.
(* for normalised timestamps the order is that of time *)
Theorem C15_chronological : forall a b, ts_ok a -> ts_ok b ->
  (lex (ts_encode a) (ts_encode b) = Lt <->
   ts_seconds a * sec + ts_nanos a < ts_seconds b * sec + ts_nanos b).
Proof.
  intros a b [A1 A2] [B1 B2]. rewrite ts_encode_lex by (split; unfold sec in *; lia).
  unfold ts_compare, sec in *. destruct (Z.compare_spec (ts_seconds a) (ts_seconds b)).
  - destruct (Z.compare_spec (ts_nanos a) (ts_nanos b)); split; try discriminate; try reflexivity; lia.
  - split; [lia|reflexivity].
  - split; [discriminate|lia].
Qed.
Theorem C15_roundtrip : forall t, ts_typed t -> ts_decode (ts_encode t) = Some t.
Proof. exact ts_decode_encode. Qed.
Theorem C15_decode_sound : forall b t, bytes_ok b -> ts_decode b = Some t -> ts_typed t /\ ts_encode t = b.
Proof. exact ts_decode_ok. Qed.
Example C15_ex : ts_ok (mk_ts 258 3) /\ ts_encode (mk_ts 258 3) = [0;0;0;0;0;0;1;2;0;0;0;3]%N.
Proof. vm_compute. repeat split; discriminate. Qed.
Print Assumptions C15_order.
Print Assumptions C15_chronological.
Print Assumptions C15_roundtrip.
Print Assumptions C15_decode_sound.

(* C58: signed durations *)
Theorem C58_add_exact : forall a b c, sdur_ok a -> sdur_ok b -> sdur_add a b = Some c ->
  sdur_val c = sdur_val a + sdur_val b /\ sdur_ok c.
Proof. exact sdur_add_exact. Qed.
Theorem C58_add_overflow : forall a b, sdur_ok a -> sdur_ok b -> sdur_add a b = None ->
  dur_max < Z.abs (sdur_val a + sdur_val b).
Proof. exact sdur_add_none. Qed.
Theorem C58_sum_exact : forall l c, Forall sdur_ok l -> sdur_sum l = Some c ->
  sdur_val c = fold_right (fun s n => sdur_val s + n) 0 l.
Proof. exact sdur_sum_exact. Qed.
(* the sum of nothing is reported as an overflow instead of zero *)
Theorem C58_empty_sum_refuted : sdur_sum [] = None.
Proof. reflexivity. Qed.
Example C58_ex : sdur_ok (Pos 5) /\ sdur_ok (Neg 7) /\ sdur_add (Pos 5) (Neg 7) = Some (Neg 2) /\
  sdur_sum [Pos 5; Neg 7; Pos 3] = Some (Pos 1).
Proof. vm_compute. repeat split; discriminate. Qed.
(* A sum is refused only because there is nothing to add or because the exact sum
   of some leading elements does not fit. *)
Theorem C58_sum_overflow : forall l, Forall sdur_ok l -> sdur_sum l = None -> l <> [] ->
  exists n, dur_max < Z.abs (fold_right (fun s n => sdur_val s + n) 0 (firstn n l)).
Proof.
  intros [|a l] H E NE; [contradiction|]. clear NE. cbn [sdur_sum] in E.
  assert (G : forall l a pre, sdur_ok a -> Forall sdur_ok l -> sdur_val a = total pre ->
    fold_left (fun acc x => match acc with Some v => sdur_add v x | None => None end) l (Some a) = None ->
    exists n, dur_max < Z.abs (total (pre ++ firstn n l))).
  { clear. induction l as [|b l IH]; intros a pre Ha Hl V E; [discriminate|]. inversion_clear Hl as [|? ? Hb Hl'].
    assert (T : forall p q, total (p ++ q) = total p + total q) by (clear; intros p q; unfold total; induction p as [|x p IHp]; cbn [app fold_right]; lia).
    cbn [fold_left] in E. destruct (sdur_add a b) as [ab|] eqn:Eab.
    - destruct (sdur_add_exact a b ab Ha Hb Eab) as [V' O]. destruct (IH ab (pre ++ [b]) O Hl') as [n Hn]; [|exact E|].
      + rewrite T. cbn [total fold_right]. lia.
      + exists (S n). rewrite <- app_assoc in Hn. exact Hn.
    - exists 1%nat. apply sdur_add_none in Eab; [|assumption|assumption]. rewrite T. cbn [firstn total fold_right]. rewrite <- V. lia. }
  inversion_clear H as [|? ? Ha Hl]. destruct (G l a [a] Ha Hl ltac:(cbn; lia) E) as [n Hn]. exists (S n). exact Hn.
Qed.
Example C58_ex_overflow : Forall sdur_ok [Pos dur_max; Pos 1; Neg 5] /\ sdur_sum [Pos dur_max; Pos 1; Neg 5] = None.
Proof. split; [|vm_compute; reflexivity]. repeat constructor; vm_compute; discriminate. Qed.
Print Assumptions C58_sum_overflow.
Print Assumptions C58_add_exact.
Print Assumptions C58_add_overflow.
Print Assumptions C58_sum_exact.
Print Assumptions C58_empty_sum_refuted.
Print Assumptions C13_epoch.
Print Assumptions C13_unix_epoch.
