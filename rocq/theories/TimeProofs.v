From Verif Require Import Base Utf8 Key KeyProofs Time.
From Coq Require Import ZifyBool.
Local Open Scope Z_scope.

(* nanoseconds in one unit of a resolution *)
Definition unit_ns (r : res) : Z :=
  match r with
  | Nanoseconds => 1 | Microseconds => 1000 | Milliseconds => 1000000 | Seconds => 1000000000
  | Minutes => 60000000000 | Hours => 3600000000000 | Days => 86400000000000 | Weeks => 604800000000000
  end.
(* the resolutions whose representation is exact down to the smallest number *)
Definition full_range (r : res) : bool := match r with Nanoseconds | Days => true | _ => false end.
Definition subsecond_exact (r : res) : bool :=
  match r with Nanoseconds | Microseconds | Milliseconds | Seconds => true | _ => false end.

Ltac consts := cbv [sec dur_max u64_max i64_max i64_min i32_max i32_min f_minute f_hour f_day f_week
  repr_min repr_max repr_ok unit_ns sdur_ok dur_ok time_max time_min time_ok bonsai_epoch unix_epoch] in *.
Ltac zsolve := Z.div_mod_to_equations; lia.

Lemma repr_value r z : repr_ok r z -> (full_range r = true \/ subsecond_exact r = false \/ z <> repr_min r) ->
  sdur_val (repr_to_duration r z) = z * unit_ns r.
Proof.
  intros H X. destruct r; unfold repr_to_duration, abs_or; cbn [full_range subsecond_exact] in X; consts;
    destruct (Z.leb_spec 0 z); cbn [sdur_val]; try lia;
    destruct (Z.eqb_spec z (- 2 ^ 63)); lia.
Qed.

Lemma repr_sdur_ok r z : repr_ok r z -> sdur_ok (repr_to_duration r z).
Proof.
  intros H. destruct r; unfold repr_to_duration, abs_or; consts;
    destruct (Z.leb_spec 0 z); try lia; destruct (Z.eqb_spec z (- 2 ^ 63)); lia.
Qed.

Lemma repr_roundtrip r z : repr_ok r z -> full_range r = true \/ z <> repr_min r ->
  duration_to_repr r (repr_to_duration r z) = Done z.
Proof.
  intros H X. destruct r; unfold repr_to_duration, abs_or; cbn [full_range] in X; consts;
    destruct (Z.leb_spec 0 z); try (destruct (Z.eqb_spec z (- 2 ^ 63)); try lia);
    cbn [duration_to_repr]; unfold to_int, neg_rounded, neg_factor, neg_int, dur_checked_add, as_secs; consts;
    repeat match goal with |- context [if ?b then _ else _] => destruct b eqn:? end;
    try reflexivity; try (f_equal; zsolve); try zsolve.
Qed.

(* what conversion of a duration gives *)
Lemma to_repr_pos r d z : dur_ok d -> duration_to_repr r (Pos d) = Done z ->
  z * unit_ns r <= d < (z + 1) * unit_ns r /\ 0 <= z <= repr_max r.
Proof.
  intros H. destruct r; cbn [duration_to_repr]; unfold to_int, as_secs; consts;
    match goal with |- (if ?b then _ else _) = _ -> _ => destruct b eqn:E end; try discriminate;
    injection 1 as <-; zsolve.
Qed.
Lemma to_repr_neg_exact r d z : subsecond_exact r = true -> dur_ok d -> duration_to_repr r (Neg d) = Done z ->
  z * unit_ns r <= - d < (z + 1) * unit_ns r /\ repr_min r <= z <= 0.
Proof.
  intros X H. destruct r; try discriminate; cbn [duration_to_repr]; unfold neg_rounded, neg_int, dur_checked_add, as_secs; consts;
    repeat match goal with |- context [if ?b then _ else _] => destruct b eqn:? end; try discriminate;
    injection 1 as <-; zsolve.
Qed.
(* minutes and longer: the part below one second is dropped first *)
Lemma to_repr_neg_coarse r d z : subsecond_exact r = false -> dur_ok d -> duration_to_repr r (Neg d) = Done z ->
  (r = Days -> repr_min r < z) ->
  z * unit_ns r <= - (as_secs d * sec) < (z + 1) * unit_ns r /\ repr_min r <= z <= 0.
Proof.
  intros X H. destruct r; try discriminate; cbn [duration_to_repr]; unfold neg_factor, neg_int, as_secs; consts;
    repeat match goal with |- context [if ?b then _ else _] => destruct b eqn:? end; try discriminate;
    injection 1 as <-; intros D; try specialize (D eq_refl); zsolve.
Qed.

Lemma to_repr_fail_pos r d : dur_ok d -> duration_to_repr r (Pos d) <> Panic /\
  (forall e, duration_to_repr r (Pos d) = Fail e -> e = DeltaNotRepresentable /\ (repr_max r + 1) * unit_ns r <= d).
Proof.
  intros H. destruct r; cbn [duration_to_repr]; unfold to_int, as_secs; consts;
    match goal with |- context [if ?b then _ else _] => destruct b eqn:E end;
    (split; [discriminate|]); intros e F; try discriminate; injection F as <-; (split; [reflexivity|]); zsolve.
Qed.
Lemma to_repr_fail_neg r d e : dur_ok d -> duration_to_repr r (Neg d) = Fail e ->
  e = DeltaNotRepresentable /\ - d < (repr_min r + 1) * unit_ns r.
Proof.
  intros H. destruct r; cbn [duration_to_repr]; unfold neg_rounded, neg_factor, neg_int, dur_checked_add, as_secs; consts;
    repeat match goal with |- context [if ?b then _ else _] => destruct b eqn:? end; try discriminate;
    intros F; injection F as <-; (split; [reflexivity|]); zsolve.
Qed.
Lemma to_repr_panic r d : dur_ok d -> duration_to_repr r (Neg d) = Panic -> 
  subsecond_exact r = false /\ (2 ^ 64 - 604801) * sec <= d.
Proof.
  intros H. destruct r; cbn [duration_to_repr]; unfold neg_rounded, neg_factor, neg_int, dur_checked_add, as_secs; consts;
    repeat match goal with |- context [if ?b then _ else _] => destruct b eqn:? end; try discriminate;
    intros _; (split; [reflexivity|]); zsolve.
Qed.

(* signed addition *)
Lemma sdur_add_exact a b c : sdur_ok a -> sdur_ok b -> sdur_add a b = Some c ->
  sdur_val c = sdur_val a + sdur_val b /\ sdur_ok c.
Proof.
  destruct a, b; cbn [sdur_add sdur_ok sdur_val]; unfold dur_checked_add, dur_checked_sub, dur_ok; intros H1 H2;
    match goal with |- context [if ?x then _ else _] => destruct x eqn:? end; cbn [option_map]; try discriminate;
    injection 1 as <-; cbn [sdur_val sdur_ok]; unfold dur_ok; lia.
Qed.
Lemma sdur_add_none a b : sdur_ok a -> sdur_ok b -> sdur_add a b = None ->
  dur_max < Z.abs (sdur_val a + sdur_val b).
Proof.
  destruct a, b; cbn [sdur_add sdur_ok sdur_val]; unfold dur_checked_add, dur_checked_sub, dur_ok; intros H1 H2;
    match goal with |- context [if ?x then _ else _] => destruct x eqn:? end; cbn [option_map]; try discriminate; intros _; lia.
Qed.
Definition total (l : list sdur) : Z := fold_right (fun s n => sdur_val s + n) 0 l.
Lemma fold_none (l : list sdur) : fold_left (fun acc x => match acc with Some v => sdur_add v x | None => None end) l None = None.
Proof. induction l; cbn; auto. Qed.
Lemma sdur_sum_exact l c : Forall sdur_ok l -> sdur_sum l = Some c -> sdur_val c = total l.
Proof.
  destruct l as [|a l]; [discriminate|]. cbn [sdur_sum]. revert a.
  induction l as [|b l IH]; intros a H; cbn [fold_left].
  - injection 1 as <-. cbn. lia.
  - intros E. inversion_clear H as [|? ? Ha Hl]. inversion_clear Hl as [|? ? Hb Hl'].
    destruct (sdur_add a b) as [ab|] eqn:Eab; [|rewrite fold_none in E; discriminate].
    destruct (sdur_add_exact a b ab Ha Hb Eab) as [V O].
    rewrite (IH ab) by (try constructor; assumption). cbn [total fold_right] in *. lia.
Qed.

(* timestamps relative to an epoch *)
Lemma time_roundtrip epoch r z t : 0 <= epoch <= time_max -> repr_ok r z -> full_range r = true \/ z <> repr_min r ->
  to_time epoch r z = Done t -> of_time epoch r t = Done z.
Proof.
  intros He Hz X. unfold to_time, of_time. destruct (Z.ltb_spec time_max epoch); [lia|].
  match goal with |- (if ?b then _ else _) = _ -> _ => destruct b eqn:B end; [|discriminate].
  injection 1 as <-. pose proof (repr_roundtrip r z Hz X) as R. pose proof (repr_sdur_ok r z Hz) as O.
  destruct (repr_to_duration r z) as [d|d] eqn:E; cbn [sdur_val sdur_ok] in *; unfold dur_ok in O.
  - destruct (Z.leb_spec epoch (epoch + d)); [|lia]. replace (epoch + d - epoch) with d by lia. exact R.
  - destruct (Z.leb_spec epoch (epoch + - d)).
    + assert (d = 0) by lia. subst d. replace (epoch + - 0 - epoch) with 0 by lia.
      assert (Z0 : z = 0).
      { pose proof (to_repr_neg_exact r 0 z) as N1. pose proof (to_repr_neg_coarse r 0 z) as N2.
        assert (D0 : dur_ok 0) by (consts; lia).
        destruct (subsecond_exact r) eqn:S.
        - specialize (N1 eq_refl D0 R). destruct r; try discriminate; cbn in N1; lia.
        - specialize (N2 eq_refl D0 R). unfold as_secs in N2. cbn [Z.div] in N2.
          destruct r; try discriminate; try (cbn in N2; specialize (N2 ltac:(discriminate)); lia).
          destruct (Z.eqb_spec z (repr_min Days)) as [->|NE].
          + vm_compute in E. discriminate.
          + cbn in N2. specialize (N2 ltac:(intros _; consts; cbn in NE; lia)). lia. }
      subst z. destruct r; vm_compute in E; discriminate.
    + replace (epoch - (epoch + - d)) with d by lia. exact R.
Qed.
Lemma time_floor epoch r t z : 0 <= epoch <= time_max -> time_ok t ->
  (epoch <= t \/ subsecond_exact r = true) -> of_time epoch r t = Done z ->
  epoch + z * unit_ns r <= t < epoch + (z + 1) * unit_ns r.
Proof.
  intros He Ht X. unfold of_time. destruct (Z.ltb_spec time_max epoch); [lia|].
  destruct (Z.leb_spec epoch t) as [L|L]; intros E.
  - apply to_repr_pos in E; [lia|]. unfold dur_ok; consts; lia.
  - destruct X as [X|X]; [lia|]. apply to_repr_neg_exact in E; [lia|exact X|]. consts; lia.
Qed.

(* ---- key-value timestamps ---- *)
Lemma add_loop_val fuel : forall s n, 0 <= s -> 0 <= n -> s + n / 1000000000 <= u64_max ->
  ts_total (add_loop fuel s n) = s * sec + n.
Proof.
  induction fuel as [|k IH]; intros s n Hs Hn Hb; cbn [add_loop]; [reflexivity|].
  destruct (Z.ltb_spec 1000000000 n); [|reflexivity].
  unfold sat_add. rewrite Z.min_r by (Z.div_mod_to_equations; lia).
  rewrite IH; [unfold sec; lia|lia|lia|]. Z.div_mod_to_equations; lia.
Qed.
Lemma add_loop_two s n : 0 <= n < 2 * sec -> add_loop 9 s n =
  if 1000000000 <? n then mk_ts (sat_add s 1) (n - 1000000000) else mk_ts s n.
Proof.
  intros H. unfold sec in H. change (add_loop 9 s n) with
    (if 1000000000 <? n then add_loop 8 (sat_add s 1) (n - 1000000000) else mk_ts s n).
  destruct (Z.ltb_spec 1000000000 n); [|reflexivity].
  change (add_loop 8 ?a ?b) with (if 1000000000 <? b then add_loop 7 (sat_add a 1) (b - 1000000000) else mk_ts a b).
  destruct (Z.ltb_spec 1000000000 (n - 1000000000)); [lia|reflexivity].
Qed.
Lemma ts_add_shape t d : ts_ok t -> dur_ok d -> exists n, n = ts_nanos t + subsec_nanos d /\ 0 <= n < 2 * sec /\
  ts_add t d = Done (if 1000000000 <? n then mk_ts (sat_add (sat_add (ts_seconds t) (as_secs d)) 1) (n - 1000000000)
                     else mk_ts (sat_add (ts_seconds t) (as_secs d)) n).
Proof.
  intros [H1 H2] H. eexists. split; [reflexivity|]. assert (B : 0 <= ts_nanos t + subsec_nanos d < 2 * sec).
  { unfold subsec_nanos, dur_ok in *. assert (0 < sec) by reflexivity. pose proof (Z.mod_pos_bound d sec H0). lia. }
  split; [exact B|]. unfold ts_add. destruct (Z.leb_spec (2 ^ 32) (ts_nanos t + subsec_nanos d)); [unfold sec in B; lia|].
  f_equal. apply add_loop_two. exact B.
Qed.
(* adding without saturation is exact *)
Lemma ts_add_exact t d u : ts_ok t -> dur_ok d -> ts_total t + d <= dur_max -> ts_add t d = Done u ->
  ts_total u = ts_total t + d /\ 0 <= ts_nanos u <= sec.
Proof.
  intros Ht Hd B. destruct (ts_add_shape t d Ht Hd) as (n & En & Bn & ->). injection 1 as <-.
  unfold ts_total in *. unfold ts_ok in Ht. unfold as_secs, subsec_nanos, sat_add in *. consts.
  pose proof (Z.div_mod d 1000000000). pose proof (Z.mod_pos_bound d 1000000000).
  destruct (Z.ltb_spec 1000000000 n); cbn [ts_seconds ts_nanos]; lia.
Qed.
Lemma ts_compare_total a b : 0 <= ts_nanos a <= sec -> 0 <= ts_nanos b <= sec -> ts_total a <= ts_total b ->
  ts_compare a b = Gt -> ts_total a = ts_total b.
Proof.
  unfold ts_compare, ts_total, sec. intros H1 H2 H3.
  destruct (Z.compare_spec (ts_seconds a) (ts_seconds b)); [|discriminate|].
  - destruct (Z.compare_spec (ts_nanos a) (ts_nanos b)); try discriminate. lia.
  - lia.
Qed.
(* never earlier, as long as it does not saturate *)
Lemma ts_add_ge t d u : ts_ok t -> dur_ok d -> ts_total t + d <= dur_max -> ts_add t d = Done u -> ts_le t u.
Proof.
  intros Ht Hd B. destruct (ts_add_shape t d Ht Hd) as (n & En & Bn & ->). injection 1 as <-.
  unfold ts_le, ts_compare. unfold ts_total in *. unfold ts_ok in Ht. unfold as_secs, subsec_nanos, sat_add in *. consts.
  pose proof (Z.div_mod d 1000000000). pose proof (Z.mod_pos_bound d 1000000000).
  destruct (Z.ltb_spec 1000000000 n); cbn [ts_seconds ts_nanos];
    (match goal with |- context [?x ?= ?y] => destruct (Z.compare_spec x y) end; [|discriminate|lia]);
    match goal with |- (?x ?= ?y) <> _ => destruct (Z.compare_spec x y); try discriminate; lia end.
Qed.
Lemma ts_add_mono t d e u v : ts_ok t -> dur_ok d -> dur_ok e -> d <= e -> ts_total t + e <= dur_max ->
  ts_add t d = Done u -> ts_add t e = Done v -> ts_le u v.
Proof.
  intros Ht Hd He L B. destruct (ts_add_shape t d Ht Hd) as (n & En & Bn & ->). injection 1 as <-.
  destruct (ts_add_shape t e Ht He) as (m & Em & Bm & ->). injection 1 as <-.
  unfold ts_le, ts_compare. unfold ts_total in *. unfold ts_ok in Ht. unfold as_secs, subsec_nanos, sat_add in *. consts.
  pose proof (Z.div_mod d 1000000000). pose proof (Z.mod_pos_bound d 1000000000).
  pose proof (Z.div_mod e 1000000000). pose proof (Z.mod_pos_bound e 1000000000).
  destruct (Z.ltb_spec 1000000000 n), (Z.ltb_spec 1000000000 m); cbn [ts_seconds ts_nanos];
    (match goal with |- context [?x ?= ?y] => destruct (Z.compare_spec x y) end; [|discriminate|lia]);
    match goal with |- (?x ?= ?y) <> _ => destruct (Z.compare_spec x y); try discriminate; lia end.
Qed.
(* the nanosecond part leaves its range exactly when the sum hits a full second *)
Lemma ts_add_nanos t d u : ts_ok t -> dur_ok d -> ts_add t d = Done u ->
  0 <= ts_nanos u <= sec /\ (ts_nanos u = sec <-> ts_nanos t + subsec_nanos d = sec).
Proof.
  intros Ht Hd. destruct (ts_add_shape t d Ht Hd) as (n & En & Bn & ->). injection 1 as <-. rewrite <- En.
  consts. destruct (Z.ltb_spec 1000000000 n); cbn [ts_nanos]; lia.
Qed.

(* key encoding *)
Lemma ts_decode_encode t : ts_typed t -> ts_decode (ts_encode t) = Some t.
Proof.
  intros [H1 H2]. unfold ts_decode, ts_encode. rewrite app_length, !be_length. cbn [Nat.eqb Nat.add].
  rewrite firstn_app, be_length, Nat.sub_diag, firstn_O, app_nil_r.
  rewrite firstn_all2 by (rewrite be_length; lia).
  rewrite skipn_app, be_length, Nat.sub_diag. rewrite skipn_all2 by (rewrite be_length; lia). cbn [app skipn].
  rewrite !of_be_be.
  - rewrite !Z2N.id by lia. destruct t; reflexivity.
  - change (256 ^ N.of_nat 4)%N with (Z.to_N (2 ^ 32)). lia.
  - change (256 ^ N.of_nat 8)%N with (Z.to_N (2 ^ 64)). unfold u64_max in *. lia.
Qed.
Lemma ts_encode_lex a b : ts_typed a -> ts_typed b -> lex (ts_encode a) (ts_encode b) = ts_compare a b.
Proof.
  intros [A1 A2] [B1 B2]. unfold ts_encode, ts_compare.
  rewrite lex_app_len by (rewrite !be_length; reflexivity).
  rewrite !be_lex by first [change (256 ^ N.of_nat 4)%N with (Z.to_N (2 ^ 32)); lia
             | change (256 ^ N.of_nat 8)%N with (Z.to_N (2 ^ 64)); unfold u64_max in *; lia].
  rewrite !Z2N.inj_compare by lia. reflexivity.
Qed.
Lemma ts_decode_ok b t : bytes_ok b -> ts_decode b = Some t -> ts_typed t /\ ts_encode t = b.
Proof.
  intros Hb. unfold ts_decode. destruct (Nat.eqb_spec (length b) 12) as [L|]; [|discriminate]. intros T. apply (f_equal (fun o => match o with Some x => x | None => t end)) in T. cbv iota in T. subst t.
  assert (L8 : length (firstn 8 b) = 8%nat) by (rewrite firstn_length; lia).
  assert (L4 : length (skipn 8 b) = 4%nat) by (rewrite skipn_length; lia).
  rewrite <- (firstn_skipn 8 b) in Hb. apply bytes_ok_app in Hb. destruct Hb as [H8 H4].
  pose proof (of_be_bound _ H8) as B8. pose proof (of_be_bound _ H4) as B4. rewrite L8 in B8. rewrite L4 in B4.
  change (256 ^ N.of_nat 4)%N with (Z.to_N (2 ^ 32)) in B4. change (256 ^ N.of_nat 8)%N with (Z.to_N (2 ^ 64)) in B8.
  split.
  - split; cbv [ts_seconds ts_nanos]; unfold u64_max; lia.
  - unfold ts_encode. cbv [ts_seconds ts_nanos]. rewrite !N2Z.id.
    pose proof (be_of_be _ H8) as E8. pose proof (be_of_be _ H4) as E4. rewrite L8 in E8. rewrite L4 in E4.
    rewrite E8, E4. apply firstn_skipn.
Qed.
