(* C101: a remote subscriber receives, in order and once each, what is published to its
   topics. *)
From Coq Require Import List Arith Bool Lia.
From Verif Require Import RemotePubSub RemotePubSubSpec RemotePubSubProofs.
Import ListNotations.

(* While the connection lasts: everything published to the topics the server knew of is with
   the receiver, or on its way to it, in the order of publication, once. *)
Theorem C101_delivery q evs h r :
  valid q evs = true -> no_restart evs ->
  nth_error (hs (run q evs)) h = Some r -> h_alive r = true -> online (h_id r) evs = true ->
  d_msgs (due_of h (h_id r) evs) = h_got r ++ in_flight (h_id r) (run q evs).
Proof.
  intros V N Hr L O. pose proof (inv_run q evs V N) as I.
  destruct (hi_msgs _ _ _ _ _ (iv_handle _ _ I h r Hr) L) as (lost & -> & Z).
  rewrite (Z (iv_online _ _ I _ O)), app_nil_r. reflexivity.
Qed.

Theorem C101_complete q evs h r :
  valid q evs = true -> no_restart evs ->
  nth_error (hs (run q evs)) h = Some r -> h_alive r = true -> online (h_id r) evs = true ->
  in_flight (h_id r) (run q evs) = [] ->
  h_got r = d_msgs (due_of h (h_id r) evs).
Proof.
  intros V N Hr L O E. rewrite (C101_delivery q evs h r V N Hr L O), E. now rewrite app_nil_r.
Qed.

(* Always, whatever broke or was dropped: a prefix of it, so nothing is received twice, out of
   order, or with a gap. *)
Theorem C101_prefix q evs h r :
  valid q evs = true -> no_restart evs -> nth_error (hs (run q evs)) h = Some r ->
  exists rest, d_msgs (due_of h (h_id r) evs) = h_got r ++ rest.
Proof.
  intros V N Hr. exact (hi_prefix _ _ _ _ _ (iv_handle _ _ (inv_run q evs V N) h r Hr)).
Qed.

(* ---- everything arrives when the two ends run ---- *)
Lemma same_handle q st e h r :
  (exists i, e = Forward i) \/ e = Deliver -> nth_error (hs st) h = Some r ->
  exists r', nth_error (hs (step q st e)) h = Some r' /\ h_id r' = h_id r /\ h_alive r' = h_alive r.
Proof.
  intros [(i & ->)| ->] Hr; cbn.
  - unfold forward. destruct (srv st i) as [[o ts [|m qq]]|]; eauto.
  - unfold deliver. destruct (wire st) as [|[i m] w]; [eauto|]. cbn.
    destruct (cmap st i) as [h0|]; [|eauto].
    destruct (nth_error (hs st) h0) as [r0|] eqn:E0; [|eauto].
    destruct (h_alive r0) eqn:L; cbn; [|eauto].
    rewrite nth_setn. destruct (h =? h0) eqn:X; [|eauto].
    apply Nat.eqb_eq in X. subst. rewrite Hr in E0 |- *. injection E0 as <-. eexists. split; [reflexivity|]. cbn. now split.
Qed.

Lemma same_handle_run q evs : (forall e, In e evs -> (exists i, e = Forward i) \/ e = Deliver) ->
  forall st h r, nth_error (hs st) h = Some r ->
  exists r', nth_error (hs (run_from q st evs)) h = Some r' /\ h_id r' = h_id r /\ h_alive r' = h_alive r.
Proof.
  induction evs as [|e evs IH]; intros F st h r Hr; [cbn; eauto|].
  destruct (same_handle q st e h r (F e (or_introl eq_refl)) Hr) as (r1 & H1 & A1 & B1).
  destruct (IH (fun e' H => F e' (or_intror H)) (step q st e) h r1 H1) as (r2 & H2 & A2 & B2).
  exists r2. cbn. split; [exact H2|]. split; congruence.
Qed.

Lemma run_forwards q i : forall k st, length (queued i st) = k ->
  queued i (run_from q st (repeat (Forward i) k)) = [].
Proof.
  induction k as [|k IH]; intros st E; cbn.
  - now destruct (queued i st).
  - apply IH. revert E. unfold forward, queued. destruct (srv st i) as [[o ts [|m qq]]|]; cbn; try discriminate.
    rewrite upd_eq. cbn. lia.
Qed.
Lemma deliver_queued i st : queued i (deliver st) = queued i st.
Proof.
  unfold deliver. destruct (wire st) as [|[j m] w]; [reflexivity|]. cbn.
  destruct (cmap st j) as [h0|]; [|reflexivity]. destruct (nth_error (hs st) h0) as [r0|]; [|reflexivity].
  now destruct (h_alive r0).
Qed.
Lemma deliver_wire st : wire (deliver st) = tl (wire st).
Proof.
  unfold deliver. destruct (wire st) as [|[j m] w] eqn:E; [now rewrite E|]. cbn.
  destruct (cmap st j) as [h0|]; [|reflexivity]. destruct (nth_error (hs st) h0) as [r0|]; [|reflexivity].
  now destruct (h_alive r0).
Qed.
Lemma run_delivers q i : forall k st, length (wire st) = k ->
  wire (run_from q st (repeat Deliver k)) = []
  /\ queued i (run_from q st (repeat Deliver k)) = queued i st.
Proof.
  induction k as [|k IH]; intros st E; cbn.
  - split; [|reflexivity]. now destruct (wire st).
  - destruct (IH (deliver st)) as (A & B).
    { rewrite deliver_wire. destruct (wire st); cbn in *; lia. }
    split; [exact A|]. now rewrite <- (deliver_queued i st).
Qed.
Lemma allowed_all q evs : (forall e, In e evs -> (exists i, e = Forward i) \/ e = Deliver) ->
  forall st, valid_from q st evs = true.
Proof.
  induction evs as [|e evs IH]; intros F st; [reflexivity|]. cbn.
  rewrite IH by (intros; apply F; now right).
  destruct (F e (or_introl eq_refl)) as [(i & ->)| ->]; reflexivity.
Qed.
Lemma due_same h i evs d : (forall e, In e evs -> (exists j, e = Forward j) \/ e = Deliver) ->
  fold_left (due_step h i) evs d = d.
Proof.
  revert d; induction evs as [|e evs IH]; intros d F; [reflexivity|]. cbn.
  rewrite IH by (intros; apply F; now right).
  destruct (F e (or_introl eq_refl)) as [(j & ->)| ->]; reflexivity.
Qed.
Lemma online_same i evs b : (forall e, In e evs -> (exists j, e = Forward j) \/ e = Deliver) ->
  fold_left (online_step i) evs b = b.
Proof.
  revert b; induction evs as [|e evs IH]; intros b F; [reflexivity|]. cbn.
  rewrite IH by (intros; apply F; now right).
  destruct (F e (or_introl eq_refl)) as [(j & ->)| ->]; reflexivity.
Qed.

Theorem C101_arrives q evs h r :
  valid q evs = true -> no_restart evs ->
  nth_error (hs (run q evs)) h = Some r -> h_alive r = true -> online (h_id r) evs = true ->
  exists more r',
    (forall e, In e more -> (exists i, e = Forward i) \/ e = Deliver) /\
    valid q (evs ++ more) = true /\
    nth_error (hs (run q (evs ++ more))) h = Some r' /\ h_id r' = h_id r /\
    h_got r' = d_msgs (due_of h (h_id r) evs).
Proof.
  intros V N Hr L O. set (i := h_id r) in *. set (st := run q evs) in *.
  set (m1 := repeat (Forward i) (length (queued i st))).
  set (m2 := repeat Deliver (length (wire (run_from q st m1)))).
  assert (F : forall e, In e (m1 ++ m2) -> (exists j, e = Forward j) \/ e = Deliver).
  { intros e He. apply in_app_or in He. destruct He as [He|He].
    - apply repeat_spec in He. eauto.
    - apply repeat_spec in He. auto. }
  assert (R : run q (evs ++ m1 ++ m2) = run_from q st (m1 ++ m2)).
  { unfold run, run_from, st. now rewrite fold_left_app. }
  destruct (same_handle_run q (m1 ++ m2) F st h r Hr) as (r' & Hr' & Ei & El).
  exists (m1 ++ m2), r'.
  assert (V' : valid q (evs ++ m1 ++ m2) = true).
  { unfold valid in *. rewrite valid_from_app, V. apply (allowed_all q _ F). }
  split; [exact F|]. split; [exact V'|]. rewrite R. split; [exact Hr'|]. split; [exact Ei|].
  assert (D : due_of h i (evs ++ m1 ++ m2) = due_of h i evs).
  { unfold due_of. rewrite fold_left_app. apply (due_same h i _ _ F). }
  rewrite <- D. fold i in Ei. rewrite <- Ei. apply (C101_complete q).
  - exact V'.
  - intros X. apply in_app_or in X. destruct X as [X|X]; [now apply N|].
    destruct (F _ X) as [(j & Y)|Y]; discriminate.
  - rewrite R. exact Hr'.
  - congruence.
  - rewrite Ei. unfold online. rewrite fold_left_app, (online_same _ _ _ F). exact O.
  - rewrite R, Ei. unfold in_flight.
    assert (A : run_from q st (m1 ++ m2) = run_from q (run_from q st m1) m2).
    { unfold run_from. now rewrite fold_left_app. }
    rewrite A. destruct (run_delivers q i _ (run_from q st m1) eq_refl) as (W & Q).
    fold m2 in W, Q. rewrite W, Q. unfold m1. now rewrite run_forwards by reflexivity.
Qed.

(* ---- nothing but what was published to a subscribed topic ---- *)
Lemma due_msgs_sound h i t p : forall evs d,
  In (t, p) (d_msgs (fold_left (due_step h i) evs d)) ->
  (forall x, In x (d_topics d) -> In (Subscribe h x) evs \/ In x (d_topics d)) ->
  In (t, p) (d_msgs d) \/ (In (Publish t p) evs /\ (In (Subscribe h t) evs \/ In t (d_topics d))).
Proof.
  induction evs as [|e evs IH]; intros d H T; [now left|]. cbn [fold_left] in H.
  assert (G : In (t, p) (d_msgs (due_step h i d e)) \/
              (In (Publish t p) evs /\ (In (Subscribe h t) evs \/ In t (d_topics (due_step h i d e))))).
  { apply IH; [exact H|]. auto. }
  clear IH H.
  assert (Tp : In t (d_topics (due_step h i d e)) -> e = Subscribe h t \/ In t (d_topics d)).
  { destruct e; cbn; try tauto.
    - destruct (_ =? _); cbn; tauto.
    - destruct ((h0 =? h) && d_open d) eqn:X; cbn; [|tauto]. apply andb_true_iff in X. destruct X as (X & _).
      apply Nat.eqb_eq in X. subst. intros [->|Y]; auto.
    - destruct (_ && _); cbn; [|tauto]. intros Y. apply filter_In in Y. tauto.
    - destruct (_ && _); cbn; tauto.
    - destruct (_ =? _); cbn; tauto.
    - destruct (_ =? _); cbn; tauto. }
  assert (Ms : In (t, p) (d_msgs (due_step h i d e)) ->
               In (t, p) (d_msgs d) \/ (e = Publish t p /\ In t (d_topics d))).
  { destruct e; cbn; try tauto.
    - destruct (_ =? _); cbn; tauto.
    - destruct (_ && _); cbn; tauto.
    - destruct (_ && _); cbn; tauto.
    - destruct (d_open d && _) eqn:X; cbn; [|tauto]. intros Y. apply in_app_or in Y. destruct Y as [Y|[[= -> ->]|[]]]; [tauto|].
      right. split; [reflexivity|]. apply andb_true_iff in X. destruct X as (_ & X). apply existsb_exists in X.
      destruct X as (x & X1 & X2). apply Nat.eqb_eq in X2. now subst.
    - destruct (_ =? _); cbn; tauto.
    - destruct (_ =? _); cbn; tauto. }
  destruct G as [G|(G1 & G2)].
  - destruct (Ms G) as [M|(-> & M)]; [now left|]. right. split; [now left|]. now right.
  - right. split; [now right|]. destruct G2 as [G2|G2]; [left; now right|].
    destruct (Tp G2) as [->|X]; [left; now left|now right].
Qed.

Theorem C101_only_subscribed q evs h r t p :
  valid q evs = true -> no_restart evs -> nth_error (hs (run q evs)) h = Some r ->
  In (t, p) (h_got r) -> In (Publish t p) evs /\ In (Subscribe h t) evs.
Proof.
  intros V N Hr H. destruct (C101_prefix q evs h r V N Hr) as (rest & E).
  assert (X : In (t, p) (d_msgs (due_of h (h_id r) evs))).
  { rewrite E. apply in_or_app. now left. }
  unfold due_of in X. destruct (due_msgs_sound _ _ _ _ _ _ X) as [[]|(A & [B|[]])]; auto.
Qed.

(* What is published after the server executed an unsubscription is not received. *)
Lemma due_none h i t : forall evs d,
  ~ In t (d_topics d) -> ~ In (Subscribe h t) evs -> (forall j, j = i -> ~ In (Create j) evs) ->
  filter (fun m => fst m =? t) (d_msgs (fold_left (due_step h i) evs d))
  = filter (fun m => fst m =? t) (d_msgs d).
Proof.
  induction evs as [|e evs IH]; intros d T Ns Nc; [reflexivity|]. cbn [fold_left].
  rewrite IH.
  - destruct e; cbn; try reflexivity.
    + destruct (i0 =? i) eqn:X; [|reflexivity]. apply Nat.eqb_eq in X. exfalso. apply (Nc i0 X). now left.
    + now destruct (_ && _).
    + now destruct (_ && _).
    + destruct (d_open d && existsb (Nat.eqb t0) (d_topics d)) eqn:X; cbn; [|reflexivity].
      rewrite filter_app. cbn. destruct (t0 =? t) eqn:Y; [|apply app_nil_r].
      apply Nat.eqb_eq in Y. subst. apply andb_true_iff in X. destruct X as (_ & X). apply existsb_exists in X.
      destruct X as (x & X1 & X2). apply Nat.eqb_eq in X2. subst. contradiction.
    + now destruct (_ =? _).
    + now destruct (_ =? _).
  - destruct e; cbn; auto.
    + destruct (_ =? _); cbn; auto.
    + destruct ((h0 =? h) && d_open d) eqn:X; cbn; [|auto]. apply andb_true_iff in X. destruct X as (X & _).
      apply Nat.eqb_eq in X. subst. intros [->|Y]; [|auto]. apply Ns. now left.
    + destruct (_ && _); cbn; [|auto]. intros Y. apply filter_In in Y. tauto.
    + destruct (_ && _); cbn; auto.
    + destruct (_ =? _); cbn; auto.
    + destruct (_ =? _); cbn; auto.
  - intros X. apply Ns. now right.
  - intros j -> X. apply (Nc i eq_refl). now right.
Qed.
(* a handle's id was used before the handle existed, so it is never created again *)
Lemma used_kept q evs : forall st i, ~ In Restart evs -> In i (used st) ->
  valid_from q st evs = true -> ~ In (Create i) evs.
Proof.
  induction evs as [|e evs IH]; intros st i N Hi V; [intros []|]. cbn in V. apply andb_true_iff in V.
  destruct V as (Al & V). intros [->|X].
  - cbn in Al. apply negb_true_iff in Al. apply mem_In in Hi. congruence.
  - revert X. apply (IH (step q st e)); auto.
    + intros Y. apply N. now right.
    + destruct e; cbn; auto; unfold by_handle, on_sub, forward, deliver, id_of; repeat (destruct (nth_error _ _); cbn; auto);
        try (destruct (srv st _) as [[o ts [|]]|]; cbn; auto; destruct o; cbn; auto);
        try (destruct (wire st) as [|[? ?]]; cbn; auto; destruct (cmap st _); cbn; auto; destruct (nth_error _ _); cbn; auto; destruct (h_alive _); cbn; auto);
        try (apply N; now left).
Qed.

Theorem C101_unsubscribed q evs rest h r t :
  valid q (evs ++ Unsubscribe h t :: rest) = true ->
  no_restart (evs ++ Unsubscribe h t :: rest) ->
  nth_error (hs (run q (evs ++ Unsubscribe h t :: rest))) h = Some r ->
  nth_error (map h_id (hs (run q evs))) h = Some (h_id r) ->
  ~ In (Subscribe h t) rest -> d_open (due_of h (h_id r) evs) = true ->
  exists more,
    filter (fun m => fst m =? t) (d_msgs (due_of h (h_id r) evs))
    = filter (fun m => fst m =? t) (h_got r) ++ more.
Proof.
  intros V N Hr Hid Ns Op.
  destruct (C101_prefix _ _ _ _ V N Hr) as (more & E).
  exists (filter (fun m => fst m =? t) more).
  transitivity (filter (fun m => fst m =? t) (d_msgs (due_of h (h_id r) (evs ++ Unsubscribe h t :: rest)))).
  2:{ rewrite E. apply filter_app. }
  unfold due_of at 2. rewrite fold_left_app. cbn [fold_left].
  fold (due_of h (h_id r) evs). symmetry.
  unfold valid in V. rewrite valid_from_app in V. apply andb_true_iff in V. destruct V as (V1 & V2).
  assert (U : In (h_id r) (used (run q evs))).
  { rewrite nth_error_map in Hid. destruct (nth_error (hs (run q evs)) h) as [r0|] eqn:X; [|discriminate].
    cbn in Hid. injection Hid as <-.
    assert (N1 : no_restart evs) by (intros Y; apply N, in_or_app; now left).
    now apply (iv_ids _ _ (inv_run q evs V1 N1) h r0). }
  rewrite due_none.
  - cbn. rewrite Nat.eqb_refl, Op. reflexivity.
  - cbn. rewrite Nat.eqb_refl, Op. cbn. intros X. apply filter_In in X. destruct X as (_ & X).
    rewrite Nat.eqb_refl in X. discriminate.
  - exact Ns.
  - intros j -> X. apply (used_kept q (Unsubscribe h t :: rest) (run q evs) (h_id r)).
    + intros Y. apply N, in_or_app. now right.
    + exact U.
    + exact V2.
    + now right.
Qed.

(* ---- the receiver's channel ---- *)
Theorem C101_waits q evs h r :
  valid q evs = true -> no_restart evs ->
  nth_error (hs (run q evs)) h = Some r -> h_alive r = true -> online (h_id r) evs = true ->
  waits h (run q evs).
Proof.
  intros V N Hr L O. pose proof (inv_run q evs V N) as I. exists (h_id r).
  destruct (hi_map _ _ _ _ _ (iv_handle _ _ I h r Hr) L) as [X|[X _]]; [exact X|].
  now apply (iv_online _ _ I) in O.
Qed.

Lemma no_sender q evs : forall st h,
  (forall i, cmap st i <> Some h) -> h < length (hs st) -> valid_from q st evs = true ->
  ~ waits h (run_from q st evs).
Proof.
  induction evs as [|e evs IH]; intros st h C L V; [intros (i & X); now apply (C i)|].
  cbn in V. apply andb_true_iff in V. destruct V as (Al & V). cbn [run_from fold_left].
  change (fold_left (step q) evs (step q st e)) with (run_from q (step q st e) evs).
  assert (U : forall j, (forall i, upd (cmap st) j None i <> Some h)).
  { intros j i. unfold upd. destruct (_ =? _); [discriminate|apply C]. }
  assert (OS : forall f j, cmap (on_sub f j st) = cmap st /\ hs (on_sub f j st) = hs st).
  { intros f j. destruct (on_sub_rest f j st) as (_ & _ & _ & A & B). now split. }
  apply IH; [| |exact V]; clear IH V.
  - intros i. destruct e; cbn; try apply C; unfold by_handle;
      try (destruct (id_of h0 st); [|apply C]); try (rewrite (proj1 (OS _ _)); apply C).
    + unfold upd. destruct (i =? i0); [|apply C]. intros [= ->]. cbn in Al. apply andb_true_iff in Al.
      destruct Al as (_ & Al). apply Nat.eqb_eq in Al. lia.
    + unfold forward. destruct (srv st i0) as [[o ts [|]]|]; apply C.
    + unfold deliver. destruct (wire st) as [|[j m] w]; [apply C|]. cbn. destruct (cmap st j) as [h0|]; [|apply C].
      destruct (nth_error (hs st) h0); [|apply C]. destruct (h_alive _); [apply C|apply U].
    + destruct (nth_error _ _); apply C.
    + apply U.
    + destruct q; [apply C|discriminate].
    + destruct q; [apply C|discriminate].
  - destruct e; cbn; auto; unfold by_handle;
      try (destruct (id_of h0 st); [|exact L]); try (rewrite (proj2 (OS _ _)); exact L); auto.
    + rewrite app_length. lia.
    + unfold forward. destruct (srv st i) as [[o ts [|]]|]; exact L.
    + unfold deliver. destruct (wire st) as [|[j m] w]; [exact L|]. cbn. destruct (cmap st j) as [h0|]; [|exact L].
      destruct (nth_error (hs st) h0); [|exact L]. destruct (h_alive _); cbn; rewrite ?setn_length; exact L.
    + destruct (nth_error _ _); cbn; rewrite ?setn_length; exact L.
Qed.

(* Over websockets, once the client starts its next connection the subscribers of the earlier
   one have no sender: receive() fails instead of waiting, for ever after. *)
Theorem C101_receive_ends evs rest h :
  valid false (evs ++ Reconnect :: rest) = true -> h < length (hs (run false evs)) ->
  ~ waits h (run false (evs ++ Reconnect :: rest)).
Proof.
  intros V L. unfold valid in V. rewrite valid_from_app in V. apply andb_true_iff in V. destruct V as (_ & V).
  cbn in V. unfold run, run_from. rewrite fold_left_app. cbn [fold_left].
  change (fold_left (step false) evs start) with (run false evs).
  apply (no_sender false rest); [cbn; discriminate|exact L|exact V].
Qed.

(* ---- other handles ---- *)
Definition about_other (h : nat) (e : event) : bool :=
  match e with
  | Subscribe k _ | Unsubscribe k _ | Drop k | Unregister k | Removed k => negb (k =? h)
  | _ => false
  end.
(* What other subscribers do, and their being dropped, changes nothing for this one. *)
Theorem C101_independent h i evs :
  due_of h i evs = due_of h i (filter (fun e => negb (about_other h e)) evs)
  /\ online i evs = online i (filter (fun e => negb (about_other h e)) evs).
Proof.
  unfold due_of, online. set (d0 := mkDue false [] []). set (b0 := false).
  clearbody b0. clearbody d0. revert d0 b0.
  induction evs as [|e evs IH]; intros d b; [now split|]. cbn [filter].
  destruct (about_other h e) eqn:X; cbn [negb]; cbn [fold_left]; [|apply IH].
  assert (due_step h i d e = d /\ online_step i b e = b) as [-> ->]; [|apply IH].
  destruct e; cbn in *; try discriminate; apply negb_true_iff in X; rewrite ?X; now split.
Qed.

(* ---- what does not hold ---- *)

(* After a client's unsubscribe call returned, a message that was published before can still
   arrive. *)
Theorem C101_after_unsubscribe_refuted : exists evs h t p r r',
  valid false (evs ++ [Unsubscribe h t; Deliver]) = true /\
  nth_error (hs (run false (evs ++ [Unsubscribe h t]))) h = Some r /\ h_got r = [] /\
  nth_error (hs (run false (evs ++ [Unsubscribe h t; Deliver]))) h = Some r' /\ h_got r' = [(t, p)].
Proof.
  exists [Create 5; Register 0 5; Subscribe 0 7; Publish 7 1; Forward 5], 0, 7, 1.
  do 2 eexists. vm_compute. repeat match goal with |- _ /\ _ => split end; reflexivity.
Qed.

(* Over QUIC the map is not cleared when the client reconnects: the subscriber's server side is
   gone and its receiver waits for ever, whatever happens next (short of its being dropped). *)
Theorem C101_receive_ends_quic_refuted : exists evs h,
  valid true (evs ++ [Reconnect]) = true /\ h < length (hs (run true evs)) /\
  waits h (run true (evs ++ [Reconnect])) /\
  forall i, srv (run true (evs ++ [Reconnect])) i = None.
Proof.
  exists [Create 5; Register 0 5; Subscribe 0 7], 0. split; [reflexivity|]. split; [cbn; lia|].
  split; [|reflexivity]. exists 5. reflexivity.
Qed.

(* create_subscriber registers its channel after its request was answered; if the connection
   was replaced in between, the new subscriber belongs to nobody on the server, and waits. *)
Theorem C101_late_register_refuted : exists evs h r,
  valid false evs = true /\ nth_error (hs (run false evs)) h = Some r /\ h_alive r = true /\
  waits h (run false evs) /\ srv (run false evs) (h_id r) = None.
Proof.
  exists [Create 5; Reconnect; Register 0 5], 0. eexists. split; [reflexivity|].
  split; [reflexivity|]. split; [reflexivity|]. split; [|reflexivity]. exists 5. reflexivity.
Qed.

(* A restarted server counts its subscribers from the start again.  Dropping a subscriber of
   the earlier connection then unregisters another one, which has the same id. *)
Theorem C101_stale_drop_refuted : exists evs k h r,
  valid false evs = true /\ k <> h /\
  ~ In (Drop h) evs /\ ~ In (Unregister h) evs /\
  nth_error (hs (run false evs)) h = Some r /\ h_alive r = true /\ online (h_id r) evs = true /\
  ~ waits h (run false evs) /\ h_got r = [] /\
  d_msgs (due_of h (h_id r) evs) = [(7, 1)].
Proof.
  exists [Create 5; Register 0 5; Subscribe 0 7; Restart; Create 5; Register 1 5; Subscribe 1 7;
          Drop 0; Unregister 0; Removed 0; Publish 7 1], 0, 1. eexists.
  split; [reflexivity|]. split; [discriminate|].
  split; [cbn; intuition discriminate|]. split; [cbn; intuition discriminate|].
  split; [reflexivity|]. split; [reflexivity|]. split; [reflexivity|].
  split; [|split; reflexivity].
  intros (i & X). revert X. cbn. unfold upd. destruct (i =? 5) eqn:E; [discriminate|].
  discriminate.
Qed.

(* ---- a concrete case ---- *)
Example hist : list event :=
  [Create 3; Create 5; Register 0 5; Register 1 3; Subscribe 0 7; Subscribe 1 7; Subscribe 1 8;
   Publish 7 10; Publish 8 11; Forward 3; Unsubscribe 0 7; Publish 7 12; Forward 3; Forward 5;
   Deliver; Deliver; Deliver; Drop 0].
Example hist_ok : valid false hist = true /\ no_restart hist /\ online 3 hist = true /\
  map (fun r => (h_id r, h_alive r, h_got r)) (hs (run false hist))
  = [(5, false, [(7, 10)]); (3, true, [(7, 10); (8, 11)])] /\
  in_flight 3 (run false hist) = [(7, 12)] /\ d_msgs (due_of 1 3 hist) = [(7, 10); (8, 11); (7, 12)].
Proof.
  split; [reflexivity|]. split; [unfold no_restart; cbn; intuition discriminate|].
  split; [reflexivity|]. split; [reflexivity|]. split; reflexivity.
Qed.
(* and the later theorems' hypotheses *)
Example hist_unsub :
  let evs := [Create 5; Register 0 5; Subscribe 0 7; Publish 7 10; Forward 5] in
  let rest := [Publish 7 12; Deliver] in
  valid false (evs ++ Unsubscribe 0 7 :: rest) = true /\ no_restart (evs ++ Unsubscribe 0 7 :: rest) /\
  map (fun r => (h_id r, h_got r)) (hs (run false (evs ++ Unsubscribe 0 7 :: rest))) = [(5, [(7, 10)])] /\
  map h_id (hs (run false evs)) = [5] /\ d_open (due_of 0 5 evs) = true.
Proof.
  cbv zeta. split; [reflexivity|]. split; [unfold no_restart; cbn; intuition discriminate|].
  split; [reflexivity|]. split; reflexivity.
Qed.
Example hist_reconnect :
  valid false ([Create 5; Register 0 5] ++ Reconnect :: [Create 6; Register 1 6]) = true
  /\ 0 < length (hs (run false [Create 5; Register 0 5])).
Proof. split; [reflexivity|cbn; lia]. Qed.

Print Assumptions C101_delivery.
Print Assumptions C101_complete.
Print Assumptions C101_prefix.
Print Assumptions C101_arrives.
Print Assumptions C101_only_subscribed.
Print Assumptions C101_unsubscribed.
Print Assumptions C101_waits.
Print Assumptions C101_receive_ends.
Print Assumptions C101_independent.
Print Assumptions C101_after_unsubscribe_refuted.
Print Assumptions C101_receive_ends_quic_refuted.
Print Assumptions C101_late_register_refuted.
Print Assumptions C101_stale_drop_refuted.
