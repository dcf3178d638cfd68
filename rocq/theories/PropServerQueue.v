(* C64: the server answers the requests of its connections.

   A history is any list of events of any tasks of any connections (readers, request
   loops, workers, completion tasks, writers, a graceful shutdown), in any order.
   `limit` is client_simultaneous_request_limit, `workers` is request_workers. *)
From Coq Require Import List NArith Arith Bool Lia.
From Verif Require Import ServerQueue ServerQueueProofs.
Import ListNotations.

(* Every response written to a connection carries the id and session id of a request that
   arrived on that connection, and no request is answered twice. *)
Theorem C64_answers : forall limit tr workers h c,
  let x := conns (run limit tr (open workers) h) c in
  NoDup (map answers (written x)) /\
  (forall r, In r (written x) -> exists q,
     nth_error (arrived x) (answers r) = Some q /\ pid r = rid q /\ psession r = rsession q).
Proof.
  intros limit tr workers h c x. split.
  - apply (NoDup_count_occ Nat.eq_dec). intros n. pose proof (unique_run limit tr workers h c n) as U.
    unfold sers, view in U. cbn [vc vw vb vl] in U. fold x in U. rewrite !occ_app in U.
    unfold occ in U. destruct (n <? length (arrived x)); lia.
  - intros r R. destruct (matched_run limit tr workers h c) as (_ & _ & _ & _ & _ & _ & M & _).
    cbn [view vc] in M. fold x in M. rewrite Forall_forall in M. destruct (M r R) as (q & A & B & C & _).
    exists q. auto.
Qed.

(* The value of a response is the one its request's handler returned: a response enters the
   system only when the handler of that very request finishes. *)
Theorem C64_value : forall limit tr workers h c r,
  In r (written (conns (run limit tr (open workers) h) c)) ->
  exists h1 k h2 q,
    h = h1 ++ Finish k (pvalue r) :: h2 /\
    nth_error (busy (run limit tr (open workers) h1)) k = Some (c, q) /\
    ser q = answers r /\ rid q = pid r /\ rsession q = psession r.
Proof.
  intros limit tr workers h c r R.
  destruct (response_origin limit tr c r h (open workers)) as [A|A].
  - unfold responses. apply in_or_app. right. apply in_or_app. right. apply in_or_app. left. exact R.
  - destruct A.
  - exact A.
Qed.

(* At no time are more than `limit` requests of a connection handed over for processing and
   not yet answered, and never more than `limit` wait before that. *)
Theorem C64_limit : forall limit tr workers h c,
  let s := run limit tr (open workers) h in
  length (jobs c (workq s)) + length (jobs c (busy s)) + length (answering (conns s c)) <= limit /\
  length (inbox (conns s c)) <= limit.
Proof.
  intros limit tr workers h c s. split.
  - destruct (counted_run limit tr workers h c) as [C1 C2]. fold s in C1, C2. unfold load, view in *.
    cbn [vc vw vb vl] in *. destruct (loop (conns s c)); lia.
  - assert (G : forall v v', length (inbox (vc v)) <= limit -> lstep limit v v' -> length (inbox (vc v')) <= limit).
    { intros v v' H L. destruct L; cbn [vc inbox] in *; try exact H.
      - rewrite app_length. cbn [length]. lia.
      - rewrite H1 in H. cbn [length] in H. lia.
      - rewrite H1 in H. cbn [length] in H. lia. }
    apply (run_local limit tr (fun v => length (inbox (vc v)) <= limit) G h (open workers) c). cbn. lia.
Qed.

(* No lost wakeup: when the request loop sleeps, either all its slots are really taken or a
   notification is stored or about to be sent. *)
Theorem C64_no_lost_wakeup : forall limit tr workers h c,
  let x := conns (run limit tr (open workers) h) c in
  loop x = Waiting -> permit x = true \/ 0 < notifying x \/ inproc x = limit.
Proof. intros limit tr workers h c x. exact (wakes_run limit tr workers h c). Qed.

(* events and the state: only [Graceful] begins a shutdown, only [Crash] ends workers and,
   with a worker left, loses requests *)
Lemma graceful_step limit tr s ev : ev <> Graceful -> graceful (step limit tr s ev) = graceful s.
Proof.
  intros H. destruct ev; cbn [step]; try congruence;
    repeat match goal with |- context[match ?x with _ => _ end] => destruct x eqn:? end; cbn [setc graceful]; congruence.
Qed.
Theorem C64_shutdown_began : forall limit tr workers h,
  graceful (run limit tr (open workers) h) = true <-> In Graceful h.
Proof.
  intros limit tr workers h.
  assert (G : forall h s, graceful (run limit tr s h) = true <-> graceful s = true \/ In Graceful h).
  { clear h. induction h as [|ev h IH]; intros s; cbn [run In]; [tauto|]. rewrite IH.
    assert (D : ev = Graceful \/ ev <> Graceful) by (destruct ev; auto; right; discriminate).
    destruct D as [->|D]; [cbn; tauto|]. rewrite (graceful_step limit tr s ev D). tauto. }
  rewrite G. cbn. intuition discriminate.
Qed.
Lemma lost_step limit tr s ev : (forall k, ev <> Crash k) -> live s <> 0 ->
  lost (step limit tr s ev) = lost s /\ live (step limit tr s ev) = live s.
Proof.
  intros H L. destruct ev; cbn [step]; try (exfalso; eapply H; reflexivity);
    try (destruct (Nat.eqb_spec (live s) 0); [contradiction|]);
    repeat match goal with |- context[match ?x with _ => _ end] => destruct x end; split; reflexivity.
Qed.
Theorem C64_nothing_lost : forall limit tr workers h, 0 < workers -> (forall k, ~ In (Crash k) h) ->
  lost (run limit tr (open workers) h) = [] /\ live (run limit tr (open workers) h) = workers.
Proof.
  intros limit tr workers h W.
  assert (G : forall h s, live s <> 0 -> (forall k, ~ In (Crash k) h) ->
    lost (run limit tr s h) = lost s /\ live (run limit tr s h) = live s).
  { clear h. induction h as [|ev h IH]; intros s L C; cbn [run]; [auto|].
    destruct (lost_step limit tr s ev) as [A B]; [intros k ->; apply (C k); left; reflexivity|exact L|].
    destruct (IH (step limit tr s ev)) as [A' B']; [congruence|intros k K; apply (C k); right; exact K|]. split; congruence. }
  intros C. apply (G h (open workers)); [cbn; lia|exact C].
Qed.

(* a request carries no value only if such a payload arrived *)
Lemma valid_arrivals limit tr h : forall s, (forall c i se, ~ In (Arrive c i se None) h) ->
  (forall c q, In q (arrived (conns s c)) -> value q <> None) ->
  forall c q, In q (arrived (conns (run limit tr s h) c)) -> value q <> None.
Proof.
  induction h as [|ev h IH]; intros s H K; cbn [run]; [exact K|]. apply IH; [intros c i se X; apply (H c i se); right; exact X|].
  intros c q. destruct ev; cbn [step];
    repeat match goal with
      | |- context[match ?x with _ => _ end] => destruct x
      end; cbn [conns setc]; unfold setc, upd; cbn [conns]; try (apply K);
    try (destruct (N.eqb_spec c c0) as [->|]; [cbn [arrived]|]; try apply K).
  all: try (intros X; apply in_app_or in X; destruct X as [X|[<-|[]]]; [apply (K c0 q X)|]; cbn [value];
    destruct v; [discriminate|]; exfalso; eapply H; left; reflexivity).
  all: try (match goal with |- context[(?a =? ?b)%N] => destruct (N.eqb_spec a b) as [->|] end; [cbn [arrived]|]; apply K).
Qed.
Lemma all_answered_in : forall limit tr workers h cs,
  let s := run limit tr (open workers) h in
  0 < limit -> 0 < workers -> graceful s = false -> lost s = [] ->
  (forall c q, In q (arrived (conns s c)) -> value q <> None) ->
  (forall ev, progress ev = true -> concerns cs ev -> step limit tr s ev = s) ->
  forall c n, In c cs -> n < length (arrived (conns s c)) ->
  exists r, In r (written (conns s c)) /\ answers r = n.
Proof.
  intros limit tr workers h cs s HL HW HG HLost HV HP c n Hc Hn.
  destruct (quiescent limit tr workers h cs HL HW HG HLost HV HP) as (B & W & Q). fold s in B, W, Q.
  destruct (Q c Hc) as (Q1 & Q2 & Q3 & Q4).
  pose proof (unique_run limit tr workers h c n) as U. fold s in U.
  unfold sers, view in U. cbn [vc vw vb vl] in U. rewrite Q1, Q2, Q3, Q4, B, W, HLost in U.
  cbn [jobs filter map app] in U. rewrite app_nil_r in U.
  apply Nat.ltb_lt in Hn. rewrite Hn in U.
  assert (I : In n (map answers (written (conns s c)))).
  { apply (count_occ_In Nat.eq_dec). unfold occ in U. lia. }
  apply in_map_iff in I. destruct I as (r & E & I). exists r. auto.
Qed.


(* Once no task of the connections cs can do anything any more, every request that arrived on
   them has been answered:
   with at least one worker and slot, no panics and no shutdown, and no payload that carries
   an error. *)
Theorem C64_all_answered : forall limit tr workers h cs,
  let s := run limit tr (open workers) h in
  0 < limit -> 0 < workers -> ~ In Graceful h -> (forall k, ~ In (Crash k) h) ->
  (forall c i se, ~ In (Arrive c i se None) h) ->
  (forall ev, progress ev = true -> concerns cs ev -> step limit tr s ev = s) ->
  forall c n, In c cs -> n < length (arrived (conns s c)) ->
  exists r, In r (written (conns s c)) /\ answers r = n.
Proof.
  intros limit tr workers h cs s HL HW HG HC HV HP. apply (all_answered_in limit tr workers h cs HL HW); [| | |exact HP].
  - pose proof (C64_shutdown_began limit tr workers h) as X. destruct (graceful _); [exfalso; apply HG, X; reflexivity|reflexivity].
  - apply C64_nothing_lost; assumption.
  - intros c q. apply (valid_arrivals limit tr h (open workers) HV). intros d y [].
Qed.

(* ... and that point is reached: between two arrivals the tasks of any set of connections
   can only do a bounded number of things. *)
Theorem C64_comes_to_rest : forall limit tr cs s, NoDup cs ->
  exists bound, forall h,
    (forall ev, In ev h -> progress ev = true /\ concerns cs ev) ->
    effective limit tr s h -> length h <= bound.
Proof. intros limit tr cs s D. exists (work cs s). intros h H E. eapply bounded; eassumption. Qed.

(* A response is only ever dropped on a QUIC connection during a graceful shutdown. *)
Lemma responses_kept_in : forall limit tr workers h c,
  let s := run limit tr (open workers) h in
  graceful s = false \/ tr c = WebSocket -> unwritten (conns s c) = [].
Proof.
  intros limit tr workers h c s H. destruct (kept_run limit tr workers h c) as [[_ K]|[K1 K2]]; [exact K|].
  fold s in K1. destruct H; congruence.
Qed.
Theorem C64_responses_kept : forall limit tr workers h c,
  ~ In Graceful h \/ tr c = WebSocket -> unwritten (conns (run limit tr (open workers) h) c) = [].
Proof.
  intros limit tr workers h c H. apply (responses_kept_in limit tr workers h c). destruct H as [H|H]; [left|right; exact H].
  pose proof (C64_shutdown_began limit tr workers h) as X. destruct (graceful _); [exfalso; apply H, X; reflexivity|reflexivity].
Qed.

(* FINDING: `request.value.unwrap()` (server.rs:149).  A client, authenticated or not, that
   sends one payload whose value is an Err ends one request worker for good.  With as many
   such payloads as there are workers the whole server never answers any request again. *)
Theorem C64_malformed_payloads_refuted : forall workers limit tr, 0 < limit ->
  exists attack,
    (forall ev, In ev attack -> match ev with Arrive _ _ _ v => v = None | _ => True end) /\
    length (filter arrival attack) = workers /\
    forall h c, written (conns (run limit tr (open workers) (attack ++ h)) c) = [].
Proof.
  intros workers limit tr HL. exists (kill workers 0%N). split; [|split].
  - assert (G : forall n c ev, In ev (kill n c) -> match ev with Arrive _ _ _ v => v = None | _ => True end).
    { induction n as [|n IH]; intros c ev H; [destruct H|]. cbn [kill] in H. apply in_app_or in H.
      destruct H as [H|H]; [|eapply IH; exact H].
      unfold kill1 in H. cbn [In] in H. intuition; subst; exact I || reflexivity. }
    apply G.
  - assert (G : forall n c, length (filter arrival (kill n c)) = n).
    { induction n as [|n IH]; intros c; [reflexivity|]. cbn [kill]. rewrite filter_app, app_length, IH. reflexivity. }
    apply G.
  - intros h c. rewrite run_app.
    destruct (kill_ok workers limit tr (open workers) 0%N HL eq_refl eq_refl eq_refl (fun _ _ => eq_refl)) as [L B].
    assert (NONE : forall r, ~ In r (responses (conns (run limit tr (open workers) (kill workers 0%N)) c))).
    { (* nothing was answered during the attack *)
      intros r R. destruct (response_origin limit tr c r _ _ R) as [A|(h1 & k & h2 & q & E & _)]; [exact A|].
      assert (K : forall n c0 ev, In ev (kill n c0) -> match ev with Finish _ _ => False | _ => True end).
      { induction n as [|n IH]; intros c0 ev H; [destruct H|]. cbn [kill] in H. apply in_app_or in H.
        destruct H as [H|H]; [|eapply IH; exact H].
        unfold kill1 in H. cbn [In] in H. intuition; subst; exact I. }
      apply (K workers 0%N (Finish k (pvalue r))). rewrite E. apply in_or_app. right. left. reflexivity. }
    destruct (written (conns (run limit tr (run limit tr (open workers) (kill workers 0%N)) h) c)) as [|r l] eqn:E; [reflexivity|].
    exfalso. apply (NONE r). eapply (dead_server limit tr h); [exact L|exact B|].
    unfold responses. apply in_or_app. right. apply in_or_app. right. apply in_or_app. left. rewrite E. left. reflexivity.
Qed.

(* FINDING: a request whose handling panics keeps its slot.  After `limit` such requests a
   connection is never served again, even with workers left. *)
Theorem C64_leaked_slots_refuted : forall limit tr workers h,
  let s := run limit tr (open workers) h in
  forall c, limit <= length (jobs c (lost s)) ->
  forall h' r, In r (written (conns (run limit tr s h') c)) ->
    In r (answering (conns s c) ++ outq (conns s c) ++ written (conns s c) ++ unwritten (conns s c)).
Proof.
  intros limit tr workers h s c L h' r R.
  apply (leaked_run limit tr h' s c (counted_run limit tr workers h c) L).
  unfold responses. apply in_or_app. right. apply in_or_app. right. apply in_or_app. left. exact R.
Qed.

(* FINDING: the documentation of shutdown promises that outstanding requests are answered.
   On a QUIC connection the response of a request being processed when the graceful shutdown
   begins can be dropped, and is then never written. *)
Theorem C64_graceful_shutdown_refuted : forall v h,
  let s := run 16 (fun _ => Quic) (open 16)
     [Arrive 0 (Some 7%N) None (Some 1%N); Look 0; Accept 0; Start; Graceful; StopWriter 0; Finish 0 v; Respond 0 0] in
  unwritten (conns s 0%N) = [mkResp 0 (Some 7%N) None v] /\
  forall r, In r (written (conns (run 16 (fun _ => Quic) s h) 0%N)) -> answers r <> 0.
Proof.
  intros v h s. split; [reflexivity|]. intros r R A.
  pose proof (unique_run 16 (fun _ => Quic) 16 ([Arrive 0 (Some 7%N) None (Some 1%N); Look 0; Accept 0; Start; Graceful; StopWriter 0; Finish 0 v; Respond 0 0] ++ h) 0%N 0) as U.
  rewrite run_app in U. fold s in U.
  assert (UW : forall l t, (exists y, In y (unwritten (conns t 0%N)) /\ answers y = 0) ->
     exists y, In y (unwritten (conns (run 16 (fun _ => Quic) t l) 0%N)) /\ answers y = 0).
  { induction l as [|ev l IH]; intros t H; [exact H|]. cbn [run]. apply IH. destruct H as (y & Y1 & Y2).
    exists y. split; [|exact Y2].
    pose proof (view_step 16 (fun _ => Quic) t ev 0%N) as V.
    remember (view t 0%N) as v1 eqn:E1. remember (view (step 16 (fun _ => Quic) t ev) 0%N) as v2 eqn:E2.
    assert (Y : In y (unwritten (vc v1))) by (subst v1; exact Y1).
    replace (conns (step 16 (fun _ => Quic) t ev) 0%N) with (vc v2) by (subst v2; reflexivity).
    destruct V; cbn [vc unwritten] in *; try exact Y.
    - destruct (writing x); [exact Y|apply in_or_app; auto].
    - apply in_or_app; auto. }
  destruct (UW h s) as (y & Y1 & Y2).
  { exists (mkResp 0 (Some 7%N) None v). split; [left; reflexivity|reflexivity]. }
  unfold sers, view in U. cbn [vc vw vb vl] in U. rewrite !occ_app in U.
  assert (occ 0 (map answers (written (conns (run 16 (fun _ => Quic) s h) 0%N))) > 0).
  { apply count_occ_In. apply in_map_iff. exists r. auto. }
  assert (occ 0 (map answers (unwritten (conns (run 16 (fun _ => Quic) s h) 0%N))) > 0).
  { apply count_occ_In. apply in_map_iff. exists y. auto. }
  destruct (0 <? _) in U; lia.
Qed.

(* Concrete cases: two connections, one slot each, one worker; a request waits for its slot,
   is woken and answered; all tasks come to rest. *)
Definition h_ex : list event :=
  [Arrive 0 (Some 1%N) None (Some 5%N); Look 0; Accept 0; Look 0; Arrive 1 (Some 1%N) (Some 9%N) (Some 6%N);
   Look 1; Accept 1; Start; Arrive 0 (Some 2%N) None (Some 7%N); Finish 0 50; Start; Respond 0 0; Write 0; Sub 0; Notify 0;
   Finish 0 60; Respond 1 0; Wake 0; Look 0; Accept 0; Start; Finish 0 70; Sub 1; Respond 0 0; Write 1; Write 0; Look 1;
   Sub 0; Notify 0; Notify 1; Look 0].
Definition s_ex : server := run 1 (fun _ => Quic) (open 1) h_ex.
Example C64_ex :
  written (conns s_ex 0%N) = [mkResp 0 (Some 1%N) None 50; mkResp 1 (Some 2%N) None 70] /\
  written (conns s_ex 1%N) = [mkResp 0 (Some 1%N) (Some 9%N) 60] /\
  graceful s_ex = false /\ lost s_ex = [] /\
  loop (conns (run 1 (fun _ => Quic) (open 1) [Arrive 0 (Some 1%N) None (Some 5%N); Look 0; Accept 0; Look 0]) 0%N) = Waiting.
Proof. vm_compute. repeat split. Qed.
(* every progress event of the two connections is impossible in s_ex *)
Example C64_ex_rest :
  forall ev, progress ev = true -> concerns [0%N; 1%N] ev -> step 1 (fun _ => Quic) s_ex ev = s_ex.
Proof.
  intros ev P C. destruct ev as [c i se v|c|c|c| |k v|k|c k|c|c|c| |c|c]; try discriminate; cbn [concerns In] in C.
  - destruct C as [<-|[<-|[]]]; reflexivity.
  - destruct C as [<-|[<-|[]]]; reflexivity.
  - destruct C as [<-|[<-|[]]]; reflexivity.
  - reflexivity.
  - destruct k; reflexivity.
  - destruct C as [<-|[<-|[]]]; destruct k; reflexivity.
  - destruct C as [<-|[<-|[]]]; reflexivity.
  - destruct C as [<-|[<-|[]]]; reflexivity.
  - destruct C as [<-|[<-|[]]]; reflexivity.
Qed.
(* one crash with limit 1 leaves the connection without a slot although a worker is left *)
Example C64_ex_leak :
  let s := run 1 (fun _ => Quic) (open 2) (kill1 0) in
  length (jobs 0 (lost s)) = 1 /\ live s = 1.
Proof. vm_compute. auto. Qed.

Print Assumptions C64_answers.
Print Assumptions C64_value.
Print Assumptions C64_limit.
Print Assumptions C64_no_lost_wakeup.
Print Assumptions C64_shutdown_began.
Print Assumptions C64_nothing_lost.
Print Assumptions C64_all_answered.
Print Assumptions C64_comes_to_rest.
Print Assumptions C64_responses_kept.
Print Assumptions C64_malformed_payloads_refuted.
Print Assumptions C64_leaked_slots_refuted.
Print Assumptions C64_graceful_shutdown_refuted.
