(* C68: remote calls, end to end.  All statements are about any history of any number of
   clients, connections (also of other programs) and request workers: see Remote.v for the
   events.  exec d session request is what the handler of a request does to the data d and
   what it answers. *)
From Coq Require Import List NArith Arith Bool Lia.
From Verif Require Import ServerQueue ServerQueueProofs PropServerQueue Remote RemoteProofs RemoteLive.
From Verif Require ClientWorker ClientWorkerProofs RemoteClient.
Import ListNotations.

(* ---- specification *)
(* the calls client k issues in a history, in order: session id and request *)
Definition calls_of (k : N) (h : list event) : list (option N * N) :=
  flat_map (fun ev => match ev with ECall k' se r => if N.eqb k' k then [(se, r)] else [] | _ => [] end) h.
(* requests executed one after the other: the data at the end, and the answers *)
Fixpoint serially {D} (exec : D -> option N -> N -> D * N) (d : D) (l : list (option N * N)) : D * list N :=
  match l with
  | [] => (d, [])
  | (se, r) :: l' => let (d1, a) := exec d se r in let (d2, b) := serially exec d1 l' in (d2, a :: b)
  end.
(* call c of client k returned v to its caller *)
Definition returned {D} (s : sys D) (k c v : N) : Prop := In (c, ClientWorker.Answer v) (ClientWorker.results (cl s k)).
Definition reported_failed {D} (s : sys D) (k c : N) : Prop := exists e, In (c, ClientWorker.Failed e) (ClientWorker.results (cl s k)).
(* the i-th execution is that of call c of client k *)
Definition executed {D} (s : sys D) (i : nat) (k c : N) : Prop := exists e, nth_error (log s) i = Some e /\ e_who e = Some (k, c).

Section Claims.
Context {D : Type}.
Variable exec : D -> option N -> N -> D * N.
Variable limit : nat.
Variable tr : N -> transport.
Variable t : N -> ClientWorker.transport.
Variable workers : nat.
Variable d0 : D.
Notation after h := (sys_run exec limit tr t (sys0 workers d0) h).

Lemma inv_after h : inv exec limit tr workers d0 (after h).
Proof. apply inv_run. apply inv0. exact t. Qed.
Lemma payloads_step s ev k : payloads (sys_step exec limit tr t s ev) k = payloads s k ++ calls_of k [ev].
Proof.
  destruct ev; cbn [sys_step calls_of flat_map]; rewrite ?app_nil_r; try reflexivity.
  - cbn [payloads]. unfold fset. rewrite (N.eqb_sym k0 k). destruct (N.eqb_spec k k0) as [->|]; [reflexivity|rewrite app_nil_r; reflexivity].
  - destruct ev; try reflexivity; destruct (writes (cl s k0) _) as [[[] c]|]; reflexivity.
  - destruct (reqs s n) as [|[]]; [reflexivity|]. destruct (nth_error _ _) as [[]|]; [|reflexivity]. destruct (_ <? _); reflexivity.
  - destruct ev; reflexivity.
  - destruct (nth_error _ _) as [[]|]; [|reflexivity]. destruct (value r); [|reflexivity]. destruct (find_entry _ _ _); [reflexivity|]. destruct (exec _ _ _). reflexivity.
  - destruct (nth_error _ _) as [[]|]; [|reflexivity]. destruct (find_entry _ _ _); reflexivity.
  - destruct (ClientWorker.ph (cl s k0)); try reflexivity; destruct (resps s (cur s k0)); reflexivity.
Qed.
Lemma payloads_run h : forall s k, payloads (sys_run exec limit tr t s h) k = payloads s k ++ calls_of k h.
Proof.
  induction h as [|ev h IH]; intros s k; cbn [sys_run]; [symmetry; apply app_nil_r|]. rewrite IH, payloads_step, <- app_assoc. cbn [calls_of flat_map]. rewrite app_nil_r. reflexivity.
Qed.
Lemma issued_after h k : ClientWorker.issued (cl (after h) k) = N.of_nat (length (calls_of k h)).
Proof. rewrite (v_issued _ _ _ _ _ _ (inv_after h)), payloads_run. reflexivity. Qed.
Lemma log_step s ev : exists l, log (sys_step exec limit tr t s ev) = log s ++ l.
Proof.
  destruct ev; cbn [sys_step].
  - exists []. symmetry. apply app_nil_r.
  - destruct ev; try (exists []; symmetry; apply app_nil_r); destruct (writes (cl s k) _) as [[[] c]|]; exists []; symmetry; apply app_nil_r.
  - destruct (reqs s n) as [|[]]; [|destruct (nth_error _ _) as [[]|]; [destruct (_ <? _)|]]; exists []; symmetry; apply app_nil_r.
  - exists []. symmetry. apply app_nil_r.
  - destruct ev; exists []; symmetry; apply app_nil_r.
  - destruct (nth_error _ _) as [[n q]|]; [|exists []; symmetry; apply app_nil_r]. destruct (value q); [|exists []; symmetry; apply app_nil_r]. destruct (find_entry _ _ _); [exists []; symmetry; apply app_nil_r|]. destruct (exec _ _ _). eexists. reflexivity.
  - destruct (nth_error _ _) as [[]|]; [destruct (find_entry _ _ _)|]; exists []; symmetry; apply app_nil_r.
  - destruct (ClientWorker.ph (cl s k)); try (exists []; symmetry; apply app_nil_r); destruct (resps s (cur s k)); exists []; symmetry; apply app_nil_r.
Qed.
Lemma log_run h : forall s, exists l, log (sys_run exec limit tr t s h) = log s ++ l.
Proof.
  induction h as [|ev h IH]; intros s; cbn [sys_run]; [exists []; symmetry; apply app_nil_r|]. destruct (log_step s ev) as (l1 & E1), (IH (sys_step exec limit tr t s ev)) as (l2 & E2). exists (l1 ++ l2). rewrite E2, E1, app_assoc. reflexivity.
Qed.
Lemma replays_serially l : forall d d', replays exec d l d' -> serially exec d (map (fun e => (e_session e, e_req e)) l) = (d', map e_ans l).
Proof.
  induction l as [|e l IH]; cbn; intros d d' R; [subst; reflexivity|]. destruct R as (d1 & E & R). rewrite E, (IH _ _ R). reflexivity.
Qed.
Lemma who_sent s e k c : inv exec limit tr workers d0 s -> In e (log s) -> e_who e = Some (k, c) ->
  nth_error (sent s (e_conn e)) (e_ser e) = Some (k, c) /\ nth_error (payloads s k) (N.to_nat c) = Some (e_session e, e_req e).
Proof.
  intros I H W. destruct (v_log _ _ _ _ _ _ I e H) as (q & A & B & C & E). rewrite E in W. split; [exact W|].
  destruct (v_conn _ _ _ _ _ _ I (e_conn e)) as (j & En & _); [intros E0; rewrite E0 in W; destruct (e_ser e); discriminate|].
  destruct (v_net _ _ _ _ _ _ I j) as (pre & N1 & N2). rewrite <- En in N1, N2. destruct (Forall2_nth _ _ _ _ _ N2 A) as (x & X & _ & r & R1 & R2).
  assert (x = (k, c)) as ->. { rewrite N1, nth_error_app1 in W by (apply nth_error_Some; congruence). congruence. }
  cbn [fst snd] in R1. rewrite R1. congruence.
Qed.
Lemma executed_once s i j k c : inv exec limit tr workers d0 s -> executed s i k c -> executed s j k c -> i = j.
Proof.
  intros I (e & E1 & E2) (f & F1 & F2). destruct (who_sent s e k c I (nth_error_In _ _ E1) E2) as [A _]. destruct (who_sent s f k c I (nth_error_In _ _ F1) F2) as [B _].
  destruct (v_once _ _ _ _ _ _ I _ _ _ _ _ A B) as [X Y]. pose proof (v_keys _ _ _ _ _ _ I) as ND.
  eapply (proj1 (NoDup_nth_error _)); [exact ND| |].
  - rewrite map_length. apply nth_error_Some. congruence.
  - rewrite !nth_error_map, E1, F1. cbn. congruence.
Qed.

(* The server behaves as if it executed requests one after the other: its data is that after
   the logged requests, in the order of the log, and each was answered with what its own
   execution answered.  Every call of a client is executed at most once, as it was issued
   (session and request). *)
Theorem C68_one_at_a_time : forall h, let s := after h in
  serially exec d0 (map (fun e => (e_session e, e_req e)) (log s)) = (db s, map e_ans (log s)).
Proof. intros h s. apply replays_serially. exact (v_db _ _ _ _ _ _ (inv_after h)). Qed.

Theorem C68_at_most_once : forall h k c i j, executed (after h) i k c -> executed (after h) j k c -> i = j.
Proof. intros h k c i j. apply executed_once, inv_after. Qed.

Theorem C68_as_issued : forall h e k c, In e (log (after h)) -> e_who e = Some (k, c) ->
  nth_error (calls_of k h) (N.to_nat c) = Some (e_session e, e_req e).
Proof. intros h e k c H W. destruct (who_sent _ e k c (inv_after h) H W) as [_ A]. rewrite payloads_run in A. exact A. Qed.

(* What is executed came from one of the clients or from a connection of another program. *)
Theorem C68_nothing_else : forall h e, In e (log (after h)) ->
  if N.odd (e_conn e) then e_who e = None else exists k c, e_who e = Some (k, c).
Proof.
  intros h e H. pose proof (inv_after h) as I. destruct (v_log _ _ _ _ _ _ I e H) as (q & A & _ & _ & E). destruct (N.odd (e_conn e)) eqn:O.
  - rewrite E. destruct (sent (after h) (e_conn e)) as [|x l] eqn:S; [destruct (e_ser e); reflexivity|]. destruct (v_conn _ _ _ _ _ _ I (e_conn e)) as (j & En & _); [congruence|]. unfold own_conn in En. rewrite En, N.odd_mul in O. discriminate.
  - assert (EV : exists j, e_conn e = own_conn j). { exists (N.div2 (e_conn e)). unfold own_conn. pose proof (N.div2_odd (e_conn e)) as X. rewrite O in X. cbn [N.b2n] in X. lia. }
    destruct EV as (j & En). destruct (v_net _ _ _ _ _ _ I j) as (pre & N1 & N2). rewrite <- En in N1, N2. destruct (Forall2_nth _ _ _ _ _ N2 A) as ([k c] & X & _).
    exists k, c. rewrite E, N1, nth_error_app1; [exact X|apply nth_error_Some; congruence].
Qed.

(* A call returns what its execution answered (up to 2^32 calls of one client object, see
   C63 for what happens beyond). *)
Theorem C68_returned : forall h k c v, (N.of_nat (length (calls_of k h)) <= 2 ^ 32)%N -> returned (after h) k c v ->
  exists e, In e (log (after h)) /\ e_who e = Some (k, c) /\ e_ans e = v.
Proof. intros h k c v B R. apply (v_ans _ _ _ _ _ _ (inv_after h)); [rewrite issued_after; exact B|exact R]. Qed.

(* Real time: a call that returned before another one was issued, by whatever client, was
   executed before it: after writing, everybody reads what was written. *)
Theorem C68_real_time : forall h1 h2 k c v k' c' i j,
  (N.of_nat (length (calls_of k h1)) <= 2 ^ 32)%N ->
  returned (after h1) k c v -> N.to_nat c' >= length (calls_of k' h1) ->
  executed (after (h1 ++ h2)) i k c -> executed (after (h1 ++ h2)) j k' c' -> i < j.
Proof.
  intros h1 h2 k c v k' c' i j B R New Ei Ej. destruct (C68_returned h1 k c v B R) as (e & H & W & _).
  destruct (In_nth_error _ _ H) as (m & Hm). destruct (log_run h2 (after h1)) as (l & L). rewrite <- sys_run_app in L.
  assert (Em : executed (after (h1 ++ h2)) m k c) by (exists e; split; [rewrite L, nth_error_app1; [exact Hm|apply nth_error_Some; congruence]|exact W]).
  assert (i = m) as -> by (eapply executed_once; [apply inv_after|exact Ei|exact Em]).
  assert (LM : m < length (log (after h1))) by (apply nth_error_Some; congruence).
  destruct Ej as (f & F1 & F2). destruct (Nat.lt_ge_cases j (length (log (after h1)))) as [LJ|LJ]; [|lia]. exfalso.
  rewrite L, nth_error_app1 in F1 by exact LJ. pose proof (C68_as_issued h1 f k' c' (nth_error_In _ _ F1) F2) as X.
  assert (N.to_nat c' < length (calls_of k' h1)) by (apply nth_error_Some; congruence). lia.
Qed.

(* Once nothing can happen any more on a websocket client's open connection and in the server,
   every call sent on that connection has returned. *)
Definition may_happen (n k : N) (ev : event) : Prop :=
  match ev with
  | EDeliver n' => n' = n
  | EReceive k' => k' = k
  | EExec _ | EFinish _ => True
  | EServer ev => progress ev = true /\ concerns [n] ev
  | _ => False
  end.
Lemma all_answered_now : forall h k c, let s := after h in
  t k = ClientWorker.WebSocket -> (N.of_nat (length (calls_of k h)) <= 2 ^ 32)%N ->
  ClientWorker.ph (cl s k) = ClientWorker.Connected -> In (k, c) (sent s (cur s k)) ->
  0 < limit -> 0 < workers -> graceful (srv s) = false -> lost (srv s) = [] ->
  (forall n q, In q (arrived (conns (srv s) n)) -> value q <> None) ->
  (forall ev, may_happen (cur s k) k ev -> sys_step exec limit tr t s ev = s) ->
  exists v, returned s k c v.
Proof.
  intros h k c s Tk B Ph Hc HL HW HG HLo HV R. pose proof (inv_after h) as I. fold s in I.
  assert (ON : RemoteClient.online (cl s k)) by (unfold RemoteClient.online; rewrite Ph; exact Logic.I).
  destruct (v_srv _ _ _ _ _ _ I) as (hs & Es).
  destruct (v_conn _ _ _ _ _ _ I (cur s k)) as (j & En & _); [intros E; rewrite E in Hc; destruct Hc|].
  destruct (v_net _ _ _ _ _ _ I j) as (pre & N1 & N2). rewrite <- En in N1, N2.
  (* nothing is busy *)
  assert (BZ : forall m, nth_error (busy (srv s)) m = None).
  { intros m. destruct (nth_error (busy (srv s)) m) as [[n q]|] eqn:Eb; [exfalso|reflexivity].
    assert (V : value q <> None). { apply (HV n). rewrite Es in *. apply nth_error_In in Eb. apply busy_genuine in Eb. eapply nth_error_In, Eb. }
    pose proof (R (EExec m) Logic.I) as R1. pose proof (R (EFinish m) Logic.I) as R2. cbn [sys_step] in R1, R2. rewrite Eb in R1, R2. destruct (value q) as [r|] eqn:Vq; [|congruence].
    destruct (find_entry n (ser q) (log s)) as [e|] eqn:F.
    - apply (f_equal (fun x => length (busy (srv x)))) in R2. cbn [set_srv srv step] in R2. rewrite Eb, Vq in R2. cbn [busy] in R2. pose proof (remove_nth_length _ _ _ _ Eb). lia.
    - destruct (exec (db s) (rsession q) r) as [d a]. apply (f_equal (fun x => length (log x))) in R1. cbn [log] in R1. rewrite app_length in R1. cbn in R1. lia. }
  assert (Q := all_answered_in limit tr workers hs [cur s k] HL HW). rewrite <- Es in Q. specialize (Q HG HLo HV).
  assert (PR : forall ev, progress ev = true -> concerns [cur s k] ev -> step limit tr (srv s) ev = srv s).
  { intros ev P C. destruct ev as [n i se v|n|n|n| |m v|m|n m|n|n|n| |n|n]; try discriminate;
    try (match goal with |- step _ _ _ ?e = _ => pose proof (R (EServer e) (conj P C)) as X end; apply (f_equal srv) in X; exact X).
    cbn [step]. rewrite BZ. reflexivity. }
  specialize (Q PR).
  (* everything was delivered *)
  destruct (quiescent limit tr workers hs [cur s k] HL HW) as (_ & _ & Qe); try (rewrite <- Es; assumption). rewrite <- Es in Qe. destruct (Qe (cur s k) (or_introl eq_refl)) as (Qi & _).
  assert (RE : reqs s (cur s k) = []).
  { destruct (reqs s (cur s k)) as [|[k' c'] rest] eqn:Er; [reflexivity|exfalso].
    assert (S1 : In (k', c') (sent s (cur s k))) by (rewrite N1; apply in_or_app; right; left; reflexivity).
    pose proof (sent_lt _ _ _ _ _ s _ _ _ I S1) as Lt. rewrite (v_issued _ _ _ _ _ _ I) in Lt.
    pose proof (R (EDeliver (cur s k)) eq_refl) as X. cbn [sys_step] in X. rewrite Er in X. destruct (nth_error (payloads s k') (N.to_nat c')) as [[se r]|] eqn:Pn.
    - rewrite Qi in X. cbn [length] in X. apply Nat.ltb_lt in HL. rewrite HL in X. apply (f_equal (fun x => reqs x (cur s k))) in X. cbn [reqs] in X. rewrite fset_same, Er in X. apply (f_equal (@length _)) in X. cbn in X. lia.
    - apply nth_error_None in Pn. lia. }
  assert (RR : resps s (cur s k) = []).
  { destruct (resps s (cur s k)) as [|r rest] eqn:Er; [reflexivity|exfalso]. pose proof (R (EReceive k) eq_refl) as X. cbn [sys_step] in X. rewrite Ph, Er in X.
    apply (f_equal (fun x => resps x (cur s k))) in X. cbn [resps] in X. rewrite fset_same, Er in X. apply (f_equal (@length _)) in X. cbn in X. lia. }
  rewrite RE, app_nil_r in N1. destruct (In_nth_error _ _ Hc) as (m & Hm).
  assert (Lm : m < length (arrived (conns (srv s) (cur s k)))) by (rewrite <- (Forall2_len _ _ _ N2), <- N1; apply nth_error_Some; congruence).
  destruct (Q (cur s k) m (or_introl eq_refl) Lm) as (r & Hr & Ar).
  destruct (lives_run exec limit tr t workers d0 h _ (inv0 exec limit tr t workers d0) (lives0 t workers d0) k Tk) as [_ LV]. fold s in LV. destruct (LV ON) as [_ (done & D1 & D2)]; [unfold s; rewrite issued_after; exact B|].
  rewrite RR, app_nil_r in D1. rewrite D1 in Hr. apply (D2 r c Hr). rewrite Ar. exact Hm.
Qed.
(* the server's own history within a history of the system *)
Lemma srv_history h : forall s : sys D, exists hs, srv (sys_run exec limit tr t s h) = run limit tr (srv s) hs /\
  (In Graceful hs -> In (EServer Graceful) h) /\ (forall j, In (Crash j) hs -> In (EServer (Crash j)) h) /\
  (forall n i se, In (Arrive n i se None) hs -> exists m, In (EForeign m i se None) h).
Proof.
  induction h as [|ev h IH]; intros s; [exists []; cbn; repeat split; contradiction|]. cbn [sys_run].
  assert (X : exists l, srv (sys_step exec limit tr t s ev) = run limit tr (srv s) l /\
    (In Graceful l -> ev = EServer Graceful) /\ (forall j, In (Crash j) l -> ev = EServer (Crash j)) /\
    (forall n i se, In (Arrive n i se None) l -> exists m, ev = EForeign m i se None)).
  { assert (Nil : exists l, srv s = run limit tr (srv s) l /\
      (In Graceful l -> ev = EServer Graceful) /\ (forall j, In (Crash j) l -> ev = EServer (Crash j)) /\
      (forall n i se, In (Arrive n i se None) l -> exists m, ev = EForeign m i se None)) by (exists []; cbn; repeat split; contradiction).
    destruct ev as [k se r|k ev|n|n i se v|ev|j|j|k]; cbn [sys_step].
    - exact Nil.
    - destruct ev; try exact Nil; destruct (writes _ _) as [[[|] ?]|]; exact Nil.
    - destruct (reqs s n) as [|[k c] rest]; [exact Nil|]. destruct (nth_error (payloads s k) _) as [[se r]|]; [|exact Nil].
      destruct (_ <? _); [|exact Nil]. cbn [srv]. eexists [_]. cbn [run]. split; [reflexivity|].
      repeat split; [intros [E|[]]|intros j [E|[]]|intros n' i' se' [E|[]]]; discriminate E.
    - cbn [set_srv srv]. eexists [_]. cbn [run]. split; [reflexivity|].
      repeat split; [intros [E|[]]; discriminate E|intros j [E|[]]; discriminate E|]. intros n' i' se' [E|[]]. injection E as _ -> -> ->. eauto.
    - destruct ev; try exact Nil; cbn [set_srv srv]; eexists [_]; cbn [run]; (split; [reflexivity|]);
        (split; [intros [E|[]]|split; [intros j [E|[]]|intros n' i' se' [E|[]]]]; first [discriminate E | f_equal; symmetry; exact E | f_equal; exact E]).
    - destruct (nth_error (busy (srv s)) j) as [[n q]|]; [|exact Nil]. destruct (value q); [|exact Nil].
      destruct (find_entry _ _ _); [exact Nil|]. destruct (exec _ _ _). exact Nil.
    - destruct (nth_error (busy (srv s)) j) as [[n q]|]; [|exact Nil]. destruct (find_entry _ _ _) as [e|]; [|exact Nil].
      cbn [set_srv srv]. eexists [_]. cbn [run]. split; [reflexivity|].
      repeat split; [intros [E|[]]|intros j' [E|[]]|intros n' i' se' [E|[]]]; discriminate E.
    - destruct (ClientWorker.ph _); try exact Nil; destruct (resps _ _); exact Nil. }
  destruct X as (l & E1 & A1 & A2 & A3). destruct (IH (sys_step exec limit tr t s ev)) as (hs & E2 & B1 & B2 & B3).
  exists (l ++ hs). split; [|split; [|split]].
  - rewrite E2, E1. clear. generalize (srv s). induction l as [|x l IH]; intros z; cbn [app run]; [reflexivity|apply IH].
  - intros I. apply in_app_or in I. destruct I as [I|I]; [left; rewrite (A1 I); reflexivity|right; apply B1, I].
  - intros j I. apply in_app_or in I. destruct I as [I|I]; [left; rewrite (A2 j I); reflexivity|right; apply B2, I].
  - intros n i se I. apply in_app_or in I. destruct I as [I|I].
    + destruct (A3 n i se I) as [m ->]. exists m. left. reflexivity.
    + destruct (B3 n i se I) as [m M]. exists m. right. exact M.
Qed.
(* Once nothing can happen any more on a websocket client's open connection and in the server,
   every call sent on that connection has returned: if there was no shutdown, no handler
   panicked, and no other program sent a payload carrying an error. *)
Theorem C68_all_answered : forall h k c, let s := after h in
  t k = ClientWorker.WebSocket -> (N.of_nat (length (calls_of k h)) <= 2 ^ 32)%N ->
  ClientWorker.ph (cl s k) = ClientWorker.Connected -> In (k, c) (sent s (cur s k)) ->
  0 < limit -> 0 < workers ->
  ~ In (EServer Graceful) h -> (forall j, ~ In (EServer (Crash j)) h) -> (forall n i se, ~ In (EForeign n i se None) h) ->
  (forall ev, may_happen (cur s k) k ev -> sys_step exec limit tr t s ev = s) ->
  exists v, returned s k c v.
Proof.
  intros h k c s Tk B Ph Hc HL HW HG HC HF R. destruct (srv_history h (sys0 workers d0)) as (hs & E & G1 & G2 & G3).
  cbn [sys0 srv] in E. assert (E' : srv s = run limit tr (open workers) hs) by exact E.
  apply (all_answered_now h k c Tk B Ph Hc HL HW); try exact R; fold s; rewrite E'.
  - pose proof (C64_shutdown_began limit tr workers hs) as X. destruct (graceful _); [exfalso; apply HG, G1, X; reflexivity|reflexivity].
  - apply C64_nothing_lost; [exact HW|]. intros j J. exact (HC j (G2 j J)).
  - intros n q. apply (valid_arrivals limit tr hs (open workers)); [|intros d y []].
    intros n' i se J. destruct (G3 n' i se J) as [m M]. exact (HF m i se M).
Qed.
End Claims.

(* ---- a concrete system: the data is a number, a request r adds r and answers the sum *)
Definition add (d : N) (se : option N) (r : N) : N * N := ((d + r)%N, (d + r)%N).
Definition ws (_ : N) := WebSocket.
Definition wsc (_ : N) := ClientWorker.WebSocket.
Definition sum h := sys_run add 16 ws wsc (sys0 2 100%N) h.
Definition connect k := [EClient k ClientWorker.Take; EClient k ClientWorker.FirstSend].
Definition serve n := [EDeliver n; EServer (Look n); EServer (Accept n); EServer Start; EExec 0; EFinish 0; EServer (Respond n 0); EServer (Sub n); EServer (Notify n); EServer (Write n)].
(* client 5 adds 7, then client 9 adds 1; connections 0 and 2 *)
Definition two := [ECall 5 (Some 3%N) 7] ++ connect 5 ++ serve 0 ++ [EReceive 5].
Definition two' := two ++ [ECall 9 None 1] ++ connect 9 ++ serve 2 ++ [EReceive 9; EServer (Look 0); EServer (Look 2)].
Example C68_example_log : log (sum two') = [Entry 0 0 (Some (5, 0)%N) (Some 3%N) 7 107; Entry 2 0 (Some (9, 0)%N) None 1 108] /\ db (sum two') = 108%N.
Proof. vm_compute. split; reflexivity. Qed.
Example C68_example_real_time : returned (sum two) 5 0 107 /\ length (calls_of 9 two) = 0 /\ executed (sum two') 0 5 0 /\ executed (sum two') 1 9 0.
Proof. vm_compute. repeat split; eauto. Qed.
Example C68_example_nothing_else : e_who (nth 0 (log (sum ([EForeign 0 (Some 1%N) None (Some 5%N)] ++ skipn 1 (serve 1)))) (Entry 0 0 (Some (0, 0)%N) None 0 0)) = None.
Proof. vm_compute. reflexivity. Qed.
Lemma arrived_untouched D exec limit tr t n h : forall s : sys D, (forall ev, In ev h -> match ev with EDeliver m => m <> n | EForeign _ _ _ _ => False | _ => True end) ->
  arrived (conns (srv (sys_run exec limit tr t s h)) n) = arrived (conns (srv s) n).
Proof.
  induction h as [|ev h IH]; intros s H; cbn [sys_run]; [reflexivity|]. rewrite IH by (intros; apply H; right; assumption). specialize (H ev (or_introl eq_refl)). destruct ev; cbn [sys_step]; try contradiction; try reflexivity.
  - destruct ev; try reflexivity; destruct (writes (cl s k) _) as [[[] c]|]; reflexivity.
  - destruct (reqs s n0) as [|[]]; [reflexivity|]. destruct (nth_error _ _) as [[]|]; [|reflexivity]. destruct (_ <? _); [|reflexivity]. cbn [srv]. rewrite arrived_step. cbn [arrives]. apply not_eq_sym, N.eqb_neq in H. rewrite H. apply app_nil_r.
  - destruct ev; try reflexivity; cbn [set_srv srv]; rewrite arrived_step; apply app_nil_r.
  - destruct (nth_error _ _) as [[]|]; [|reflexivity]. destruct (value r); [|reflexivity]. destruct (find_entry _ _ _); [reflexivity|]. destruct (exec _ _ _). reflexivity.
  - destruct (nth_error _ _) as [[]|]; [|reflexivity]. destruct (find_entry _ _ _); [|reflexivity]. cbn [set_srv srv]. rewrite arrived_step. apply app_nil_r.
  - destruct (ClientWorker.ph (cl s k)); try reflexivity; destruct (resps s (cur s k)); reflexivity.
Qed.
(* the hypotheses of C68_all_answered hold *)
Example C68_example_rest : let s := sum two' in
  ClientWorker.ph (cl s 9) = ClientWorker.Connected /\ In (9, 0)%N (sent s (cur s 9%N)) /\
  ~ In (EServer Graceful) two' /\ (forall j, ~ In (EServer (Crash j)) two') /\ (forall n i se, ~ In (EForeign n i se None) two') /\
  (forall ev, may_happen (cur s 9%N) 9 ev -> sys_step add 16 ws wsc s ev = s) /\ returned s 9 0 108.
Proof.
  intros s. split; [vm_compute; reflexivity|]. split; [vm_compute; auto|].
  split; [intros I; cbn in I; repeat (destruct I as [I|I]; [discriminate|]); exact I|].
  split; [intros j I; cbn in I; repeat (destruct I as [I|I]; [discriminate|]); exact I|].
  split; [intros n i se I; cbn in I; repeat (destruct I as [I|I]; [discriminate|]); exact I|]. split; [|vm_compute; auto].
  - intros ev H. destruct ev as [| |n| |ev|m|m|k]; cbn [may_happen] in H; try contradiction.
    + rewrite H. vm_compute. reflexivity.
    + destruct H as [P C]. destruct ev; try discriminate; cbn [concerns In] in C; try (destruct C as [<-|[]]; vm_compute; reflexivity).
      * vm_compute. reflexivity.
      * reflexivity.
      * destruct C as [<-|[]]. destruct k; vm_compute; reflexivity.
    + destruct m; vm_compute; reflexivity.
    + destruct m; vm_compute; reflexivity.
    + rewrite H. vm_compute. reflexivity.
Qed.

(* FINDING (documented nowhere): a call whose result is an error may still be executed, even
   after the error was reported: retrying it may execute it twice. *)
Theorem C68_failed_but_executed_refuted : forall (exec : N -> option N -> N -> N * N) d0, exists h1 h2, forall limit tr t workers,
  0 < limit -> 0 < workers ->
  let s1 := sys_run exec limit tr t (sys0 workers d0) h1 in
  let s2 := sys_run exec limit tr t (sys0 workers d0) (h1 ++ h2) in
  reported_failed s1 0 0 /\ log s1 = [] /\ executed s2 0 0 0.
Proof.
  intros exec d0. exists [ECall 0 None 7; EClient 0 ClientWorker.Take; EClient 0 (ClientWorker.FirstSendFail 1)], [EDeliver 0; EServer (Look 0); EServer (Accept 0); EServer Start; EExec 0].
  intros [|limit] tr t [|workers] HL HW; try lia. cbn zeta. split; [exists 1%N; left; reflexivity|]. split; [reflexivity|].
  unfold executed. cbn. destruct (exec d0 None 7%N) as [d a] eqn:E. cbn. eexists. split; reflexivity.
Qed.
(* Calls of one client that wait at the same time may be executed in any order. *)
Theorem C68_pipelined_order_refuted : exists h, forall limit tr workers, 1 < limit -> 1 < workers -> 
  let s := sys_run add limit tr wsc (sys0 workers 0%N) h in
  calls_of 0 h = [(None, 1%N); (None, 2%N)] /\ executed s 0 0 1 /\ executed s 1 0 0.
Proof.
  exists ([ECall 0 None 1; ECall 0 None 2] ++ connect 0 ++ [EClient 0 ClientWorker.Send; EDeliver 0; EDeliver 0; EServer (Look 0); EServer (Accept 0); EServer (Look 0); EServer (Accept 0); EServer Start; EServer Start; EExec 1; EExec 0]).
  intros [|[|limit]] tr [|[|workers]] HL HW; try lia. cbn zeta. split; [reflexivity|]. split; [exists (Entry 0 1 (Some (0, 1)%N) None 2 2)|exists (Entry 0 0 (Some (0, 0)%N) None 1 3)]; (split; [vm_compute; reflexivity|reflexivity]).
Qed.

Print Assumptions C68_one_at_a_time.
Print Assumptions C68_at_most_once.
Print Assumptions C68_as_issued.
Print Assumptions C68_nothing_else.
Print Assumptions C68_returned.
Print Assumptions C68_real_time.
Print Assumptions C68_all_answered.
Print Assumptions C68_failed_but_executed_refuted.
Print Assumptions C68_pipelined_order_refuted.
