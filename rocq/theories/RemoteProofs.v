(* Proofs for Remote.v *)
From Coq Require Import List NArith Arith Bool Lia.
From Verif Require Import ServerQueue ServerQueueProofs Remote.
From Verif Require ClientWorker ClientWorkerProofs RemoteClient.
Import ListNotations.

(* ---- single steps of the server *)
Definition arrives (limit : nat) (s : server) (ev : ServerQueue.event) (d : N) : list req :=
  match ev with
  | Arrive c i se v => if N.eqb d c && (length (inbox (conns s c)) <? limit) then [mkReq (length (arrived (conns s c))) i se v] else []
  | _ => []
  end.
Lemma conns_setc s c x d : conns (setc s c x) d = if N.eqb d c then x else conns s d.
Proof. reflexivity. Qed.
Ltac conn_cases := repeat match goal with
  | |- context [match ?x with _ => _ end] => match x with context [N.eqb _ _] => fail 1 | _ => destruct x eqn:? end
  end.
Lemma arrived_step limit tr s ev d : arrived (conns (step limit tr s ev) d) = arrived (conns s d) ++ arrives limit s ev d.
Proof.
  destruct ev as [c i se v|c|c|c| |k v|k|c k|c|c|c| |c|c]; cbn [step arrives]; rewrite ?app_nil_r.
  - destruct (_ <? _); [|rewrite andb_false_r, app_nil_r; reflexivity]. rewrite conns_setc, andb_true_r. destruct (N.eqb_spec d c) as [->|]; [reflexivity|rewrite app_nil_r; reflexivity].
  - destruct (loop (conns s c)); try reflexivity. destruct (_ =? _); rewrite conns_setc; destruct (N.eqb_spec d c) as [->|]; reflexivity.
  - destruct (loop (conns s c)); try reflexivity. destruct (permit _); try reflexivity; rewrite conns_setc; destruct (N.eqb_spec d c) as [->|]; reflexivity.
  - destruct (loop (conns s c)); try reflexivity. destruct (inbox _); try reflexivity. destruct (_ =? _); cbn [conns]; rewrite conns_setc; destruct (N.eqb_spec d c) as [->|]; reflexivity.
  - destruct (workq s); try reflexivity. destruct (_ <? _); reflexivity.
  - destruct (nth_error _ _) as [[c q]|]; try reflexivity. destruct (value q); try reflexivity. cbn [conns]; rewrite conns_setc; destruct (N.eqb_spec d c) as [->|]; reflexivity.
  - destruct (nth_error _ _) as [[c q]|]; reflexivity.
  - destruct (nth_error _ _); try reflexivity. rewrite conns_setc; destruct (N.eqb_spec d c) as [->|]; reflexivity.
  - destruct (subbing _); try reflexivity. rewrite conns_setc; destruct (N.eqb_spec d c) as [->|]; reflexivity.
  - destruct (notifying _); try reflexivity. rewrite conns_setc; destruct (N.eqb_spec d c) as [->|]; reflexivity.
  - destruct (writing _); try reflexivity. destruct (outq _); try reflexivity. rewrite conns_setc; destruct (N.eqb_spec d c) as [->|]; reflexivity.
  - reflexivity.
  - destruct (graceful s); try reflexivity. destruct (loop _); try reflexivity. rewrite conns_setc; destruct (N.eqb_spec d c) as [->|]; reflexivity.
  - destruct (graceful s); try reflexivity. destruct (tr c); try reflexivity. destruct (writing _); try reflexivity. rewrite conns_setc; destruct (N.eqb_spec d c) as [->|]; reflexivity.
Qed.
Definition writes_now (s : server) (ev : ServerQueue.event) (d : N) : list resp :=
  match ev with
  | Write c => if N.eqb d c then match writing (conns s c), outq (conns s c) with true, r :: _ => [r] | _, _ => [] end else []
  | _ => []
  end.
Lemma written_step limit tr s ev d : written (conns (step limit tr s ev) d) = written (conns s d) ++ writes_now s ev d.
Proof.
  destruct ev as [c i se v|c|c|c| |k v|k|c k|c|c|c| |c|c]; cbn [step writes_now]; rewrite ?app_nil_r.
  - destruct (_ <? _); [|reflexivity]. rewrite conns_setc. destruct (N.eqb_spec d c) as [->|]; reflexivity.
  - destruct (loop (conns s c)); try reflexivity. destruct (_ =? _); rewrite conns_setc; destruct (N.eqb_spec d c) as [->|]; reflexivity.
  - destruct (loop (conns s c)); try reflexivity. destruct (permit _); try reflexivity; rewrite conns_setc; destruct (N.eqb_spec d c) as [->|]; reflexivity.
  - destruct (loop (conns s c)); try reflexivity. destruct (inbox _); try reflexivity. destruct (_ =? _); cbn [conns]; rewrite conns_setc; destruct (N.eqb_spec d c) as [->|]; reflexivity.
  - destruct (workq s); try reflexivity. destruct (_ <? _); reflexivity.
  - destruct (nth_error _ _) as [[c q]|]; try reflexivity. destruct (value q); try reflexivity. cbn [conns]; rewrite conns_setc; destruct (N.eqb_spec d c) as [->|]; reflexivity.
  - destruct (nth_error _ _) as [[c q]|]; reflexivity.
  - destruct (nth_error _ _); try reflexivity. rewrite conns_setc; destruct (N.eqb_spec d c) as [->|]; reflexivity.
  - destruct (subbing _); try reflexivity. rewrite conns_setc; destruct (N.eqb_spec d c) as [->|]; reflexivity.
  - destruct (notifying _); try reflexivity. rewrite conns_setc; destruct (N.eqb_spec d c) as [->|]; reflexivity.
  - destruct (writing (conns s c)) eqn:Wr; [destruct (outq (conns s c)) eqn:Oq|]; try (destruct (N.eqb d c); rewrite app_nil_r; reflexivity). rewrite conns_setc. destruct (N.eqb_spec d c) as [->|]; [reflexivity|rewrite app_nil_r; reflexivity].
  - reflexivity.
  - destruct (graceful s); try reflexivity. destruct (loop _); try reflexivity. rewrite conns_setc; destruct (N.eqb_spec d c) as [->|]; reflexivity.
  - destruct (graceful s); try reflexivity. destruct (tr c); try reflexivity. destruct (writing _); try reflexivity. rewrite conns_setc; destruct (N.eqb_spec d c) as [->|]; reflexivity.
Qed.
Lemma response_step limit tr s ev c r : In r (responses (conns (step limit tr s ev) c)) ->
  In r (responses (conns s c)) \/ exists k q, ev = Finish k (pvalue r) /\ nth_error (busy s) k = Some (c, q) /\ ser q = answers r.
Proof.
  intros H. destruct (response_origin limit tr c r [ev] s H) as [A|(h1 & k & h2 & q & E & B & C & _)]; [auto|]. right. exists k, q.
  destruct h1 as [|e1 [|e2 h1]]; [|destruct h2; discriminate|destruct h1; discriminate]. injection E as -> E. cbn in B. auto.
Qed.
Lemma busy_genuine limit tr w h n q : In (n, q) (busy (run limit tr (open w) h)) -> nth_error (arrived (conns (run limit tr (open w) h) n)) (ser q) = Some q.
Proof.
  intros I. destruct (matched_run limit tr w h n) as (_ & _ & M & _). cbn [view vb vc] in M. rewrite Forall_forall in M. apply M. unfold jobs. apply in_map_iff. exists (n, q). split; [reflexivity|]. apply filter_In. split; [exact I|apply N.eqb_refl].
Qed.
Lemma written_matched limit tr w h n r : In r (written (conns (run limit tr (open w) h) n)) ->
  exists q, nth_error (arrived (conns (run limit tr (open w) h) n)) (answers r) = Some q /\ pid r = rid q.
Proof.
  intros I. destruct (matched_run limit tr w h n) as (_ & _ & _ & _ & _ & _ & M & _). cbn [view vc] in M. rewrite Forall_forall in M. destruct (M r I) as (q & A & B & _). eauto.
Qed.

(* ---- the invariant *)
Lemma fset_same {A} (f : N -> A) k a : fset f k a k = a.
Proof. unfold fset. rewrite N.eqb_refl. reflexivity. Qed.
Lemma fset_other {A} (f : N -> A) k a x : x <> k -> fset f k a x = f x.
Proof. unfold fset. intros H. apply N.eqb_neq in H. rewrite H. reflexivity. Qed.

Section Inv.
Context {D : Type}.
Variable exec : D -> option N -> N -> D * N.
Variable limit : nat.
Variable tr : N -> transport.
Variable t : N -> ClientWorker.transport.
Variable workers : nat.
Variable d0 : D.

(* a request that arrived is the call that was written *)
Definition is_call (p : N -> list (option N * N)) (x : N * N) (q : req) : Prop :=
  rid q = Some (ClientWorker.wire_id (snd x)) /\
  exists r, nth_error (p (fst x)) (N.to_nat (snd x)) = Some (rsession q, r) /\ value q = Some r.
(* the data is what the recorded requests make of d0, with the recorded answers *)
Fixpoint replays (d : D) (l : list entry) (d' : D) : Prop :=
  match l with
  | [] => d = d'
  | e :: r => exists d1, exec d (e_session e) (e_req e) = (d1, e_ans e) /\ replays d1 r d'
  end.
Lemma replays_snoc l : forall d d' e d'', replays d l d' -> exec d' (e_session e) (e_req e) = (d'', e_ans e) -> replays d (l ++ [e]) d''.
Proof. induction l as [|x l IH]; cbn; intros d d' e d'' R E; [subst; exists d''; auto|]. destruct R as (d1 & E1 & R). exists d1. split; [exact E1|]. eapply IH; eassumption. Qed.

Notation worker_of s k := (cl s k).
Record inv (s : sys D) : Prop := {
  v_srv : exists h, srv s = run limit tr (open workers) h;
  v_quiet : forall k, ClientWorkerProofs.quiet (cl s k);
  v_wonce : forall k, ClientWorkerProofs.once (cl s k);
  v_issued : forall k, ClientWorker.issued (cl s k) = N.of_nat (length (payloads s k));
  v_fresh : forall n k c, In (k, c) (sent s n) -> (c < ClientWorker.issued (cl s k))%N /\ ~ RemoteClient.fresh c (cl s k);
  v_once : forall n j n' j' x, nth_error (sent s n) j = Some x -> nth_error (sent s n') j' = Some x -> n = n' /\ j = j';
  v_conn : forall n, sent s n <> [] -> exists j, n = own_conn j /\ (j < nconn s)%N;
  v_owner : forall n k c k' c', In (k, c) (sent s n) -> In (k', c') (sent s n) -> k = k';
  v_cur : forall k, RemoteClient.online (cl s k) -> exists c, In (k, c) (sent s (cur s k));
  v_keyed : forall k, RemoteClient.online (cl s k) -> ClientWorkerProofs.keyed (cl s k) (map snd (sent s (cur s k))) /\ ClientWorkerProofs.hand_logged (cl s k) (map snd (sent s (cur s k)));
  v_net : forall j, exists pre, sent s (own_conn j) = pre ++ reqs s (own_conn j) /\ Forall2 (is_call (payloads s)) pre (arrived (conns (srv s) (own_conn j)));
  v_log : forall e, In e (log s) -> exists q, nth_error (arrived (conns (srv s) (e_conn e))) (e_ser e) = Some q /\ value q = Some (e_req e) /\ rsession q = e_session e /\ e_who e = nth_error (sent s (e_conn e)) (e_ser e);
  v_keys : NoDup (map (fun e => (e_conn e, e_ser e)) (log s));
  v_resp : forall n r, In r (responses (conns (srv s) n)) -> exists e, In e (log s) /\ e_conn e = n /\ e_ser e = answers r /\ e_ans e = pvalue r;
  v_resps : forall n r, In r (resps s n) -> In r (written (conns (srv s) n));
  v_ans : forall k c v, (ClientWorker.issued (cl s k) <= 4294967296)%N -> In (c, ClientWorker.Answer v) (ClientWorker.results (cl s k)) ->
    exists e, In e (log s) /\ e_who e = Some (k, c) /\ e_ans e = v;
  v_db : replays d0 (log s) (db s) }.

Lemma inv0 : inv (sys0 workers d0).
Proof.
  constructor; cbn; try tauto; try (intros; contradiction); try reflexivity.
  - exists []. reflexivity.
  - intros k. exact ClientWorkerProofs.init_once.
  - intros n j n' j' x H. destruct j; discriminate.
  - intros j. exists []. split; [reflexivity|constructor].
  - constructor.
Qed.

(* ---- server-side changes *)
Lemma own_odd j n : own_conn j <> (2 * n + 1)%N.
Proof. unfold own_conn. lia. Qed.
Lemma inv_server s ev rs : inv s ->
  (forall j, arrives limit (srv s) ev (own_conn j) = []) ->
  (forall k v q c, ev = Finish k v -> nth_error (busy (srv s)) k = Some (c, q) -> exists e, In e (log s) /\ e_conn e = c /\ e_ser e = ser q /\ e_ans e = v) ->
  (forall n r, In r (rs n) -> In r (resps s n) \/ In r (writes_now (srv s) ev n)) ->
  inv (Sys (cl s) (cur s) (payloads s) (nconn s) (sent s) (reqs s) (step limit tr (srv s) ev) rs (db s) (log s)).
Proof.
  intros I NA FI RS. destruct I as [I1 I2 I3 I4 I5 I6 I7 I8 I9 I10 I11 I12 I13 I14 I15 I16 I17].
  constructor; cbn [cl cur payloads nconn sent reqs srv resps db log]; try assumption.
  - destruct I1 as (h & E). exists (h ++ [ev]). rewrite run_app. cbn. rewrite <- E. reflexivity.
  - intros j. rewrite arrived_step, NA, app_nil_r. apply I11.
  - intros e H. destruct (I12 e H) as (q & A & B). exists q. split; [|exact B]. rewrite arrived_step, nth_error_app1; [exact A|]. apply nth_error_Some. congruence.
  - intros n r H. destruct (response_step _ _ _ _ _ _ H) as [H'|(k & q & E & B & S)]; [apply I14; exact H'|]. destruct (FI _ _ _ _ E B) as (e & A1 & A2 & A3 & A4). exists e. repeat split; congruence.
  - intros n r H. rewrite written_step. apply in_or_app. destruct (RS n r H) as [X|X]; [left; apply I15; exact X|right; exact X].
Qed.

Lemma Forall2_weaken {A B} (P Q : A -> B -> Prop) l m : (forall x y, P x y -> Q x y) -> Forall2 P l m -> Forall2 Q l m.
Proof. intros H F. induction F; constructor; auto. Qed.
Lemma Forall2_len {A B} (P : A -> B -> Prop) l m : Forall2 P l m -> length l = length m.
Proof. intros F. induction F; cbn; auto. Qed.
(* ---- a client's own events *)
Lemma is_call_more p p' x q : (forall k, exists l, p' k = p k ++ l) -> is_call p x q -> is_call p' x q.
Proof.
  intros M [A (r & B & C)]. split; [exact A|]. exists r. split; [|exact C]. destruct (M (fst x)) as (l & ->). rewrite nth_error_app1; [exact B|]. apply nth_error_Some. congruence.
Qed.
Lemma inv_call s k se r : inv s -> inv (sys_step exec limit tr t s (ECall k se r)).
Proof.
  intros I. destruct I as [I1 I2 I3 I4 I5 I6 I7 I8 I9 I10 I11 I12 I13 I14 I15 I16 I17]. cbn [sys_step].
  assert (W : forall x, ClientWorker.ph (fset (cl s) k (ClientWorker.step (t k) (cl s k) ClientWorker.Call) x) = ClientWorker.ph (cl s x)
            /\ ClientWorker.outstanding (fset (cl s) k (ClientWorker.step (t k) (cl s k) ClientWorker.Call) x) = ClientWorker.outstanding (cl s x)
            /\ ClientWorker.results (fset (cl s) k (ClientWorker.step (t k) (cl s k) ClientWorker.Call) x) = ClientWorker.results (cl s x)).
  { intros x. unfold fset. destruct (N.eqb_spec x k) as [->|]; auto. }
  constructor; cbn [cl cur payloads nconn sent reqs srv resps db log]; try assumption.
  - intros x. unfold fset. destruct (N.eqb x k); [apply ClientWorkerProofs.quiet_step|]; apply I2.
  - intros x. unfold fset. destruct (N.eqb x k); [apply ClientWorkerProofs.once_step; [apply I2|]|]; apply I3.
  - intros x. unfold fset. destruct (N.eqb_spec x k) as [->|]; [|apply I4]. cbn [ClientWorker.step ClientWorker.issued]. rewrite I4, app_length. cbn [length]. lia.
  - intros n x c H. destruct (I5 n x c H) as [A B]. unfold fset. destruct (N.eqb_spec x k) as [->|]; [|auto]. split; [cbn; lia|]. intros F. destruct (RemoteClient.fresh_step _ _ _ _ F) as [F'|[_ ->]]; [exact (B F')|lia].
  - intros x. destruct (W x) as (W1 & _ & _). unfold RemoteClient.online. rewrite W1. apply I9.
  - intros x O. destruct (W x) as (W1 & W2 & _). unfold RemoteClient.online in O. rewrite W1 in O. unfold ClientWorkerProofs.keyed, ClientWorkerProofs.hand_logged. rewrite W1, W2. apply I10. exact O.
  - intros j. destruct (I11 j) as (pre & A & B). exists pre. split; [exact A|]. eapply Forall2_weaken; [|exact B]. intros x q. apply is_call_more. intros y. unfold fset. destruct (N.eqb_spec y k) as [->|]; [exists [(se, r)]|exists []; rewrite app_nil_r]; reflexivity.
  - intros x c v Bd. destruct (W x) as (_ & _ & W3). rewrite W3. apply I16. revert Bd. unfold fset. destruct (N.eqb_spec x k) as [->|]; [cbn; lia|auto].
Qed.

Lemma reqs_unopened s : inv s -> sent s (own_conn (nconn s)) = [].
Proof.
  intros I. destruct (sent s (own_conn (nconn s))) eqn:E; [reflexivity|]. destruct (v_conn s I (own_conn (nconn s))) as (j & A & B); [congruence|]. unfold own_conn in A. lia.
Qed.
Lemma keyed_always s k : inv s -> ClientWorkerProofs.keyed (cl s k) (map snd (sent s (cur s k))).
Proof.
  intros I. pose proof (v_keyed s I k) as K. pose proof (v_quiet s I k) as Q. unfold RemoteClient.online, ClientWorkerProofs.quiet in *.
  destruct (ClientWorker.ph (cl s k)); try (apply K; exact Logic.I); intros i z H; rewrite Q in H; destruct H.
Qed.
Lemma keyed_more w l l' : ClientWorkerProofs.keyed w l -> incl l l' -> ClientWorkerProofs.keyed w l'.
Proof. intros K S i c H. destruct (K i c H). auto. Qed.

Lemma inv_client s k ev : inv s -> inv (sys_step exec limit tr t s (EClient k ev)).
Proof.
  intros I0. assert (KA := keyed_always s k I0). assert (UO := reqs_unopened s I0).
  pose proof I0 as [I1 I2 I3 I4 I5 I6 I7 I8 I9 I10 I11 I12 I13 I14 I15 I16 I17]. cbn [sys_step].
  assert (EX : RemoteClient.external ev = true -> inv (let w := ClientWorker.step (t k) (cl s k) ev in
          match writes (cl s k) ev with
          | None => Sys (fset (cl s) k w) (cur s) (payloads s) (nconn s) (sent s) (reqs s) (srv s) (resps s) (db s) (log s)
          | Some (true, c) =>
              let n := own_conn (nconn s) in
              Sys (fset (cl s) k w) (fset (cur s) k n) (payloads s) (nconn s + 1) (fset (sent s) n [(k, c)]) (fset (reqs s) n [(k, c)])
                (srv s) (resps s) (db s) (log s)
          | Some (false, c) =>
              let n := cur s k in
              Sys (fset (cl s) k w) (cur s) (payloads s) (nconn s) (fset (sent s) n (sent s n ++ [(k, c)])) (fset (reqs s) n (reqs s n ++ [(k, c)]))
                (srv s) (resps s) (db s) (log s)
          end)); [|destruct ev; try exact I0; apply EX; reflexivity].
  intros X. set (w := ClientWorker.step (t k) (cl s k) ev).
  assert (Qw : ClientWorkerProofs.quiet w) by (apply ClientWorkerProofs.quiet_step, I2).
  assert (Ow : ClientWorkerProofs.once w) by (apply ClientWorkerProofs.once_step; [apply I2|apply I3]).
  assert (Iw : ClientWorker.issued w = ClientWorker.issued (cl s k)) by (unfold w; rewrite ClientWorkerProofs.issued_step; destruct ev; try discriminate; apply N.add_0_r).
  assert (Fw : forall c, RemoteClient.fresh c w -> RemoteClient.fresh c (cl s k)) by (intros c F; destruct (RemoteClient.fresh_step _ _ _ _ F) as [F'|[-> _]]; [exact F'|discriminate]).
  assert (Rw : forall c v, In (c, ClientWorker.Answer v) (ClientWorker.results w) -> In (c, ClientWorker.Answer v) (ClientWorker.results (cl s k))).
  { intros c v H. destruct (ClientWorkerProofs.results_step _ _ _ _ _ _ KA H) as [A|[A _]]; [exact A|subst ev; discriminate]. }
  assert (C2 : forall x, ClientWorkerProofs.quiet (fset (cl s) k w x)) by (intros x; unfold fset; destruct (N.eqb x k); [exact Qw|apply I2]).
  assert (C3 : forall x, ClientWorkerProofs.once (fset (cl s) k w x)) by (intros x; unfold fset; destruct (N.eqb x k); [exact Ow|apply I3]).
  assert (C4 : forall x, ClientWorker.issued (fset (cl s) k w x) = ClientWorker.issued (cl s x)) by (intros x; unfold fset; destruct (N.eqb_spec x k) as [->|]; [exact Iw|reflexivity]).
  assert (C5 : forall n x c, In (x, c) (sent s n) -> (c < ClientWorker.issued (fset (cl s) k w x))%N /\ ~ RemoteClient.fresh c (fset (cl s) k w x)).
  { intros n x c H. rewrite C4. destruct (I5 n x c H) as [A B]. split; [exact A|]. unfold fset. destruct (N.eqb_spec x k) as [->|]; [intros F; exact (B (Fw c F))|exact B]. }
  assert (C16 : forall x c v, (ClientWorker.issued (fset (cl s) k w x) <= 4294967296)%N -> In (c, ClientWorker.Answer v) (ClientWorker.results (fset (cl s) k w x)) -> exists e, In e (log s) /\ e_who e = Some (x, c) /\ e_ans e = v).
  { intros x c v Bd H. rewrite C4 in Bd. apply (I16 x c v Bd). revert H. unfold fset. destruct (N.eqb_spec x k) as [->|]; [apply Rw|auto]. }
  cbv zeta. destruct (writes (cl s k) ev) as [[b c]|] eqn:Wr.
  - destruct (RemoteClient.writes_fresh (t k) _ _ _ _ (I2 k) (I3 k) Wr) as [Fr NFr]. fold w in NFr.
    assert (NS : forall n, ~ In (k, c) (sent s n)) by (intros n H; apply (I5 n k c H); exact Fr).
    assert (CL : (c < ClientWorker.issued (cl s k))%N) by (apply RemoteClient.fresh_lt; [apply I3|exact Fr]).
    destruct b.
    + (* a new connection *)
      set (n := own_conn (nconn s)) in *.
      assert (CN : forall x, x <> n -> fset (sent s) n [(k, c)] x = sent s x) by (intros x Hx; apply fset_other; exact Hx).
      assert (CS : fset (sent s) n [(k, c)] n = [(k, c)]) by apply fset_same.
      assert (NE : forall x, sent s x <> [] -> x <> n) by (intros x Hx ->; apply Hx; exact UO).
      assert (AR : arrived (conns (srv s) n) = [] /\ reqs s n = []).
      { destruct (I11 (nconn s)) as (pre & A & B). fold n in A, B. rewrite UO in A. symmetry in A. apply app_eq_nil in A. destruct A as [-> A]. inversion B. auto. }
      constructor; cbn [cl cur payloads nconn sent reqs srv resps db log]; try assumption.
      * intros x. rewrite C4. apply I4.
      * intros x y z H. destruct (N.eq_dec x n) as [->|Hx]; [rewrite CS in H; destruct H as [[= <- <-]|[]]|rewrite CN in H by exact Hx; eapply C5; exact H].
        rewrite C4, fset_same. auto.
      * intros a i a' i' x H H'. destruct (N.eq_dec a n) as [->|Ha], (N.eq_dec a' n) as [->|Ha'].
        -- rewrite CS in H, H'. destruct i as [|[|i]], i' as [|[|i']]; cbn in H, H'; try discriminate. auto.
        -- rewrite CS in H. rewrite CN in H' by exact Ha'. destruct i as [|[|i]]; cbn in H; try discriminate. injection H as <-. exfalso. apply (NS a'). eapply nth_error_In, H'.
        -- rewrite CS in H'. rewrite CN in H by exact Ha. destruct i' as [|[|i']]; cbn in H'; try discriminate. injection H' as <-. exfalso. apply (NS a). eapply nth_error_In, H.
        -- rewrite CN in H by exact Ha. rewrite CN in H' by exact Ha'. eapply I6; eassumption.
      * intros x H. destruct (N.eq_dec x n) as [->|Hx]; [exists (nconn s); unfold n; split; [reflexivity|lia]|]. rewrite CN in H by exact Hx. destruct (I7 x H) as (j & -> & B). exists j. split; [reflexivity|lia].
      * intros x y z y' z' H H'. destruct (N.eq_dec x n) as [->|Hx]; [rewrite CS in H, H'; destruct H as [[= <- <-]|[]], H' as [[= <- <-]|[]]; reflexivity|rewrite CN in H, H' by exact Hx; eapply I8; eassumption].
      * intros x O. destruct (N.eq_dec x k) as [->|Hx]; [rewrite fset_same, CS; exists c; left; reflexivity|]. rewrite (fset_other (cl s)) in O by exact Hx. rewrite (fset_other (cur s)) by exact Hx. destruct (I9 x O) as (z & H). exists z. rewrite CN; [exact H|]. apply NE. intros E. rewrite E in H. destruct H.
      * intros x O. destruct (N.eq_dec x k) as [->|Hx].
        -- rewrite fset_same in O. rewrite !fset_same. cbn [map snd]. clear CN CS NE. unfold writes in Wr. destruct ev; try discriminate.
           ++ destruct (ClientWorker.ph (cl s k)) eqn:P; try discriminate. exfalso. unfold w, RemoteClient.online in O. cbn [ClientWorker.step] in O. rewrite P in O. exact O.
           ++ assert (HL : ClientWorkerProofs.keyed (cl s k) [] /\ ClientWorkerProofs.hand_logged (cl s k) []).
              { destruct (ClientWorker.ph (cl s k)) eqn:P; try discriminate. unfold ClientWorkerProofs.hand_logged. rewrite P. split; [|exact Logic.I]. intros i z H. rewrite (ClientWorkerProofs.quiet_connecting _ (I2 k) _ P) in H. destruct H. }
              destruct HL as [HK HL]. destruct (ClientWorkerProofs.keyed_step (t k) _ [] ClientWorker.FirstSend (I2 k) HK HL) as [A B].
              unfold ClientWorkerProofs.log_step in A, B. destruct (ClientWorker.ph (cl s k)) eqn:P; try discriminate. injection Wr as ->. split; assumption.
           ++ destruct (ClientWorker.ph (cl s k)); try discriminate; destruct (ClientWorker.queue (cl s k)); discriminate.
           ++ destruct (ClientWorker.ph (cl s k)); try discriminate; destruct (ClientWorker.queue (cl s k)); discriminate.
        -- rewrite (fset_other (cl s)) in O by exact Hx. rewrite (fset_other (cl s)) by exact Hx. rewrite (fset_other (cur s)) by exact Hx. rewrite CN; [apply I10; exact O|]. apply NE. destruct (I9 x O) as (z & H). intros E. rewrite E in H. destruct H.
      * intros j. destruct (N.eq_dec (own_conn j) n) as [E|Hj].
        -- rewrite E, CS, fset_same. exists []. split; [reflexivity|]. rewrite (proj1 AR). constructor.
        -- rewrite CN by exact Hj. rewrite fset_other by exact Hj. apply I11.
      * intros e H. destruct (I12 e H) as (q & A & B1 & B2 & B3). exists q. repeat (split; [assumption|]). rewrite CN; [exact B3|]. intros E. rewrite E, (proj1 AR) in A. destruct (e_ser e); discriminate.
    + (* the current connection *)
      set (n := cur s k) in *.
      assert (ON : RemoteClient.online (cl s k) /\ ClientWorker.ph (cl s k) <> ClientWorker.Sent c).
      { unfold RemoteClient.online. unfold writes in Wr. destruct ev; try discriminate; destruct (ClientWorker.ph (cl s k)); try discriminate; split; try exact Logic.I; discriminate. }
      destruct ON as [ON NSent]. destruct (I9 k ON) as (c1 & H1). fold n in H1.
      assert (CN : forall x, x <> n -> fset (sent s) n (sent s n ++ [(k, c)]) x = sent s x) by (intros x Hx; apply fset_other; exact Hx).
      assert (CS : fset (sent s) n (sent s n ++ [(k, c)]) n = sent s n ++ [(k, c)]) by apply fset_same.
      assert (IN : forall x y, In y (fset (sent s) n (sent s n ++ [(k, c)]) x) -> In y (sent s x) \/ (x = n /\ y = (k, c))).
      { intros x y H. destruct (N.eq_dec x n) as [->|Hx]; [rewrite CS in H; apply in_app_or in H; destruct H as [H|[H|[]]]; auto|rewrite CN in H by exact Hx; auto]. }
      constructor; cbn [cl cur payloads nconn sent reqs srv resps db log]; try assumption.
      * intros x. rewrite C4. apply I4.
      * intros x y z H. destruct (IN _ _ H) as [H'|[-> [= -> ->]]]; [eapply C5; exact H'|]. rewrite C4, fset_same. auto.
      * assert (NT : forall a i x, nth_error (fset (sent s) n (sent s n ++ [(k, c)]) a) i = Some x -> nth_error (sent s a) i = Some x \/ (a = n /\ i = length (sent s n) /\ x = (k, c))).
        { intros a i x H. destruct (N.eq_dec a n) as [->|Ha]; [|rewrite CN in H by exact Ha; auto]. rewrite CS in H. destruct (Nat.lt_ge_cases i (length (sent s n))) as [L|L]; [rewrite nth_error_app1 in H by exact L; auto|].
          rewrite nth_error_app2 in H by exact L. destruct (i - length (sent s n)) as [|m] eqn:Em; [|destruct m; discriminate]. injection H as <-. right. repeat split; lia. }
        intros a i a' i' x H H'. destruct (NT _ _ _ H) as [A|(A1 & A2 & A3)], (NT _ _ _ H') as [B|(B1 & B2 & B3)].
        -- eapply I6; eassumption.
        -- subst x. exfalso. apply (NS a). eapply nth_error_In, A.
        -- subst x. exfalso. apply (NS a'). eapply nth_error_In, B.
        -- split; congruence.
      * intros x H. apply I7. destruct (N.eq_dec x n) as [->|Hx]; [intros E; rewrite E in H1; destruct H1|rewrite CN in H by exact Hx; exact H].
      * assert (OW : forall y z, In (y, z) (fset (sent s) n (sent s n ++ [(k, c)]) n) -> y = k).
        { intros y z H. destruct (IN _ _ H) as [H'|[_ [= -> _]]]; [|reflexivity]. eapply I8; eassumption. }
        intros x y z y' z' H H'. destruct (N.eq_dec x n) as [->|Hx]; [rewrite (OW _ _ H), (OW _ _ H'); reflexivity|]. rewrite CN in H, H' by exact Hx. eapply I8; eassumption.
      * intros x O. assert (O' : RemoteClient.online (cl s x)) by (destruct (N.eq_dec x k) as [->|Hx]; [exact ON|rewrite fset_other in O by exact Hx; exact O]).
        destruct (I9 x O') as (z & H). exists z. destruct (N.eq_dec (cur s x) n) as [E|Hx]; [rewrite E, CS; rewrite E in H; apply in_or_app; auto|rewrite CN by exact Hx; exact H].
      * intros x O. destruct (N.eq_dec x k) as [->|Hx].
        -- rewrite fset_same in O. rewrite fset_same. fold n. rewrite CS, map_app. cbn [map snd]. destruct (I10 k ON) as [K1 K2]. fold n in K1, K2.
           destruct (ClientWorkerProofs.keyed_step (t k) _ _ ev (I2 k) K1 K2) as [A B]. fold w in A, B. unfold writes in Wr. destruct ev; try discriminate.
           ++ destruct (ClientWorker.ph (cl s k)); discriminate.
           ++ destruct (ClientWorker.ph (cl s k)); discriminate.
           ++ unfold ClientWorkerProofs.log_step in A, B. destruct (ClientWorker.ph (cl s k)) eqn:P; try discriminate; (destruct (ClientWorker.queue (cl s k)); [discriminate|]); injection Wr as ->; split; assumption.
           ++ exfalso. unfold w, RemoteClient.online in O. cbn [ClientWorker.step] in O. destruct (ClientWorker.ph (cl s k)) eqn:P; try discriminate; (destruct (ClientWorker.queue (cl s k)); [discriminate|]); rewrite ClientWorkerProofs.disconnect_ph in O; exact O.
        -- rewrite fset_other in O by exact Hx. rewrite fset_other by exact Hx. rewrite CN; [apply I10; exact O|]. intros E. destruct (I9 x O) as (z & H). rewrite E in H. apply Hx. eapply I8; eassumption.
      * intros j. destruct (N.eq_dec (own_conn j) n) as [E|Hj].
        -- rewrite E, CS, fset_same. destruct (I11 j) as (pre & A & B). rewrite E in A, B. exists pre. split; [|exact B]. rewrite A, <- app_assoc. reflexivity.
        -- rewrite CN by exact Hj. rewrite fset_other by exact Hj. apply I11.
      * intros e H. destruct (I12 e H) as (q & A & B1 & B2 & B3). exists q. repeat (split; [assumption|]). destruct (N.eq_dec (e_conn e) n) as [E|Hx]; [|rewrite CN by exact Hx; exact B3]. rewrite E, CS in *.
        rewrite nth_error_app1; [exact B3|]. destruct (I7 n) as (j & Ej & _); [intros E0; rewrite E0 in H1; destruct H1|]. destruct (I11 j) as (pre & A1 & A2). rewrite <- Ej in A1, A2. rewrite A1, app_length.
        assert (e_ser e < length (arrived (conns (srv s) n))) by (apply nth_error_Some; congruence). apply Forall2_len in A2. lia.
  - (* nothing is written *)
    assert (ON : RemoteClient.online w -> RemoteClient.online (cl s k)).
    { intros O. destruct (RemoteClient.online_step _ _ _ O) as [(c & E)|[O' _]]; [congruence|exact O']. }
    constructor; cbn [cl cur payloads nconn sent reqs srv resps db log]; try assumption.
    + intros x. rewrite C4. apply I4.
    + intros x O. apply I9. destruct (N.eq_dec x k) as [E|Hx]; [subst x; rewrite fset_same in O; apply ON; exact O|rewrite fset_other in O by exact Hx; exact O].
    + intros x O. destruct (N.eq_dec x k) as [E|Hx]; [subst x; rewrite fset_same in O; rewrite fset_same|rewrite fset_other in O by exact Hx; rewrite fset_other by exact Hx; apply I10; exact O]. destruct (I10 k (ON O)) as [K1 K2].
      destruct (ClientWorkerProofs.keyed_step (t k) _ _ ev (I2 k) K1 K2) as [A B]. fold w in A, B.
      assert (LS : ClientWorkerProofs.log_step (cl s k) w (map snd (sent s (cur s k))) ev = map snd (sent s (cur s k))).
      { unfold ClientWorkerProofs.log_step, writes in *. destruct ev; try reflexivity; destruct (ClientWorker.ph (cl s k)); try reflexivity; try discriminate; destruct (ClientWorker.queue (cl s k)); try reflexivity; discriminate. }
      rewrite LS in A, B. auto.
Qed.

(* ---- requests reach the server *)
Lemma inv_deliver s n : inv s -> inv (sys_step exec limit tr t s (EDeliver n)).
Proof.
  intros I0. pose proof I0 as [I1 I2 I3 I4 I5 I6 I7 I8 I9 I10 I11 I12 I13 I14 I15 I16 I17]. cbn [sys_step].
  destruct (reqs s n) as [|[k c] rest] eqn:R; [exact I0|]. destruct (nth_error (payloads s k) (N.to_nat c)) as [[se r]|] eqn:P; [|exact I0].
  destruct (length (inbox (conns (srv s) n)) <? limit) eqn:L; [|exact I0].
  set (ev := Arrive n (Some (ClientWorker.wire_id c)) se (Some r)).
  assert (AS : forall d, arrived (conns (step limit tr (srv s) ev) d) = arrived (conns (srv s) d) ++ arrives limit (srv s) ev d) by (intros d; apply arrived_step).
  assert (A0 : forall d, d <> n -> arrives limit (srv s) ev d = []) by (intros d Hd; cbn; apply N.eqb_neq in Hd; rewrite Hd; reflexivity).
  constructor; cbn [cl cur payloads nconn sent reqs srv resps db log]; try assumption.
  - destruct I1 as (h & E). exists (h ++ [ev]). rewrite run_app. cbn [run]. rewrite <- E. reflexivity.
  - intros j. destruct (I11 j) as (pre & A & B). destruct (N.eq_dec (own_conn j) n) as [E|Hj].
    + rewrite E in *. rewrite fset_same. exists (pre ++ [(k, c)]). split; [rewrite A, R, <- app_assoc; reflexivity|]. rewrite AS. apply Forall2_app; [exact B|].
      unfold arrives, ev. rewrite N.eqb_refl, L. cbn [andb]. constructor; [|constructor]. split; [reflexivity|]. exists r. cbn [fst snd rsession value]. split; [exact P|reflexivity].
    + rewrite fset_other by exact Hj. rewrite AS, A0, app_nil_r by exact Hj. exists pre. auto.
  - intros e H. destruct (I12 e H) as (q & A & B). exists q. split; [|exact B]. rewrite AS, nth_error_app1; [exact A|]. apply nth_error_Some. congruence.
  - intros x y H. destruct (response_step _ _ _ _ _ _ H) as [H'|(m & q & E & _)]; [apply I14; exact H'|discriminate].
  - intros x y H. rewrite written_step. apply in_or_app. left. apply I15. exact H.
Qed.
Lemma inv_foreign s n i se v : inv s -> inv (sys_step exec limit tr t s (EForeign n i se v)).
Proof.
  intros I. cbn [sys_step]. apply inv_server; auto.
  - intros j. cbn [arrives]. pose proof (own_odd j n) as O. apply N.eqb_neq in O. rewrite O. reflexivity.
  - intros; discriminate.
Qed.
Lemma inv_srv s ev : inv s -> inv (sys_step exec limit tr t s (EServer ev)).
Proof.
  intros I. cbn [sys_step].
  destruct ev as [c i se v|c|c|c| |k v|k|c k|c|c|c| |c|c]; try exact I; apply inv_server; auto; try (intros; discriminate).
  intros n r H. cbn [writes_now]. destruct (writing (conns (srv s) c)); [|auto]. destruct (outq (conns (srv s) c)) as [|r0 o]; [auto|].
  destruct (N.eq_dec n c) as [->|Hn]; [rewrite fset_same in H; rewrite N.eqb_refl; apply in_app_or in H; exact H|rewrite fset_other in H by exact Hn; auto].
Qed.

(* ---- handlers *)
Lemma find_entry_some n j l e : find_entry n j l = Some e -> In e l /\ e_conn e = n /\ e_ser e = j.
Proof.
  intros H. apply find_some in H. destruct H as [A B]. apply andb_true_iff in B. destruct B as [B1 B2]. apply N.eqb_eq in B1. apply Nat.eqb_eq in B2. auto.
Qed.
Lemma find_entry_none n j l : find_entry n j l = None -> ~ In (n, j) (map (fun e => (e_conn e, e_ser e)) l).
Proof.
  intros H I. apply in_map_iff in I. destruct I as (e & E & I). injection E as <- <-. unfold find_entry in H. pose proof (find_none _ _ H e I) as X. cbn in X. rewrite N.eqb_refl, Nat.eqb_refl in X. discriminate.
Qed.
Lemma NoDup_snoc {A} (l : list A) a : NoDup l -> ~ In a l -> NoDup (l ++ [a]).
Proof.
  induction l as [|x l IH]; cbn; intros H N; [constructor; [tauto|constructor]|]. inversion H; subst. constructor; [rewrite in_app_iff; cbn; intros [X|[X|[]]]; [tauto|apply N; auto]|]. apply IH; tauto.
Qed.
Lemma inv_exec s j : inv s -> inv (sys_step exec limit tr t s (EExec j)).
Proof.
  intros I0. pose proof I0 as [I1 I2 I3 I4 I5 I6 I7 I8 I9 I10 I11 I12 I13 I14 I15 I16 I17]. cbn [sys_step].
  destruct (nth_error (busy (srv s)) j) as [[n q]|] eqn:B; [|exact I0]. destruct (value q) as [r|] eqn:V; [|exact I0].
  destruct (find_entry n (ser q) (log s)) eqn:F; [exact I0|]. destruct (exec (db s) (rsession q) r) as [d a] eqn:X.
  set (e := Entry n (ser q) (nth_error (sent s n) (ser q)) (rsession q) r a).
  constructor; cbn [cl cur payloads nconn sent reqs srv resps db log]; try assumption.
  - intros e' H. apply in_app_or in H. destruct H as [H|[H|[]]]; [apply I12; exact H|]. subst e'. exists q. cbn. split; [|auto].
    destruct I1 as (h & E). rewrite E in *. apply busy_genuine. eapply nth_error_In, B.
  - rewrite map_app. cbn. apply NoDup_snoc; [exact I13|]. apply find_entry_none. exact F.
  - intros x y H. destruct (I14 x y H) as (e' & A & A'). exists e'. split; [apply in_or_app; auto|exact A'].
  - intros k c v Bd H. destruct (I16 k c v Bd H) as (e' & A & A'). exists e'. split; [apply in_or_app; auto|exact A'].
  - eapply replays_snoc; [exact I17|]. cbn. exact X.
Qed.
Lemma inv_finish s j : inv s -> inv (sys_step exec limit tr t s (EFinish j)).
Proof.
  intros I. cbn [sys_step]. destruct (nth_error (busy (srv s)) j) as [[n q]|] eqn:B; [|exact I]. destruct (find_entry n (ser q) (log s)) as [e|] eqn:F; [|exact I].
  apply find_entry_some in F. apply inv_server; auto.
  intros k v q' c E B'. injection E as <- <-. rewrite B in B'. injection B' as <- <-. exists e. tauto.
Qed.

(* ---- a response reaches the client *)
Lemma sent_lt s n k c : inv s -> In (k, c) (sent s n) -> (c < ClientWorker.issued (cl s k))%N.
Proof. intros I H. apply (v_fresh s I n k c H). Qed.
Lemma Forall2_nth {A B} (P : A -> B -> Prop) l m i b : Forall2 P l m -> nth_error m i = Some b -> exists a, nth_error l i = Some a /\ P a b.
Proof. intros F. revert i. induction F; intros [|i] H'; cbn in *; try discriminate; [injection H' as <-; eauto|eauto]. Qed.
(* a response on the connection of a client answers one of its calls *)
Lemma response_of s k r i : inv s -> (ClientWorker.issued (cl s k) <= 4294967296)%N -> (exists c1, In (k, c1) (sent s (cur s k))) ->
  In r (resps s (cur s k)) -> pid r = Some i ->
  exists e c, In e (log s) /\ e_who e = Some (k, c) /\ e_ans e = pvalue r /\ i = ClientWorker.wire_id c /\ (c < ClientWorker.issued (cl s k))%N.
Proof.
  intros I Bd (c1 & H1) Hr P. set (n := cur s k) in *. apply (v_resps s I) in Hr.
  destruct (v_conn s I n) as (j & En & _); [intros E; rewrite E in H1; destruct H1|].
  assert (Hr' : exists q, nth_error (arrived (conns (srv s) n)) (answers r) = Some q /\ pid r = rid q).
  { destruct (v_srv s I) as (h & E). rewrite E in *. apply written_matched. exact Hr. }
  destruct Hr' as (q & A & Pq). destruct (v_net s I j) as (pre & N1 & N2). rewrite <- En in N1, N2. destruct (Forall2_nth _ _ _ _ _ N2 A) as ([k' c] & A' & Q1 & _).
  assert (In (k', c) (sent s n)) as S1 by (rewrite N1; apply in_or_app; left; eapply nth_error_In, A').
  assert (k' = k) as -> by (eapply (v_owner s I); eassumption).
  assert (nth_error (sent s n) (answers r) = Some (k, c)) as S2 by (rewrite N1, nth_error_app1; [exact A'|apply nth_error_Some; congruence]).
  destruct (v_resp s I n r) as (e & E1 & E2 & E3 & E4); [unfold responses; rewrite !in_app_iff; auto|].
  exists e, c. destruct (v_log s I e E1) as (_ & _ & _ & _ & W). rewrite E2, E3, S2 in W. cbn [snd] in Q1. repeat split; auto; [congruence|]. apply (sent_lt s n); assumption.
Qed.
Lemma inv_receive s k : inv s -> inv (sys_step exec limit tr t s (EReceive k)).
Proof.
  intros I0. pose proof I0 as [I1 I2 I3 I4 I5 I6 I7 I8 I9 I10 I11 I12 I13 I14 I15 I16 I17]. cbn [sys_step].
  assert (G : forall r rest, RemoteClient.online (cl s k) -> resps s (cur s k) = r :: rest ->
    inv (Sys (match pid r with
               | Some i => fset (cl s) k (ClientWorker.step (t k) (cl s k) (ClientWorker.Response i (pvalue r)))
               | None => cl s
               end)
            (cur s) (payloads s) (nconn s) (sent s) (reqs s) (srv s) (fset (resps s) (cur s k) rest) (db s) (log s))).
  2:{ unfold RemoteClient.online in G. destruct (ClientWorker.ph (cl s k)); try exact I0; (destruct (resps s (cur s k)) eqn:R; [exact I0|]); apply G; auto. }
  intros r rest ON R.
  assert (RS : forall n x, In x (fset (resps s) (cur s k) rest n) -> In x (resps s n)).
  { intros n x H. destruct (N.eq_dec n (cur s k)) as [->|Hn]; [rewrite fset_same in H; rewrite R; right; exact H|rewrite fset_other in H by exact Hn; exact H]. }
  destruct (pid r) as [i|] eqn:P; [|constructor; cbn [cl cur payloads nconn sent reqs srv resps db log]; auto].
  assert (KA := keyed_always s k I0).
  set (ev := ClientWorker.Response i (pvalue r)). set (w := ClientWorker.step (t k) (cl s k) ev).
  assert (Iw : ClientWorker.issued w = ClientWorker.issued (cl s k)) by (unfold w; rewrite ClientWorkerProofs.issued_step; apply N.add_0_r).
  assert (C4 : forall x, ClientWorker.issued (fset (cl s) k w x) = ClientWorker.issued (cl s x)) by (intros x; unfold fset; destruct (N.eqb_spec x k) as [->|]; [exact Iw|reflexivity]).
  constructor; cbn [cl cur payloads nconn sent reqs srv resps db log]; auto.
  - intros x. unfold fset. destruct (N.eqb x k); [apply ClientWorkerProofs.quiet_step|]; apply I2.
  - intros x. unfold fset. destruct (N.eqb x k); [apply ClientWorkerProofs.once_step; [apply I2|]|]; apply I3.
  - intros x. rewrite C4. apply I4.
  - intros n x c H. rewrite C4. destruct (I5 n x c H) as [A B]. split; [exact A|]. unfold fset. destruct (N.eqb_spec x k) as [->|]; [|exact B].
    intros F. destruct (RemoteClient.fresh_step _ _ _ _ F) as [F'|[E _]]; [exact (B F')|discriminate].
  - intros x O. apply I9. destruct (N.eq_dec x k) as [E|Hx]; [subst x; exact ON|rewrite fset_other in O by exact Hx; exact O].
  - intros x O. destruct (N.eq_dec x k) as [E|Hx]; [subst x; rewrite fset_same in O; rewrite fset_same|rewrite fset_other in O by exact Hx; rewrite fset_other by exact Hx; apply I10; exact O]. destruct (I10 k ON) as [K1 K2].
    destruct (ClientWorkerProofs.keyed_step (t k) _ _ ev (I2 k) K1 K2) as [A B]. fold w in A, B. auto.
  - intros x c v Bd H. rewrite C4 in Bd. unfold fset in H. destruct (N.eqb_spec x k) as [->|]; [|apply (I16 x c v Bd H)].
    destruct (ClientWorkerProofs.results_step _ _ _ _ _ _ KA H) as [H'|[E HL]]; [apply (I16 k c v Bd H')|].
    injection E as Ei Ev. destruct (response_of s k r i I0 Bd (I9 k ON)) as (e & c' & L & W & A & Q & Lt); [rewrite R; left; reflexivity|exact P|].
    exists e. split; [exact L|]. split; [|congruence]. rewrite W. f_equal. f_equal. apply in_map_iff in HL. destruct HL as ([k' c2] & Ec & HL). cbn [snd] in Ec. subst c2.
    destruct (I9 k ON) as (c1 & H1). assert (k' = k) as -> by (eapply I8; eassumption). apply ClientWorkerProofs.wire_id_inj; [lia|pose proof (sent_lt s _ _ _ I0 HL); lia|congruence].
Qed.
Lemma inv_step s ev : inv s -> inv (sys_step exec limit tr t s ev).
Proof.
  destruct ev; [apply inv_call|apply inv_client|apply inv_deliver|apply inv_foreign|apply inv_srv|apply inv_exec|apply inv_finish|apply inv_receive].
Qed.
Lemma inv_run h : forall s, inv s -> inv (sys_run exec limit tr t s h).
Proof. induction h as [|ev h IH]; cbn [sys_run]; intros s I; [exact I|]. apply IH, inv_step, I. Qed.
Lemma sys_run_app h1 : forall s h2, sys_run exec limit tr t s (h1 ++ h2) = sys_run exec limit tr t (sys_run exec limit tr t s h1) h2.
Proof. induction h1; cbn [sys_run app]; auto. Qed.
End Inv.
