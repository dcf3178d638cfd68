(* Remote.v: nothing gets lost between a websocket client and the server. *)
From Coq Require Import List NArith Arith Bool Lia Permutation.
From Verif Require Import ServerQueue ServerQueueProofs Remote RemoteProofs.
From Verif Require ClientWorker ClientWorkerProofs RemoteClient.
Import ListNotations.

Lemma ws_silent w ev : (forall c, ClientWorker.ph w <> ClientWorker.Sent c) -> RemoteClient.online w ->
  RemoteClient.external ev = true -> writes w ev = None -> RemoteClient.online (ClientWorker.step ClientWorker.WebSocket w ev) ->
  (forall c, ClientWorker.ph (ClientWorker.step ClientWorker.WebSocket w ev) <> ClientWorker.Sent c) /\
  ClientWorker.outstanding (ClientWorker.step ClientWorker.WebSocket w ev) = ClientWorker.outstanding w /\
  ClientWorker.results (ClientWorker.step ClientWorker.WebSocket w ev) = ClientWorker.results w.
Proof.
  unfold RemoteClient.online, writes. intros NS O X W O'.
  destruct ev; try discriminate; cbn [ClientWorker.step] in *; destruct (ClientWorker.ph w) eqn:P; try contradiction; try discriminate;
  try (exfalso; exact (NS _ eq_refl)); try (destruct (ClientWorker.queue w); discriminate);
  try (split; [intros z; rewrite ?P; discriminate|split; reflexivity]).
  - destruct (ClientWorker.queue w); [|discriminate]. split; [intros z; rewrite P; discriminate|split; reflexivity].
  - destruct (ClientWorker.queue w); [|discriminate]. split; [intros z; rewrite P; discriminate|split; reflexivity].
  - destruct (ClientWorker.queue w); [|discriminate]. split; [intros z; rewrite P; discriminate|split; reflexivity].
  - destruct (ClientWorker.queue w); [|discriminate]. split; [intros z; rewrite P; discriminate|split; reflexivity].
  - rewrite ClientWorkerProofs.disconnect_ph in O'. destruct O'.
Qed.

Section Live.
Context {D : Type}.
Variable exec : D -> option N -> N -> D * N.
Variable limit : nat.
Variable tr : N -> transport.
Variable t : N -> ClientWorker.transport.
Variable workers : nat.
Variable d0 : D.
Notation inv := (inv exec limit tr workers d0).
Notation answered w c := (exists v, In (c, ClientWorker.Answer v) (ClientWorker.results w)).
Notation small w := (ClientWorker.issued w <= 4294967296)%N.

Definition waits (w : ClientWorker.worker) (c : N) : Prop := In c (map snd (ClientWorker.outstanding w)) \/ answered w c.
Definition live (s : sys D) (k : N) : Prop :=
  (forall c, ClientWorker.ph (cl s k) <> ClientWorker.Sent c) /\
  (RemoteClient.online (cl s k) -> small (cl s k) ->
   (forall c, In (k, c) (sent s (cur s k)) -> waits (cl s k) c) /\
   exists done, written (conns (srv s) (cur s k)) = done ++ resps s (cur s k) /\
     forall r c, In r done -> nth_error (sent s (cur s k)) (answers r) = Some (k, c) -> answered (cl s k) c).
Definition lives s := forall k, t k = ClientWorker.WebSocket -> live s k.

Lemma lives0 : lives (sys0 workers d0).
Proof. intros k T. split; [intros c; discriminate|]. intros []. Qed.

Lemma live_same s s' k : cl s' k = cl s k -> cur s' k = cur s k -> sent s' (cur s k) = sent s (cur s k) ->
  (exists x, written (conns (srv s') (cur s k)) = written (conns (srv s) (cur s k)) ++ x /\ resps s' (cur s k) = resps s (cur s k) ++ x) ->
  live s k -> live s' k.
Proof.
  intros E1 E2 E3 (x & X1 & X2) [L1 L2]. split; [intros c; rewrite E1; apply L1|]. rewrite E1, E2, E3. intros O B. destruct (L2 O B) as [A (done & D1 & D2)].
  split; [exact A|]. exists done. split; [|exact D2]. rewrite X1, X2, D1, app_assoc. reflexivity.
Qed.
Lemma own_pid s k r : inv s -> RemoteClient.online (cl s k) -> In r (resps s (cur s k)) ->
  exists c, nth_error (sent s (cur s k)) (answers r) = Some (k, c) /\ pid r = Some (ClientWorker.wire_id c).
Proof.
  intros I O Hr. destruct (v_cur _ _ _ _ _ _ I k O) as (c1 & H1). set (n := cur s k) in *. apply (v_resps _ _ _ _ _ _ I) in Hr.
  destruct (v_conn _ _ _ _ _ _ I n) as (j & En & _); [intros E; rewrite E in H1; destruct H1|].
  assert (Hr' : exists q, nth_error (arrived (conns (srv s) n)) (answers r) = Some q /\ pid r = rid q).
  { destruct (v_srv _ _ _ _ _ _ I) as (h & E). rewrite E in *. apply written_matched. exact Hr. }
  destruct Hr' as (q & A & Pq). destruct (v_net _ _ _ _ _ _ I j) as (pre & N1 & N2). rewrite <- En in N1, N2. destruct (Forall2_nth _ _ _ _ _ N2 A) as ([k' c] & A' & Q1 & _).
  assert (nth_error (sent s n) (answers r) = Some (k', c)) as S2 by (rewrite N1, nth_error_app1; [exact A'|apply nth_error_Some; congruence]).
  assert (k' = k) as -> by (eapply (v_owner _ _ _ _ _ _ I); [eapply nth_error_In, S2|exact H1]).
  exists c. split; [exact S2|]. cbn [snd] in Q1. congruence.
Qed.
Lemma silent_network s n : inv s -> (exists j, n = own_conn j) -> sent s n = [] -> written (conns (srv s) n) = [] /\ resps s n = [].
Proof.
  intros I (j & ->) E. destruct (v_net _ _ _ _ _ _ I j) as (pre & N1 & N2). rewrite E in N1. symmetry in N1. apply app_eq_nil in N1. destruct N1 as [-> _]. assert (H : arrived (conns (srv s) (own_conn j)) = []) by (inversion N2; reflexivity).
  assert (W : written (conns (srv s) (own_conn j)) = []).
  { destruct (written (conns (srv s) (own_conn j))) as [|r l] eqn:Wr; [reflexivity|]. destruct (v_srv _ _ _ _ _ _ I) as (h & Eh).
    destruct (written_matched limit tr workers h (own_conn j) r) as (q & A & _); [rewrite <- Eh, Wr; left; reflexivity|]. rewrite <- Eh, H in A. destruct (answers r); discriminate. }
  split; [exact W|]. destruct (resps s (own_conn j)) as [|r l] eqn:R; [reflexivity|]. assert (X : In r (written (conns (srv s) (own_conn j)))) by (apply (v_resps _ _ _ _ _ _ I); rewrite R; left; reflexivity). rewrite W in X. destruct X.
Qed.

Lemma insert_new c w : ~ In (ClientWorker.wire_id c) (map fst (ClientWorker.outstanding w)) ->
  ClientWorker.outstanding (ClientWorker.insert c w) = (ClientWorker.wire_id c, c) :: ClientWorker.outstanding w /\ ClientWorker.results (ClientWorker.insert c w) = ClientWorker.results w.
Proof.
  intros H. unfold ClientWorker.insert. destruct (ClientWorker.take_id _ _) as [[old r]|] eqn:E; [|auto].
  exfalso. apply H. apply ClientWorkerProofs.take_id_perm in E. apply in_map_iff. exists (ClientWorker.wire_id c, old). split; [reflexivity|]. eapply Permutation_in; [apply Permutation_sym, E|left; reflexivity].
Qed.

Lemma lives_client s k ev : inv s -> lives s -> lives (sys_step exec limit tr t s (EClient k ev)).
Proof.
  intros I0 L0. assert (UO := reqs_unopened _ _ _ _ _ s I0). cbn [sys_step].
  destruct (RemoteClient.external ev) eqn:X; [|destruct ev; try discriminate; exact L0].
  assert (G : lives (let w := ClientWorker.step (t k) (cl s k) ev in
          match writes (cl s k) ev with
          | None => Sys (fset (cl s) k w) (cur s) (payloads s) (nconn s) (sent s) (reqs s) (srv s) (resps s) (db s) (log s)
          | Some (true, c) =>
              let n := own_conn (nconn s) in
              Sys (fset (cl s) k w) (fset (cur s) k n) (payloads s) (nconn s + 1) (fset (sent s) n [(k, c)]) (fset (reqs s) n [(k, c)])
                (srv s) (resps s) (db s) (log s)
          | Some (false, c) =>
              let n := cur s k in
              Sys (fset (cl s) k w) (cur s) (payloads s) (nconn s) (fset (sent s) n (sent s n ++ [(k, c)])) (fset (reqs s) n (reqs s n ++ [(k, c)]))
                (srv s) (resps s) (db s) (log s)
          end)); [|destruct ev; try discriminate; exact G].
  cbv zeta. destruct (writes (cl s k) ev) as [[b c]|] eqn:Wr.
  - destruct (RemoteClient.writes_fresh (t k) _ _ _ _ (v_quiet _ _ _ _ _ _ I0 k) (v_wonce _ _ _ _ _ _ I0 k) Wr) as [Fr _].
    assert (CL : (c < ClientWorker.issued (cl s k))%N) by (apply RemoteClient.fresh_lt; [apply (v_wonce _ _ _ _ _ _ I0 k)|exact Fr]).
    assert (NS : forall n, ~ In (k, c) (sent s n)) by (intros n H; apply (v_fresh _ _ _ _ _ _ I0 n k c H); exact Fr).
    destruct b.
    + intros x Tx. destruct (N.eq_dec x k) as [->|Hx].
      * unfold live. cbn [cl cur sent srv resps]. rewrite Tx. rewrite !fset_same. destruct (L0 k Tx) as [NSe _]. unfold writes in Wr. destruct ev; try discriminate.
        -- destruct (ClientWorker.ph (cl s k)) eqn:P; try discriminate. cbn [ClientWorker.step]. rewrite P. split; [intros z; discriminate|intros []].
        -- destruct (ClientWorker.ph (cl s k)) eqn:P; try discriminate. injection Wr as ->. cbn [ClientWorker.step]. rewrite P.
           rewrite ClientWorkerProofs.insert_ph. cbn [ClientWorker.ph]. split; [intros z; discriminate|]. intros _ _.
           match goal with |- context [ClientWorker.insert c ?w0] => destruct (insert_new c w0) as [E1 E2]; [cbn; tauto|] end.
           split; [intros z [[= <-]|[]]; left; rewrite E1; left; reflexivity|].
           exists []. destruct (silent_network s (own_conn (nconn s)) I0) as [S1 S2]; [eauto|exact UO|]. split; [rewrite S1, S2; reflexivity|intros r z []].
        -- destruct (ClientWorker.ph (cl s k)); try discriminate; destruct (ClientWorker.queue (cl s k)); discriminate.
        -- destruct (ClientWorker.ph (cl s k)); try discriminate; destruct (ClientWorker.queue (cl s k)); discriminate.
      * destruct (L0 x Tx) as [A B]. unfold live. cbn [cl cur sent srv resps]. rewrite (fset_other (cl s)), (fset_other (cur s)) by exact Hx. split; [exact A|]. intros O Bd.
        assert (Hn : cur s x <> own_conn (nconn s)).
        { intros E. destruct (v_cur _ _ _ _ _ _ I0 x O) as (z & Hz). rewrite E, UO in Hz. destruct Hz. }
        rewrite (fset_other (sent s)) by exact Hn. apply B; assumption.
    + intros x Tx. destruct (N.eq_dec x k) as [->|Hx].
      * unfold live. cbn [cl cur sent srv resps]. rewrite Tx. rewrite !fset_same. destruct (L0 k Tx) as [NSe B]. unfold writes in Wr.
        assert (ON : RemoteClient.online (cl s k)) by (unfold RemoteClient.online; destruct ev; try discriminate; destruct (ClientWorker.ph (cl s k)); try discriminate; exact Logic.I).
        destruct ev; try discriminate; try (destruct (ClientWorker.ph (cl s k)); discriminate).
        -- assert (ST : exists q, ClientWorker.step ClientWorker.WebSocket (cl s k) ClientWorker.Send = ClientWorker.insert c (ClientWorker.mkW (ClientWorker.issued (cl s k)) q (ClientWorker.ph (cl s k)) (ClientWorker.outstanding (cl s k)) (ClientWorker.pending (cl s k)) (ClientWorker.results (cl s k)))).
           { cbn [ClientWorker.step]. destruct (ClientWorker.ph (cl s k)); try discriminate; (destruct (ClientWorker.queue (cl s k)) as [|c' q]; [discriminate|]); injection Wr as ->; exists q; reflexivity. }
           destruct ST as (q & ST). rewrite ST, ClientWorkerProofs.insert_ph, ClientWorkerProofs.insert_issued. cbn [ClientWorker.ph ClientWorker.issued]. split; [exact NSe|]. intros _ Bd. specialize (B ON Bd). destruct B as [B1 (done & D1 & D2)].
           match goal with |- context [ClientWorker.insert c ?w0] => destruct (insert_new c w0) as [E1 E2] end.
           { cbn [ClientWorker.outstanding]. intros Hi. apply in_map_iff in Hi. destruct Hi as ([i z] & Ei & Hi). cbn [fst] in Ei. subst i.
             pose proof (keyed_always _ _ _ _ _ s k I0) as KA. destruct (KA _ _ Hi) as [Ei Hz]. apply in_map_iff in Hz. destruct Hz as ([k' z'] & Ez & Hz). cbn [snd] in Ez. subst z'.
             destruct (v_cur _ _ _ _ _ _ I0 k ON) as (c1 & H1). assert (k' = k) as -> by (eapply (v_owner _ _ _ _ _ _ I0); eassumption).
             pose proof (sent_lt _ _ _ _ _ s _ _ _ I0 Hz). apply ClientWorkerProofs.wire_id_inj in Ei; [|lia|lia]. subst z. exact (NS _ Hz). }
           cbn [ClientWorker.outstanding ClientWorker.results] in E1, E2. split.
           ++ intros z Hz. apply in_app_or in Hz. unfold waits. rewrite E1, E2. cbn [map snd]. destruct Hz as [Hz|[[= <-]|[]]]; [destruct (B1 z Hz); [left; right; assumption|right; assumption]|left; left; reflexivity].
           ++ exists done. split; [exact D1|]. intros r z Hr Hz. rewrite E2. apply (D2 r z Hr).
              assert (LT : answers r < length (sent s (cur s k))).
              { destruct (v_cur _ _ _ _ _ _ I0 k ON) as (c1 & H1). destruct (v_conn _ _ _ _ _ _ I0 (cur s k)) as (j & En & _); [intros E; rewrite E in H1; destruct H1|].
                destruct (v_net _ _ _ _ _ _ I0 j) as (pre & N1 & N2). rewrite <- En in N1, N2. destruct (v_srv _ _ _ _ _ _ I0) as (h & Eh).
                destruct (written_matched limit tr workers h (cur s k) r) as (q0 & A & _); [rewrite <- Eh, D1; apply in_or_app; auto|]. rewrite <- Eh in A.
                destruct (Forall2_nth _ _ _ _ _ N2 A) as (y & Y & _). rewrite N1, app_length. assert (answers r < length pre) by (apply nth_error_Some; congruence). lia. }
              rewrite nth_error_app1 in Hz by exact LT. exact Hz.
        -- cbn [ClientWorker.step]. destruct (ClientWorker.ph (cl s k)) eqn:P; try discriminate; (destruct (ClientWorker.queue (cl s k)); [discriminate|]); unfold RemoteClient.online; rewrite ClientWorkerProofs.disconnect_ph; (split; [intros z; discriminate|intros []]).
      * destruct (L0 x Tx) as [A B]. unfold live. cbn [cl cur sent srv resps]. rewrite (fset_other (cl s)) by exact Hx. split; [exact A|]. intros O Bd.
        assert (ON : RemoteClient.online (cl s k)) by (unfold writes in Wr; unfold RemoteClient.online; destruct ev; try discriminate; destruct (ClientWorker.ph (cl s k)); try discriminate; exact Logic.I).
        assert (Hn : cur s x <> cur s k).
        { intros E. destruct (v_cur _ _ _ _ _ _ I0 x O) as (z & Hz). destruct (v_cur _ _ _ _ _ _ I0 k ON) as (z' & Hz'). rewrite E in Hz. apply Hx. eapply (v_owner _ _ _ _ _ _ I0); eassumption. }
        rewrite (fset_other (sent s)) by exact Hn. apply B; assumption.
  - intros x Tx. destruct (N.eq_dec x k) as [->|Hx].
    + destruct (L0 k Tx) as [A B]. unfold live. cbn [cl cur sent srv resps]. rewrite fset_same, Tx.
      assert (ID : ClientWorker.issued (ClientWorker.step ClientWorker.WebSocket (cl s k) ev) = ClientWorker.issued (cl s k)) by (rewrite ClientWorkerProofs.issued_step; destruct ev; try discriminate; apply N.add_0_r).
      assert (OS : RemoteClient.online (ClientWorker.step ClientWorker.WebSocket (cl s k) ev) -> RemoteClient.online (cl s k)).
      { intros O. destruct (RemoteClient.online_step _ _ _ O) as [(c & E)|[O' _]]; [congruence|exact O']. }
      split.
      * intros z E. assert (O : RemoteClient.online (ClientWorker.step ClientWorker.WebSocket (cl s k) ev)) by (unfold RemoteClient.online; rewrite E; exact Logic.I).
        destruct (ws_silent (cl s k) ev A (OS O) X Wr O) as [F _]. exact (F z E).
      * intros O Bd. rewrite ID in Bd. destruct (ws_silent (cl s k) ev A (OS O) X Wr O) as (_ & E1 & E2). unfold waits. rewrite E1, E2. exact (B (OS O) Bd).
    + destruct (L0 x Tx) as [A B]. unfold live. cbn [cl cur sent srv resps]. rewrite (fset_other (cl s)) by exact Hx. auto.
Qed.
Lemma lives_receive s k : inv s -> lives s -> lives (sys_step exec limit tr t s (EReceive k)).
Proof.
  intros I0 L0. cbn [sys_step].
  destruct (resps s (cur s k)) as [|r rest] eqn:R; [destruct (ClientWorker.ph (cl s k)); exact L0|].
  assert (G : (ClientWorker.ph (cl s k) = ClientWorker.Connected \/ exists c, ClientWorker.ph (cl s k) = ClientWorker.Sent c) -> lives (Sys (match pid r with
               | Some i => fset (cl s) k (ClientWorker.step (t k) (cl s k) (ClientWorker.Response i (pvalue r)))
               | None => cl s
               end)
            (cur s) (payloads s) (nconn s) (sent s) (reqs s) (srv s) (fset (resps s) (cur s k) rest) (db s) (log s))).
  2:{ destruct (ClientWorker.ph (cl s k)); try exact L0; apply G; eauto. }
  intros Ph. assert (ON : RemoteClient.online (cl s k)) by (unfold RemoteClient.online; destruct Ph as [->|(c & ->)]; exact Logic.I).
  destruct (own_pid s k r I0 ON) as (c & Sc & P); [rewrite R; left; reflexivity|]. rewrite P.
  intros x Tx. destruct (N.eq_dec x k) as [->|Hx].
  - destruct (L0 k Tx) as [A B]. destruct Ph as [Ph|(c' & Ph)]; [|exfalso; exact (A c' Ph)].
    unfold live. cbn [cl cur sent srv resps]. rewrite !fset_same, Tx. set (w := ClientWorker.step ClientWorker.WebSocket (cl s k) (ClientWorker.Response (ClientWorker.wire_id c) (pvalue r))).
    assert (PW : ClientWorker.ph w = ClientWorker.Connected /\ ClientWorker.issued w = ClientWorker.issued (cl s k)).
    { unfold w. cbn [ClientWorker.step]. rewrite Ph. destruct (ClientWorker.take_id _ _) as [[]|]; auto. }
    destruct PW as [PW IW]. rewrite PW, IW. split; [intros z; discriminate|]. intros _ Bd. destruct (B ON Bd) as [B1 (done & D1 & D2)].
    destruct (v_cur _ _ _ _ _ _ I0 k ON) as (c1 & H1).
    assert (LT : forall z, In z (map snd (sent s (cur s k))) -> (z < 4294967296)%N).
    { intros z Hz. apply in_map_iff in Hz. destruct Hz as ([k' z'] & Ez & Hz). cbn [snd] in Ez. subst z'. assert (k' = k) as -> by (eapply (v_owner _ _ _ _ _ _ I0); eassumption). pose proof (sent_lt _ _ _ _ _ s _ _ _ I0 Hz). lia. }
    pose proof (keyed_always _ _ _ _ _ s k I0) as KA.
    assert (Cin : In c (map snd (sent s (cur s k)))) by (apply in_map_iff; exists (k, c); split; [reflexivity|eapply nth_error_In, Sc]).
    assert (W : (forall z, waits (cl s k) z -> waits w z) /\ answered w c /\ (forall z, answered (cl s k) z -> answered w z)).
    { unfold w, waits. cbn [ClientWorker.step]. rewrite Ph. destruct (ClientWorker.take_id _ _) as [[z0 m]|] eqn:T.
      - pose proof (ClientWorkerProofs.take_id_perm _ _ _ _ T) as PM. cbn [ClientWorker.outstanding ClientWorker.results].
        assert (Z : z0 = c). { destruct (KA (ClientWorker.wire_id c) z0) as [E Hz]; [eapply Permutation_in; [apply Permutation_sym, PM|left; reflexivity]|]. symmetry. apply ClientWorkerProofs.wire_id_inj; [apply LT; exact Cin|apply LT; exact Hz|exact E]. }
        subst z0. assert (AC : exists v, In (c, ClientWorker.Answer v) (ClientWorker.results (cl s k) ++ [(c, ClientWorker.Answer (pvalue r))])) by (exists (pvalue r); apply in_or_app; right; left; reflexivity).
        assert (MO : forall z, answered (cl s k) z -> exists v, In (z, ClientWorker.Answer v) (ClientWorker.results (cl s k) ++ [(c, ClientWorker.Answer (pvalue r))])) by (intros z (v & Hv); exists v; apply in_or_app; auto).
        split; [|auto]. intros z [Hz|Hz]; [|auto]. apply (Permutation_in _ (Permutation_map snd PM)) in Hz. cbn [map snd] in Hz. destruct Hz as [<-|Hz]; auto.
      - apply ClientWorkerProofs.take_id_none in T. split; [auto|]. split; [|auto]. destruct (B1 c) as [Hc|Hc]; [eapply nth_error_In, Sc| |exact Hc].
        exfalso. apply T. apply in_map_iff in Hc. destruct Hc as ([i z] & Ez & Hc). cbn [snd] in Ez. subst z. destruct (KA _ _ Hc) as [-> _]. apply in_map_iff. exists (ClientWorker.wire_id c, c). auto. }
    destruct W as (W1 & W2 & W3). split; [intros z Hz; apply W1, B1, Hz|].
    exists (done ++ [r]). split; [rewrite D1, R, <- app_assoc; reflexivity|]. intros r' z Hr Hz. apply in_app_or in Hr. destruct Hr as [Hr|[<-|[]]]; [apply W3; eapply D2; eassumption|].
    rewrite Sc in Hz. injection Hz as <-. exact W2.
  - destruct (L0 x Tx) as [A B]. unfold live. cbn [cl cur sent srv resps]. rewrite (fset_other (cl s)) by exact Hx. split; [exact A|]. intros O Bd.
    assert (Hn : cur s x <> cur s k).
    { intros E. destruct (v_cur _ _ _ _ _ _ I0 x O) as (z & Hz). destruct (v_cur _ _ _ _ _ _ I0 k ON) as (z' & Hz'). rewrite E in Hz. apply Hx. eapply (v_owner _ _ _ _ _ _ I0); eassumption. }
    rewrite (fset_other (resps s)) by exact Hn. apply B; assumption.
Qed.
Lemma lives_step s ev : inv s -> lives s -> lives (sys_step exec limit tr t s ev).
Proof.
  intros I L. destruct ev as [k se r|k ev|n|n i se v|ev|j|j|k]; [|apply lives_client; assumption| | | | | |apply lives_receive; assumption].
  - intros x Tx. destruct (N.eq_dec x k) as [->|Hx].
    + destruct (L k Tx) as [A B]. unfold live. cbn [sys_step cl cur sent srv resps]. rewrite fset_same. split; [exact A|]. intros O Bd. apply B; [exact O|]. cbn in Bd. lia.
    + apply (live_same s); cbn [sys_step cl cur sent srv resps]; auto; [apply fset_other; exact Hx|]. exists []. rewrite !app_nil_r. auto.
  - cbn [sys_step]. destruct (reqs s n) as [|[k c] rest]; [exact L|]. destruct (nth_error _ _) as [[se r]|]; [|exact L]. destruct (_ <? _); [|exact L].
    intros x Tx. apply (live_same s); cbn [cl cur sent srv resps]; auto. rewrite written_step. cbn [writes_now]. exists []. rewrite !app_nil_r. auto.
  - intros x Tx. apply (live_same s); cbn [sys_step set_srv cl cur sent srv resps]; auto. rewrite written_step. cbn [writes_now]. exists []. rewrite !app_nil_r. auto.
  - cbn [sys_step].
    destruct ev as [c i se v|c|c|c| |k v|k|c k|c|c|c| |c|c]; try exact L; intros x Tx; (apply (live_same s); cbn [set_srv cl cur sent srv resps]; auto); rewrite written_step; cbn [writes_now]; try (exists []; rewrite !app_nil_r; auto; fail).
    destruct (writing (conns (srv s) c)); [|destruct (N.eqb _ _); exists []; rewrite !app_nil_r; auto]. destruct (outq (conns (srv s) c)) as [|r0 o]; [destruct (N.eqb _ _); exists []; rewrite !app_nil_r; auto|].
    destruct (N.eqb_spec (cur s x) c) as [E|E]; [exists [r0]; rewrite <- E, fset_same; auto|exists []; rewrite fset_other by exact E; rewrite !app_nil_r; auto].
  - cbn [sys_step]. destruct (nth_error _ _) as [[n q]|]; [|exact L]. destruct (value q); [|exact L]. destruct (find_entry _ _ _); [exact L|]. destruct (exec _ _ _).
    intros x Tx. apply (live_same s); auto. exists []. rewrite !app_nil_r. auto.
  - cbn [sys_step]. destruct (nth_error _ _) as [[n q]|]; [|exact L]. destruct (find_entry _ _ _) as [e|]; [|exact L].
    intros x Tx. apply (live_same s); cbn [set_srv cl cur sent srv resps]; auto. rewrite written_step. cbn [writes_now]. exists []. rewrite !app_nil_r. auto.
Qed.
Lemma lives_run h : forall s, inv s -> lives s -> lives (sys_run exec limit tr t s h).
Proof. induction h as [|ev h IH]; cbn [sys_run]; intros s I L; [exact L|]. apply IH; [apply inv_step, I|apply lives_step; assumption]. Qed.
End Live.
