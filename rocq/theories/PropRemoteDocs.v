(* C97: documents and views used by remote clients. *)
From Verif Require Import Remote RemoteProofs PropRemote.
From Verif Require ClientWorker ServerQueue.
From Verif Require Import Base Key KeyPrefix DocId Tree View ViewProofs ViewMap Docs DocsProofs DocsSpec DocsMore DocsHist PropDocs
  Query ViewTotal PropViews PropQuery RemoteDocs RemoteDocsProofs.
From Coq Require Import Permutation Sorting.Sorted Lia.
Local Open Scope N_scope.

Lemma serially_length {D} (f : D -> option N -> N -> D * N) : forall l d, length (snd (serially f d l)) = length l.
Proof. induction l as [|[se r] l IH]; intros d; [reflexivity|]. cbn [serially]. destruct (f d se r) as [d1 a]. specialize (IH d1). destruct (serially f d1 l) as [d2 b]. cbn in *. congruence. Qed.
Lemma serially_nth {D} (f : D -> option N -> N -> D * N) : forall l d i se r, nth_error l i = Some (se, r) ->
  exists a, nth_error (snd (serially f d l)) i = Some a /\
    f (fst (serially f d (firstn i l))) se r = (fst (serially f d (firstn (S i) l)), a).
Proof.
  induction l as [|[se0 r0] l IH]; intros d [|i] se r H; try discriminate H.
  - inversion H; subst. cbn [firstn serially]. destruct (f d se r) as [d1 a] eqn:F. exists a. destruct (serially f d1 l) as [d2 b]. cbn. split; [reflexivity|exact F].
  - cbn [nth_error] in H. cbn [firstn serially]. destruct (f d se0 r0) as [d1 a0]. destruct (IH d1 i se r H) as (a & A & B). exists a.
    cbn [firstn] in B. destruct (serially f d1 l) as [d2 b]. cbn [snd fst nth_error] in *. split; [exact A|].
    destruct (serially f d1 (firstn i l)) as [d3 b3]. cbn [fst] in *. destruct l as [|x l']; [destruct i; discriminate H|].
    destruct (serially f d1 (x :: firstn i l')) as [d4 b4]. cbn [fst] in *. exact B.
Qed.

Section Claims.
Variable E : env.
Variable perm : option N -> session.
Variable vperm : option N -> vsession.
Variable dec : N -> option request.
Variable enc : response -> N.
Variable limit : nat.
Variable tr : N -> ServerQueue.transport.
Variable t : N -> ClientWorker.transport.
Variable workers : nat.
Hypothesis EO : env_ok E.
Notation server := (exec E perm vperm dec enc).
Notation handle := (RemoteDocs.handle E perm vperm).
Notation after h := (sys_run server limit tr t (sys0 workers empty_db) h).

(* the database after the first i requests that the server executed *)
Definition state_at (h : list event) (i : nat) : dbstate :=
  fst (serially server empty_db (firstn i (map (fun e => (e_session e, e_req e)) (log (after h))))).
(* the i-th executed request is call c of client k, made with session se: request rq,
   answered with a *)
Definition served (h : list event) (i : nat) (k c : N) (se : option N) (rq : request) (a : response) : Prop :=
  exists e, nth_error (log (after h)) i = Some e /\ e_who e = Some (k, c) /\ e_session e = se /\ dec (e_req e) = Some rq /\ e_ans e = enc a /\
    handle (state_at h i) se rq = (state_at h (S i), a).

Lemma exec_at h i e : nth_error (log (after h)) i = Some e -> server (state_at h i) (e_session e) (e_req e) = (state_at h (S i), e_ans e).
Proof.
  intros H. assert (S1 := C68_one_at_a_time server limit tr t workers empty_db h). cbv zeta in S1.
  assert (H' : nth_error (map (fun e => (e_session e, e_req e)) (log (after h))) i = Some (e_session e, e_req e)) by (rewrite nth_error_map, H; reflexivity).
  destruct (serially_nth server _ empty_db i _ _ H') as (a & A & B). rewrite S1 in A. cbn [snd] in A. rewrite nth_error_map, H in A. inversion A; subst. exact B.
Qed.
Lemma served_at h i e rq : nth_error (log (after h)) i = Some e -> dec (e_req e) = Some rq ->
  exists a, e_ans e = enc a /\ handle (state_at h i) (e_session e) rq = (state_at h (S i), a).
Proof.
  intros H D. assert (X := exec_at h i e H). unfold exec in X. rewrite D in X. destruct (handle _ _ rq) as [s' a]. inversion X. exists a. auto.
Qed.
Lemma step_at h i : state_at h (S i) = state_at h i \/ exists e, nth_error (log (after h)) i = Some e.
Proof.
  destruct (nth_error (log (after h)) i) as [e|] eqn:N1; [right; exists e; reflexivity|left]. unfold state_at. apply nth_error_None in N1.
  rewrite !firstn_all2; [reflexivity| |]; rewrite map_length; lia.
Qed.
(* The server's database is always in a state that local transactions and mapper jobs
   can produce - so everything proved about local databases (C19-C34) holds of it - and
   each request does to it what the same local call does. *)
Theorem C97_server_state : forall h, db (after h) = state_at h (length (log (after h))) /\ forall i, reach E (state_at h i).
Proof.
  intros h. split.
  - unfold state_at. assert (S1 := C68_one_at_a_time server limit tr t workers empty_db h). cbv zeta in S1. rewrite firstn_all2 by (rewrite map_length; lia). rewrite S1. reflexivity.
  - induction i as [|i IH]; [apply reach_init|]. destruct (step_at h i) as [Q|(e & N1)]; [rewrite Q; exact IH|]. assert (X := exec_at h i e N1). unfold exec in X.
    destruct (dec (e_req e)) as [rq|]; [|injection X as X _; rewrite <- X; exact IH]. assert (Y := handle_reach E perm vperm EO (state_at h i) (e_session e) rq IH).
    destruct (handle _ _ rq) as [s' a]. inversion X; subst. exact Y.
Qed.
Lemma reach_at h i : reach E (state_at h i).
Proof. apply (proj2 (C97_server_state h)). Qed.
(* A call that returned got the answer that the same call gives on a local database, at
   its place in the server's order. *)
Theorem C97_returned : forall h k c v se n rq, (N.of_nat (length (calls_of k h)) <= 2 ^ 32)%N -> returned (after h) k c v ->
  nth_error (calls_of k h) (N.to_nat c) = Some (se, n) -> dec n = Some rq ->
  exists i a, v = enc a /\ served h i k c se rq a.
Proof.
  intros h k c v se n rq B R CA D. destruct (C68_returned server limit tr t workers empty_db h k c v B R) as (e & I & W & A).
  assert (CI := C68_as_issued server limit tr t workers empty_db h e k c I W). rewrite CI in CA. inversion CA; subst.
  destruct (In_nth_error _ _ I) as (i & N1). destruct (served_at h i e rq N1 D) as (a & A1 & A2). exists i, a. split; [exact A1|]. exists e.
  repeat match goal with |- _ /\ _ => split end; auto.
Qed.
Lemma served_executed h i k c se rq a : served h i k c se rq a -> executed (after h) i k c.
Proof. intros (e & N1 & W & _). exists e. auto. Qed.
Lemma log_prefix h1 h2 i e : nth_error (log (after h1)) i = Some e -> nth_error (log (after (h1 ++ h2))) i = Some e.
Proof.
  intros H. assert (X := log_run server limit tr t h2 (after h1)). rewrite <- sys_run_app in X. destruct X as (l & ->). rewrite nth_error_app1; [exact H|]. apply nth_error_Some. congruence.
Qed.
Lemma served_prefix h1 h2 i k c se rq a : (forall x y, enc x = enc y -> x = y) -> served h1 i k c se rq a -> served (h1 ++ h2) i k c se rq a.
Proof.
  intros INJ (e & N1 & W & SE & D & A & _). exists e. assert (N2 := log_prefix h1 h2 i e N1). destruct (served_at _ i e rq N2 D) as (b & B1 & B2). rewrite A in B1. apply INJ in B1. subst b. rewrite SE in B2.
  repeat match goal with |- _ /\ _ => split end; auto.
Qed.

(* nobody but call c of client k writes the document *)
Definition only_writer (h : list event) (k c : N) (coll id : bytes) : Prop :=
  forall e rq, In e (log (after h)) -> e_who e <> Some (k, c) -> dec (e_req e) = Some rq -> ~ writes_doc E rq coll id.
Definition never_deleted (h : list event) (coll id : bytes) : Prop :=
  forall e rq, In e (log (after h)) -> dec (e_req e) = Some rq -> ~ deletes_doc E rq coll id.
Lemma kept h k c coll id d i : only_writer h k c coll id -> executed (after h) i k c -> doc_at (state_at h (S i)) coll id = Some d ->
  forall n, doc_at (state_at h (S i + n)) coll id = Some d.
Proof.
  intros OW EX G. induction n as [|n IH]; [rewrite Nat.add_0_r; exact G|]. replace (S i + S n)%nat with (S (S i + n)) by lia. set (m := (S i + n)%nat) in *.
  destruct (step_at h m) as [Q|(e & N1)]; [rewrite Q; exact IH|]. assert (X := exec_at h m e N1). unfold exec in X.
  destruct (dec (e_req e)) as [rq|] eqn:D; [|injection X as X _; rewrite <- X; exact IH].
  assert (NW : ~ writes_doc E rq coll id).
  { apply (OW e rq); [eapply nth_error_In, N1| |exact D]. intros W. assert (Z := C68_at_most_once server limit tr t workers empty_db h k c i m EX). cbv zeta in Z. unfold m in *. enough (i = S i + n)%nat by lia. apply Z. exists e. auto. }
  assert (Y := handle_keeps E perm vperm EO (state_at h m) (e_session e) rq coll id d (reach_at h m) IH NW). destruct (handle _ _ rq) as [s' a]. inversion X; subst. exact Y.
Qed.
Lemma aged h coll id d i : never_deleted h coll id -> doc_at (state_at h i) coll id = Some d ->
  forall n, exists d', doc_at (state_at h (i + n)) coll id = Some d' /\ later d d'.
Proof.
  intros ND G. induction n as [|n IH]; [rewrite Nat.add_0_r; exists d; split; [exact G|right; reflexivity]|]. replace (i + S n)%nat with (S (i + n)) by lia. set (m := (i + n)%nat) in *.
  destruct (step_at h m) as [Q|(e & N1)]; [rewrite Q; exact IH|]. assert (X := exec_at h m e N1). unfold exec in X. destruct IH as (d1 & G1 & L1).
  destruct (dec (e_req e)) as [rq|] eqn:D; [|injection X as X _; rewrite <- X; exists d1; auto].
  destruct (handle_later E perm vperm EO (state_at h m) (e_session e) rq coll id d1 (reach_at h m) G1 (ND e rq (nth_error_In _ _ N1) D)) as (d2 & G2 & L2).
  destruct (handle _ _ rq) as [s' a]. inversion X; subst. exists d2. split; [exact G2|eapply later_trans; eassumption].
Qed.

Hypothesis enc_inj : forall x y, enc x = enc y -> x = y.
Definition is_call (h : list event) (k c : N) (se : option N) (rq : request) : Prop :=
  exists n, nth_error (calls_of k h) (N.to_nat c) = Some (se, n) /\ dec n = Some rq.
Lemma returned_served h k c se rq a : (N.of_nat (length (calls_of k h)) <= 2 ^ 32)%N -> is_call h k c se rq -> returned (after h) k c (enc a) -> exists i, served h i k c se rq a.
Proof. intros B (n & CA & D) R. destruct (C97_returned h k c _ se n rq B R CA D) as (i & b & EQ & SV). apply enc_inj in EQ. subst b. exists i. exact SV. Qed.
(* what a later request of whatever client finds: the document as the write stored it *)
Lemma after_write h1 h2 k c se coll cmd b hd k' c' se' rq' a' :
  (N.of_nat (length (calls_of k h1)) <= 2 ^ 32)%N -> (N.of_nat (length (calls_of k' (h1 ++ h2))) <= 2 ^ 32)%N ->
  is_call h1 k c se (QApply [mk_op coll cmd]) -> contents_of cmd = Some b ->
  returned (after h1) k c (enc (SApply (Done [RUpdated coll hd]))) ->
  (N.to_nat c' >= length (calls_of k' h1))%nat -> is_call (h1 ++ h2) k' c' se' rq' -> returned (after (h1 ++ h2)) k' c' (enc a') ->
  only_writer (h1 ++ h2) k c coll (h_id hd) ->
  exists j d, served (h1 ++ h2) j k' c' se' rq' a' /\ doc_at (state_at (h1 ++ h2) j) coll (h_id hd) = Some d /\ d_header d = hd /\
    (d_contents d = b \/ (d_contents d <> b /\ ev_hash E (d_contents d) = ev_hash E b)).
Proof.
  intros B1 B2 C1 CO R1 NEW C2 R2 OW. destruct (returned_served _ _ _ _ _ _ B1 C1 R1) as (i & S1). destruct (returned_served _ _ _ _ _ _ B2 C2 R2) as (j & S2).
  assert (S1' := served_prefix h1 h2 _ _ _ _ _ _ enc_inj S1).
  assert (LT := C68_real_time server limit tr t workers empty_db h1 h2 k c _ k' c' i j B1 R1 NEW (served_executed _ _ _ _ _ _ _ S1') (served_executed _ _ _ _ _ _ _ S2)).
  assert (EX := served_executed _ _ _ _ _ _ _ S1'). destruct S1' as (e1 & _ & _ & _ & _ & _ & HA).
  destruct (write_stores E perm vperm EO _ se coll cmd b hd _ (reach_at _ _) CO HA) as (d & G & HD & CN).
  exists j, d. split; [exact S2|]. split; [|split; assumption]. replace j with (S i + (j - S i))%nat by lia. exact (kept _ _ _ _ _ _ _ OW EX G _).
Qed.
(* Read your writes, and everybody else's: once a write has returned, a get that is
   issued afterwards by any client returns the document with exactly that revision. *)
Theorem C97_read_written : forall h1 h2 k c se coll cmd b hd k' c' se' a',
  (N.of_nat (length (calls_of k h1)) <= 2 ^ 32)%N -> (N.of_nat (length (calls_of k' (h1 ++ h2))) <= 2 ^ 32)%N ->
  is_call h1 k c se (QApply [mk_op coll cmd]) -> contents_of cmd = Some b ->
  returned (after h1) k c (enc (SApply (Done [RUpdated coll hd]))) ->
  (N.to_nat c' >= length (calls_of k' h1))%nat -> is_call (h1 ++ h2) k' c' se' (QGet coll (h_id hd)) -> returned (after (h1 ++ h2)) k' c' (enc a') ->
  only_writer (h1 ++ h2) k c coll (h_id hd) -> perm se' ActGet coll (Some (h_id hd)) = true ->
  exists d, a' = SGet (Done (Some d)) /\ d_header d = hd /\ (d_contents d = b \/ (d_contents d <> b /\ ev_hash E (d_contents d) = ev_hash E b)).
Proof.
  intros h1 h2 k c se coll cmd b hd k' c' se' a' B1 B2 C1 CO R1 NEW C2 R2 OW PM.
  destruct (after_write h1 h2 k c se coll cmd b hd k' c' se' _ a' B1 B2 C1 CO R1 NEW C2 R2 OW) as (j & d & S2 & G & HD & CN).
  exists d. split; [|split; assumption]. destruct S2 as (e & _ & _ & _ & _ & _ & HA). cbn [RemoteDocs.handle] in HA. unfold get_doc in HA. rewrite PM in HA. inversion HA. unfold doc_at in G. rewrite G. reflexivity.
Qed.
(* ... and a query of a view that is issued afterwards shows for it exactly what the
   view's map function gives. *)
Theorem C97_query_written : forall h1 h2 k c se coll cmd b hd k' c' se' v ms,
  (N.of_nat (length (calls_of k h1)) <= 2 ^ 32)%N -> (N.of_nat (length (calls_of k' (h1 ++ h2))) <= 2 ^ 32)%N ->
  is_call h1 k c se (QApply [mk_op coll cmd]) -> contents_of cmd = Some b ->
  returned (after h1) k c (enc (SApply (Done [RUpdated coll hd]))) ->
  (N.to_nat c' >= length (calls_of k' h1))%nat -> view_named E (vw_name v) = Some v -> vw_coll v = coll ->
  is_call (h1 ++ h2) k' c' se' (QQuery (vw_name v) None true None) -> returned (after (h1 ++ h2)) k' c' (enc (SQuery (Done ms))) ->
  only_writer (h1 ++ h2) k c coll (h_id hd) ->
  exists d, d_header d = hd /\ (d_contents d = b \/ (d_contents d <> b /\ ev_hash E (d_contents d) = ev_hash E b)) /\
    forall key val, In (mk_em key hd val) ms <-> exists l, vd_map (vw_def v) d = Some l /\ last_value key l = Some val.
Proof.
  intros h1 h2 k c se coll cmd b hd k' c' se' v ms B1 B2 C1 CO R1 NEW VN VC C2 R2 OW.
  destruct (after_write h1 h2 k c se coll cmd b hd k' c' se' _ _ B1 B2 C1 CO R1 NEW C2 R2 OW) as (j & d & S2 & G & HD & CN).
  exists d. split; [exact HD|]. split; [exact CN|]. intros key val. destruct S2 as (e & _ & _ & _ & _ & _ & HA). cbn [RemoteDocs.handle] in HA. rewrite VN in HA.
  assert (I := proj1 (view_named_In _ _ _ VN)). set (s := state_at (h1 ++ h2) j) in *. assert (R := reach_at (h1 ++ h2) j). fold s in R.
  destruct (vperm se' VQuery (vw_name v)) eqn:VP; [|inversion HA]. assert (RD := update_view_docs v s). assert (RR := update_view_reach E v s I EO R).
  destruct (update_view v s) as [s' [[]|x|]] eqn:U; try (inversion HA; fail). inversion HA as [[HS HQ]]. cbn [fst] in *.
  assert (NP := update_view_done E v s s' EO R I U).
  assert (Q : query anyone s' v None true None = Done ms) by (unfold query in HQ; rewrite VP in HQ; unfold query, anyone; rewrite HS; exact HQ).
  rewrite (C28_document E s' v ms key hd val EO RR I Q (NP _)). rewrite VC, (doc_at_docs _ _ _ _ RD). split.
  - intros (d0 & l & G0 & H0 & M & L). assert (d0 = d) by congruence. subst d0. exists l. auto.
  - intros (l & M & L). exists d, l. auto.
Qed.
(* what a mapper and a query find *)
Lemma all_now s v q asc ms : reach E s -> In v (ev_views E) -> distinct q -> (forall id, ~ pending s v id) -> query anyone s v q asc None = Done ms ->
  forall key hd val, In (mk_em key hd val) ms <-> asks q key = true /\
    exists d l, doc_at s (vw_coll v) (h_id hd) = Some d /\ d_header d = hd /\ vd_map (vw_def v) d = Some l /\ last_value key l = Some val.
Proof.
  intros R I DQ NP Q key hd val. assert (QA : query anyone s v None true None = Done (flat_map entry_mappings (view_entries (entries_of s v) None true None))) by reflexivity.
  assert (X := C31_exact E s v q asc ms _ EO R I DQ Q QA key). rewrite <- (C28_document E s v _ key hd val EO R I QA (NP _)).
  assert (AK : forall l, In (mk_em key hd val) l <-> In (mk_em key hd val) (at_k key l)).
  { intros l. unfold at_k. rewrite filter_In. cbn [em_key]. rewrite (proj2 (bytes_eqb_spec key key) eq_refl). intuition. }
  rewrite AK, X. destruct (asks q key); [rewrite <- AK; intuition|]. split; [intros []|intros [H _]; discriminate H].
Qed.
(* the same for the whole view: what a query returns is exactly what the view's map
   function gives for the documents stored when it was executed, for the keys that the
   query asks for and in their order *)
Theorem C97_query_exact : forall h k c se v q asc ms,
  (N.of_nat (length (calls_of k h)) <= 2 ^ 32)%N -> view_named E (vw_name v) = Some v -> distinct q ->
  is_call h k c se (QQuery (vw_name v) q asc None) -> returned (after h) k c (enc (SQuery (Done ms))) ->
  vperm se VQuery (vw_name v) = true /\
  StronglySorted (fun a b => if asc || negb (is_range q) then lex a b <> Gt else lex b a <> Gt) (map em_key ms) /\
  exists i, executed (after h) i k c /\ (forall coll id, doc_at (state_at h (S i)) coll id = doc_at (state_at h i) coll id) /\
    forall key hd val, In (mk_em key hd val) ms <-> asks q key = true /\
    exists d l, doc_at (state_at h i) (vw_coll v) (h_id hd) = Some d /\ d_header d = hd /\ vd_map (vw_def v) d = Some l /\ last_value key l = Some val.
Proof.
  intros h k c se v q asc ms B VN DQ C1 R1. destruct (returned_served _ _ _ _ _ _ B C1 R1) as (i & S1). assert (EX := served_executed _ _ _ _ _ _ _ S1).
  destruct S1 as (e & _ & _ & _ & _ & _ & HA). cbn [RemoteDocs.handle] in HA. rewrite VN in HA. assert (I := proj1 (view_named_In _ _ _ VN)). set (s := state_at h i) in *. assert (R := reach_at h i). fold s in R.
  destruct (vperm se VQuery (vw_name v)) eqn:VP; [|inversion HA]. assert (RD := update_view_docs v s). assert (RR := update_view_reach E v s I EO R).
  destruct (update_view v s) as [s' [[]|x|]] eqn:U; try (inversion HA; fail). inversion HA as [[HS HQ]]. cbn [fst] in *.
  assert (NP := update_view_done E v s s' EO R I U).
  assert (Q : query anyone s' v q asc None = Done ms) by (unfold query in HQ; rewrite VP in HQ; unfold query, anyone; rewrite HS; exact HQ).
  split; [reflexivity|]. split; [exact (C31_order E s' v q asc ms EO RR I DQ Q)|]. exists i. split; [exact EX|].
  split; [intros coll id; rewrite <- HS; apply doc_at_docs, RD|]. intros key hd val. fold s.
  rewrite (all_now s' v q asc ms RR I DQ NP Q). setoid_rewrite (doc_at_docs _ _ _ _ RD). reflexivity.
Qed.
(* Bulk deletion through a view: exactly the documents for which the map function gives
   a key that was asked for are gone. *)
Theorem C97_delete_exact : forall h k c se v q n,
  (N.of_nat (length (calls_of k h)) <= 2 ^ 32)%N -> view_named E (vw_name v) = Some v -> distinct q ->
  is_call h k c se (QDeleteDocs (vw_name v) q) -> returned (after h) k c (enc (SDeleted (Done n))) ->
  exists i, executed (after h) i k c /\
    (forall id d l key val, doc_at (state_at h i) (vw_coll v) id = Some d -> vd_map (vw_def v) d = Some l -> asks q key = true -> last_value key l = Some val ->
       doc_at (state_at h (S i)) (vw_coll v) id = None /\ n <> 0) /\
    (forall coll id, doc_at (state_at h (S i)) coll id <> doc_at (state_at h i) coll id -> coll = vw_coll v /\ doc_at (state_at h (S i)) coll id = None /\
       exists d l key val, doc_at (state_at h i) coll id = Some d /\ vd_map (vw_def v) d = Some l /\ asks q key = true /\ last_value key l = Some val).
Proof.
  intros h k c se v q n B VN DQ C1 R1. destruct (returned_served _ _ _ _ _ _ B C1 R1) as (i & S1). exists i. split; [exact (served_executed _ _ _ _ _ _ _ S1)|].
  destruct S1 as (e & _ & _ & _ & _ & _ & HA). cbn [RemoteDocs.handle] in HA. rewrite VN in HA. assert (I := proj1 (view_named_In _ _ _ VN)). set (s := state_at h i) in *. assert (R := reach_at h i). fold s in R.
  assert (RD := update_view_docs v s). assert (RR := update_view_reach E v s I EO R).
  destruct (update_view v s) as [s' [[]|x|]] eqn:U; try (inversion HA; fail). cbn [fst] in *. assert (NP := update_view_done E v s s' EO R I U).
  destruct (delete_docs E (perm se) s' v q) as [s2 o] eqn:DD. inversion HA as [[HS HO]]. subst o.
  assert (Q : query anyone s' v q true None = Done (flat_map entry_mappings (view_entries (entries_of s' v) q true None))) by reflexivity.
  set (ms := flat_map entry_mappings (view_entries (entries_of s' v) q true None)) in *.
  destruct (C32_exact E (perm se) s' v q s2 n ms EO RR I Q DD) as [LN G]. rewrite HS in G. assert (A := all_now s' v q true ms RR I DQ NP Q).
  assert (DG : forall cc j, doc_at s' cc j = doc_at s cc j) by (intros; apply doc_at_docs, RD).
  split.
  - intros id d l key val GD M K L. rewrite <- DG in GD. assert (HI := proj1 (C23_digest E s' _ id d EO RR GD)).
    assert (X : In (mk_em key (d_header d) val) ms) by (apply A; split; [exact K|]; exists d, l; rewrite HI; auto).
    split.
    + rewrite G. rewrite (proj2 (bytes_eqb_spec _ _) eq_refl). cbn [andb]. assert (Y := in_map (fun m => h_id (em_src m)) _ _ X). cbn [em_src] in Y. rewrite HI in Y.
      assert (MM : mem id (map (fun m => h_id (em_src m)) ms) = true). { apply existsb_exists. exists id. split; [exact Y|]. apply bytes_eqb_spec. reflexivity. } rewrite MM. reflexivity.
    + rewrite LN. destruct ms; [destruct X|]. cbn [length]. lia.
  - intros coll id NE. rewrite G in *. rewrite DG in *. destruct (bytes_eqb coll (vw_coll v)) eqn:CE; [|destruct (NE eq_refl)]. cbn [andb] in *.
    destruct (mem id (map (fun m => h_id (em_src m)) ms)) eqn:ME; [|destruct (NE eq_refl)]. apply bytes_eqb_spec in CE. split; [exact CE|]. split; [reflexivity|].
    apply existsb_exists in ME. destruct ME as (j & J & EJ). apply bytes_eqb_spec in EJ. subst j. apply in_map_iff in J. destruct J as ([key hd val] & HJ & IM). cbn [em_src] in HJ.
    apply A in IM. destruct IM as (K & d & l & GD & _ & M & L). rewrite HJ, DG, <- CE in GD. exists d, l, key, val. auto.
Qed.
(* Reads of documents: what is stored at the place in the order, to those who may read. *)
Theorem C97_get_exact : forall h k c se coll id o, (N.of_nat (length (calls_of k h)) <= 2 ^ 32)%N ->
  is_call h k c se (QGet coll id) -> returned (after h) k c (enc (SGet o)) ->
  exists i, executed (after h) i k c /\ state_at h (S i) = state_at h i /\
    o = if perm se ActGet coll (Some id) then Done (doc_at (state_at h i) coll id) else Fail PermissionDenied.
Proof.
  intros h k c se coll id o B C1 R1. destruct (returned_served _ _ _ _ _ _ B C1 R1) as (i & S1). exists i. split; [exact (served_executed _ _ _ _ _ _ _ S1)|].
  destruct S1 as (e & _ & _ & _ & _ & _ & HA). cbn [RemoteDocs.handle] in HA. injection HA as HS HO. rewrite <- HS. split; [reflexivity|]. rewrite <- HO. reflexivity.
Qed.
Theorem C97_list_exact : forall h k c se coll lo hi asc lm ds, (N.of_nat (length (calls_of k h)) <= 2 ^ 32)%N ->
  is_call h k c se (QList coll lo hi asc lm) -> returned (after h) k c (enc (SList (Done ds))) ->
  perm se ActList coll None = true /\
  exists i all, executed (after h) i k c /\ state_at h (S i) = state_at h i /\ ds = match lm with Some n => firstn (N.to_nat n) all | None => all end /\
    (forall d, In d all <-> doc_at (state_at h i) coll (h_id (d_header d)) = Some d /\ in_bounds lo hi (h_id (d_header d)) = true) /\
    StronglySorted (fun a b => if asc then lex a b = Lt else lex b a = Lt) (map (fun d => h_id (d_header d)) all).
Proof.
  intros h k c se coll lo hi asc lm ds B C1 R1. destruct (returned_served _ _ _ _ _ _ B C1 R1) as (i & S1). assert (EX := served_executed _ _ _ _ _ _ _ S1).
  destruct S1 as (e & _ & _ & _ & _ & _ & HA). cbn [RemoteDocs.handle] in HA. injection HA as HS HO.
  destruct (perm se ActList coll None) eqn:P; [|rewrite (proj1 (proj2 (C26_reads_need_permission (perm se) (state_at h i) coll [] lo hi asc lm [])) P) in HO; discriminate HO].
  split; [reflexivity|]. destruct (C25_list E (perm se) (state_at h i) coll lo hi asc EO (reach_at h i) P) as (all & L & A1 & A2 & A3 & _).
  exists i, all. split; [exact EX|]. split; [auto|]. split; [|auto]. destruct lm as [n|]; [rewrite A3 in HO|rewrite L in HO]; inversion HO; reflexivity.
Qed.
Theorem C97_log_exact : forall h k c se start lm l, (N.of_nat (length (calls_of k h)) <= 2 ^ 32)%N ->
  is_call h k c se (QLog start lm) -> returned (after h) k c (enc (SLog l)) ->
  exists i, executed (after h) i k c /\ state_at h (S i) = state_at h i /\
    l = firstn (N.to_nat (N.min (match lm with Some x => x | None => 100 end) 1000))
          (filter (fun e => match start with Some x => x <=? fst e | None => true end) (doc_changes (db_log (state_at h i)))).
Proof.
  intros h k c se start lm l B C1 R1. destruct (returned_served _ _ _ _ _ _ B C1 R1) as (i & S1). exists i. split; [exact (served_executed _ _ _ _ _ _ _ S1)|].
  destruct S1 as (e & _ & _ & _ & _ & _ & HA). cbn [RemoteDocs.handle] in HA. injection HA as HS HO. rewrite <- HS. split; [reflexivity|]. rewrite <- HO. apply C59_listing.
Qed.
(* No lost updates across clients: of two updates from the same revision that both
   succeeded, one changed nothing (unless the document was deleted in between). *)
Theorem C97_no_lost_update : forall h k1 c1 se1 b1 r1 k2 c2 se2 b2 r2 coll hd,
  (N.of_nat (length (calls_of k1 h)) <= 2 ^ 32)%N -> (N.of_nat (length (calls_of k2 h)) <= 2 ^ 32)%N -> (k1, c1) <> (k2, c2) ->
  is_call h k1 c1 se1 (QApply [mk_op coll (Update hd b1)]) -> returned (after h) k1 c1 (enc (SApply (Done [RUpdated coll r1]))) ->
  is_call h k2 c2 se2 (QApply [mk_op coll (Update hd b2)]) -> returned (after h) k2 c2 (enc (SApply (Done [RUpdated coll r2]))) ->
  never_deleted h coll (h_id hd) -> r1 = hd \/ r2 = hd.
Proof.
  assert (ONE : forall h i s1 se b r coll hd, s1 = state_at h i -> handle s1 se (QApply [mk_op coll (Update hd b)]) = (state_at h (S i), SApply (Done [RUpdated coll r])) ->
    exists d d', doc_at (state_at h i) coll (h_id hd) = Some d /\ rev_of d = h_rev hd /\ doc_at (state_at h (S i)) coll (h_id hd) = Some d' /\ (r = hd \/ r_id (h_rev hd) < r_id (rev_of d'))).
  { intros h i s1 se b r coll hd -> HA. assert (R := reach_at h i). cbn [RemoteDocs.handle] in HA. destruct (apply_transaction _ _ _ _) as [s' o] eqn:A. inversion HA; subst.
    destruct (C21_success _ _ _ _ _ _ _ EO R A) as (m & x & RE & D & SM). inversion RE; subst x.
    assert (G : forall j, doc_at (state_at h (S i)) coll j = m coll j) by (intros j; symmetry; apply SM).
    inversion D; subst.
    - eexists. eexists. split; [match goal with X : docs_of _ _ _ = Some _ |- _ => exact X end|]. split; [assumption|]. split; [rewrite G; apply put_same|]. right. unfold rev_of. cbn. lia.
    - match goal with X : docs_of _ _ _ = Some d |- _ => exists d, d; split; [exact X|]; split; [assumption|]; split; [rewrite G; exact X|]; left;
        assert (Z := proj1 (C23_digest E _ _ _ _ EO R X)) end. destruct d as [[i0 v0] bb], hd as [i1 v1]. unfold rev_of in *. cbn in *. congruence. }
  assert (MAIN : forall h i j se1 b1 r1 se2 b2 r2 coll hd k1 c1 k2 c2, (i < j)%nat ->
    served h i k1 c1 se1 (QApply [mk_op coll (Update hd b1)]) (SApply (Done [RUpdated coll r1])) -> served h j k2 c2 se2 (QApply [mk_op coll (Update hd b2)]) (SApply (Done [RUpdated coll r2])) ->
    never_deleted h coll (h_id hd) -> r1 = hd).
  { intros h i j se1 b1 r1 se2 b2 r2 coll hd k1 c1 k2 c2 LT (e1 & _ & _ & _ & _ & _ & H1) (e2 & _ & _ & _ & _ & _ & H2) ND.
    destruct (ONE h i _ _ _ _ _ _ eq_refl H1) as (d1 & d1' & _ & _ & G1 & [X|X]); [exact X|]. exfalso.
    destruct (ONE h j _ _ _ _ _ _ eq_refl H2) as (d2 & d2' & G2 & V2 & _).
    destruct (aged h coll (h_id hd) d1' (S i) ND G1 (j - S i)%nat) as (d3 & G3 & L3). replace (S i + (j - S i))%nat with j in G3 by lia.
    assert (d3 = d2) by congruence. subst d3. destruct L3 as [L3| ->]; rewrite V2 in *; lia. }
  intros h k1 c1 se1 b1 r1 k2 c2 se2 b2 r2 coll hd B1 B2 NE C1 R1 C2 R2 ND.
  destruct (returned_served _ _ _ _ _ _ B1 C1 R1) as (i & S1). destruct (returned_served _ _ _ _ _ _ B2 C2 R2) as (j & S2).
  destruct (lt_eq_lt_dec i j) as [[LT|EQ]|LT].
  - left. exact (MAIN _ _ _ _ _ _ _ _ _ _ _ _ _ _ _ LT S1 S2 ND).
  - exfalso. subst j. destruct S1 as (e1 & N1 & W1 & _), S2 as (e2 & N2 & W2 & _). rewrite N1 in N2. inversion N2; subst. congruence.
  - right. exact (MAIN _ _ _ _ _ _ _ _ _ _ _ _ _ _ _ LT S2 S1 ND).
Qed.
(* A payload that is no request, or that names an unknown view, is answered with an
   error and changes nothing. *)
Theorem C97_malformed : forall h k c v se n, (N.of_nat (length (calls_of k h)) <= 2 ^ 32)%N -> returned (after h) k c v ->
  nth_error (calls_of k h) (N.to_nat c) = Some (se, n) ->
  (dec n = None -> v = enc SMalformed /\ exists i, executed (after h) i k c /\ state_at h (S i) = state_at h i) /\
  (forall name q asc lm, (forall w, In w (ev_views E) -> vw_name w <> name) -> dec n = Some (QQuery name q asc lm) \/ dec n = Some (QDeleteDocs name q) ->
     v = enc SNoView /\ exists i, executed (after h) i k c /\ state_at h (S i) = state_at h i).
Proof.
  intros h k c v se n B R CA. destruct (C68_returned server limit tr t workers empty_db h k c v B R) as (e & I & W & A).
  assert (CI := C68_as_issued server limit tr t workers empty_db h e k c I W). rewrite CI in CA. injection CA as <- <-.
  destruct (In_nth_error _ _ I) as (i & N1). assert (X := exec_at h i e N1). assert (EX : executed (after h) i k c) by (exists e; auto). unfold exec in X. split.
  - intros D. rewrite D in X. injection X as X1 X2. split; [congruence|]. exists i. split; [exact EX|congruence].
  - intros name q asc lm NV D. assert (VN : view_named E name = None).
    { destruct (view_named E name) as [w|] eqn:VN; [|reflexivity]. apply view_named_In in VN. destruct VN as [IN Q]. destruct (NV w IN Q). }
    destruct D as [D|D]; rewrite D in X; cbn [RemoteDocs.handle] in X; rewrite VN in X; injection X as X1 X2; (split; [congruence|]; exists i; split; [exact EX|congruence]).
Qed.
(* Transactions: a transaction that returned results did all its operations, with those
   results, to the documents at its place in the order, if the session may do them. *)
Theorem C97_apply_exact : forall h k c se ops rs, (N.of_nat (length (calls_of k h)) <= 2 ^ 32)%N ->
  is_call h k c se (QApply ops) -> returned (after h) k c (enc (SApply (Done rs))) ->
  Forall (fun o => op_allowed (perm se) o = true) ops /\
  exists i, executed (after h) i k c /\ does_all (ev_hash E) (docs_of (state_at h i)) ops (docs_of (state_at h (S i))) rs.
Proof.
  intros h k c se ops rs B C1 R1. destruct (returned_served _ _ _ _ _ _ B C1 R1) as (i & S1). assert (EX := served_executed _ _ _ _ _ _ _ S1).
  destruct S1 as (e & _ & _ & _ & _ & _ & HA). cbn [RemoteDocs.handle] in HA. destruct (apply_transaction _ _ _ _) as [s' o'] eqn:A. injection HA as HS HO. subst s' o'.
  split.
  - unfold apply_transaction in A. destruct (forallb (op_allowed (perm se)) ops) eqn:F; [|cbn in A; discriminate A]. apply Forall_forall. exact (proj1 (forallb_forall _ _) F).
  - exists i. split; [exact EX|]. destruct (C19_all_or_nothing _ _ _ _ _ _ EO (reach_at h i) A) as [(rs' & Q & D & _)|[X _]]; [injection Q as <-; exact D|destruct (X rs eq_refl)].
Qed.
(* A transaction that returned an error because of a conflict or a missing permission
   changed nothing on the server. *)
Theorem C97_refused_changes_nothing : forall h k c se ops o, (N.of_nat (length (calls_of k h)) <= 2 ^ 32)%N ->
  is_call h k c se (QApply ops) -> returned (after h) k c (enc (SApply o)) -> (forall rs, o <> Done rs) ->
  exists i, executed (after h) i k c /\ state_at h (S i) = state_at h i.
Proof.
  intros h k c se ops o B C1 R1 ND. destruct (returned_served _ _ _ _ _ _ B C1 R1) as (i & S1). exists i. split; [exact (served_executed _ _ _ _ _ _ _ S1)|].
  destruct S1 as (e & _ & _ & _ & _ & _ & HA). cbn [RemoteDocs.handle] in HA. destruct (apply_transaction _ _ _ _) as [s' o'] eqn:A. inversion HA; subst.
  destruct (C19_all_or_nothing _ _ _ _ _ _ EO (reach_at h i) A) as [(rs & -> & _)|[_ X]]; [destruct (ND rs eq_refl)|exact X].
Qed.
End Claims.

(* A wire format meeting [enc_inj]: answers are written to a list of numbers without
   ambiguity, and lists of numbers to a number. Any injective format would do. *)
Definition prefix_free {A} (f : A -> list N) : Prop := forall a b x y, f a ++ x = f b ++ y -> a = b /\ x = y.
Definition w_n (n : N) : list N := [n].
Definition w_bool (b : bool) : list N := [if b then 1 else 0].
Definition w_pair {A B} (f : A -> list N) (g : B -> list N) (p : A * B) : list N := f (fst p) ++ g (snd p).
Fixpoint w_list {A} (f : A -> list N) (l : list A) : list N := match l with [] => [0] | a :: r => 1 :: f a ++ w_list f r end.
Definition w_opt {A} (f : A -> list N) (o : option A) : list N := match o with None => [0] | Some a => 1 :: f a end.
Lemma pf_n : prefix_free w_n. Proof. intros a b x y H. inversion H. auto. Qed.
Lemma pf_bool : prefix_free w_bool. Proof. intros [] [] x y H; inversion H; auto. Qed.
Lemma pf_pair {A B} (f : A -> list N) (g : B -> list N) : prefix_free f -> prefix_free g -> prefix_free (w_pair f g).
Proof. intros F G [a1 a2] [b1 b2] x y H. unfold w_pair in H. cbn [fst snd] in H. rewrite <- !app_assoc in H. apply F in H. destruct H as [-> H]. apply G in H. destruct H as [-> ->]. auto. Qed.
Lemma pf_list {A} (f : A -> list N) : prefix_free f -> prefix_free (w_list f).
Proof.
  intros F a. induction a as [|a l IH]; intros [|b m] x y H; cbn [w_list app] in H; try discriminate H; [inversion H; auto|].
  injection H as H. rewrite <- !app_assoc in H. apply F in H. destruct H as [-> H]. apply IH in H. destruct H as [-> ->]. auto.
Qed.
Lemma pf_opt {A} (f : A -> list N) : prefix_free f -> prefix_free (w_opt f).
Proof. intros F [a|] [b|] x y H; cbn [w_opt app] in H; try discriminate H; [|inversion H; auto]. injection H as H. apply F in H. destruct H as [-> ->]. auto. Qed.
Definition w_bytes : bytes -> list N := w_list w_n.
Lemma pf_bytes : prefix_free w_bytes. Proof. apply pf_list, pf_n. Qed.
Definition w_header (h : header) : list N := w_bytes (h_id h) ++ w_n (r_id (h_rev h)) ++ w_bytes (r_sha (h_rev h)).
Lemma pf_header : prefix_free w_header.
Proof. intros [a [b c]] [a' [b' c']] x y H. unfold w_header in H. cbn [h_id h_rev r_id r_sha] in H. rewrite <- !app_assoc in H. apply pf_bytes in H. destruct H as [-> H]. apply pf_n in H. destruct H as [-> H]. apply pf_bytes in H. destruct H as [-> ->]. auto. Qed.
Definition w_doc (d : doc) : list N := w_header (d_header d) ++ w_bytes (d_contents d).
Lemma pf_doc : prefix_free w_doc.
Proof. intros [a b] [a' b'] x y H. unfold w_doc in H. cbn [d_header d_contents] in H. rewrite <- !app_assoc in H. apply pf_header in H. destruct H as [-> H]. apply pf_bytes in H. destruct H as [-> ->]. auto. Qed.
Definition w_opres (r : opres) : list N :=
  match r with RSuccess => [0] | RUpdated c h => 1 :: w_bytes c ++ w_header h | RDeleted c i => 2 :: w_bytes c ++ w_bytes i end.
Lemma pf_opres : prefix_free w_opres.
Proof.
  intros [|c h|c i] [|c' h'|c' i'] x y H; cbn [w_opres app] in H; try discriminate H; [inversion H; auto|..]; injection H as H; rewrite <- !app_assoc in H; apply pf_bytes in H; destruct H as [-> H];
    [apply pf_header in H|apply pf_bytes in H]; destruct H as [-> ->]; auto.
Qed.
Definition w_verr (e : verr) : list N :=
  match e with MapError => [0] | ReduceUnimplemented => [1] | ReduceError => [2] | UniqueKeyViolation a b => 3 :: w_header a ++ w_header b end.
Lemma pf_verr : prefix_free w_verr.
Proof.
  intros [| | |a b] [| | |a' b'] x y H; cbn [w_verr app] in H; try discriminate H; try (inversion H; auto; fail). injection H as H. rewrite <- !app_assoc in H. apply pf_header in H. destruct H as [-> H]. apply pf_header in H. destruct H as [-> ->]. auto.
Qed.
Definition w_terr (e : terr) : list N :=
  match e with
  | PermissionDenied => [0] | CollectionNotFound => [1] | DocumentConflict c h => 2 :: w_bytes c ++ w_header h | DocumentNotFound c i => 3 :: w_bytes c ++ w_bytes i
  | DocumentPush => [4] | KeyError => [5] | IdTooLong => [6] | ViewError v => 7 :: w_verr v | TransactionTooLarge => [8]
  end.
Lemma pf_terr : prefix_free w_terr.
Proof.
  intros [| |c h|c i| | | |v|] [| |c' h'|c' i'| | | |v'|] x y H; cbn [w_terr app] in H; try discriminate H; try (inversion H; auto; fail); injection H as H.
  - rewrite <- !app_assoc in H. apply pf_bytes in H. destruct H as [-> H]. apply pf_header in H. destruct H as [-> ->]. auto.
  - rewrite <- !app_assoc in H. apply pf_bytes in H. destruct H as [-> H]. apply pf_bytes in H. destruct H as [-> ->]. auto.
  - apply pf_verr in H. destruct H as [-> ->]. auto.
Qed.
Definition w_em (e : emission) : list N := w_bytes (em_key e) ++ w_header (em_src e) ++ w_bytes (em_value e).
Lemma pf_em : prefix_free w_em.
Proof. intros [a b c] [a' b' c'] x y H. unfold w_em in H. cbn [em_key em_src em_value] in H. rewrite <- !app_assoc in H. apply pf_bytes in H. destruct H as [-> H]. apply pf_header in H. destruct H as [-> H]. apply pf_bytes in H. destruct H as [-> ->]. auto. Qed.
Definition w_changes (c : changes) : list N := w_list w_bytes (ch_colls c) ++ w_list (w_pair (w_pair w_n w_bytes) w_bool) (ch_docs c).
Lemma pf_changes : prefix_free w_changes.
Proof.
  intros [a b] [a' b'] x y H. unfold w_changes in H. cbn [ch_colls ch_docs] in H. rewrite <- !app_assoc in H. apply (pf_list _ pf_bytes) in H. destruct H as [-> H].
  apply (pf_list _ (pf_pair _ _ (pf_pair _ _ pf_n pf_bytes) pf_bool)) in H. destruct H as [-> ->]. auto.
Qed.
Definition w_out {A} (f : A -> list N) (o : outcome A terr) : list N := match o with Done a => 0 :: f a | Fail e => 1 :: w_terr e | Panic => [2] end.
Lemma pf_out {A} (f : A -> list N) : prefix_free f -> prefix_free (w_out f).
Proof.
  intros F [a|e|] [b|e'|] x y H; cbn [w_out app] in H; try discriminate H; [..|inversion H; auto]; injection H as H; [apply F in H|apply pf_terr in H]; destruct H as [-> ->]; auto.
Qed.
Definition w_response (r : response) : list N :=
  match r with
  | SGet o => 0 :: w_out (w_opt w_doc) o | SList o => 1 :: w_out (w_list w_doc) o | SApply o => 2 :: w_out (w_list w_opres) o
  | SQuery o => 3 :: w_out (w_list w_em) o | SDeleted o => 4 :: w_out w_n o | SLog l => 5 :: w_list (w_pair w_n w_changes) l
  | SMalformed => [6] | SNoView => [7]
  end.
Lemma pf_response : prefix_free w_response.
Proof.
  intros [o|o|o|o|o|l| |] [o'|o'|o'|o'|o'|l'| |] x y H; cbn [w_response app] in H; try discriminate H; try (inversion H; auto; fail); injection H as H;
    [apply (pf_out _ (pf_opt _ pf_doc)) in H|apply (pf_out _ (pf_list _ pf_doc)) in H|apply (pf_out _ (pf_list _ pf_opres)) in H|apply (pf_out _ (pf_list _ pf_em)) in H
    |apply (pf_out _ pf_n) in H|apply (pf_list _ (pf_pair _ _ pf_n pf_changes)) in H]; destruct H as [-> ->]; auto.
Qed.
(* a list of numbers as a number: x ones after each zero *)
Fixpoint as_number (l : list N) : N := match l with [] => 0 | x :: r => 2 ^ x * (2 * as_number r + 1) end.
Lemma pow_odd : forall x y a b, 2 ^ x * (2 * a + 1) = 2 ^ y * (2 * b + 1) -> x = y /\ a = b.
Proof.
  induction x as [|x IH] using N.peano_ind; intros y a b H.
  - destruct (N.zero_or_succ y) as [-> |(z & ->)]; [rewrite N.pow_0_r in H; lia|]. rewrite N.pow_0_r, N.pow_succ_r' in H. exfalso. nia.
  - destruct (N.zero_or_succ y) as [-> |(z & ->)]; [rewrite N.pow_0_r, N.pow_succ_r' in H; exfalso; nia|]. rewrite !N.pow_succ_r', <- !N.mul_assoc in H. apply N.mul_cancel_l in H; [|discriminate].
    apply IH in H. destruct H as [-> ->]. auto.
Qed.
Lemma as_number_inj : forall l m, as_number l = as_number m -> l = m.
Proof.
  induction l as [|x l IH]; intros [|y m] H; cbn [as_number] in H; [reflexivity| | |].
  - exfalso. symmetry in H. apply N.eq_mul_0 in H. destruct H as [H|H]; [apply N.pow_nonzero in H; [exact H|discriminate]|lia].
  - exfalso. apply N.eq_mul_0 in H. destruct H as [H|H]; [apply N.pow_nonzero in H; [exact H|discriminate]|lia].
  - apply pow_odd in H. destruct H as [-> H]. f_equal. apply IH, H.
Qed.
Definition ex_enc (r : response) : N := as_number (w_response r).
Lemma ex_enc_inj : forall x y, ex_enc x = ex_enc y -> x = y.
Proof. intros x y H. apply as_number_inj in H. apply (pf_response x y [] []). rewrite !app_nil_r. exact H. Qed.

(* The clients 5 and 9: 5 inserts a document; then 9 gets it and queries the lazy view;
   then 9 updates it without changing its contents and 5, from the same revision, with
   a change; a third update from that revision is refused; a request is not decodable. *)
Definition ex_req (n : N) : option request :=
  match n with
  | 0 => Some (QApply [mk_op [1] (Insert (Some [5]) [10; 11])]) | 1 => Some (QGet [1] [5]) | 2 => Some (QQuery [7] None true None)
  | 3 => Some (QApply [mk_op [1] (Update ex_h5 [10; 11])]) | 4 => Some (QApply [mk_op [1] (Update ex_h5 [12])]) | 5 => Some (QDeleteDocs [7] (Some (QMatches [12])))
  | 6 => Some (QList [1] Unbounded (Included [5]) true (Some 3)) | 7 => Some (QLog (Some 1) None) | _ => None
  end.
Definition ex_may (o : option N) : session := fun _ _ _ => match o with Some 3 => true | _ => false end.
Definition ex_mayv (o : option N) : vsession := fun _ _ => match o with Some 3 => true | _ => false end.
Notation ex_server := (exec ex_env ex_may ex_mayv ex_req ex_enc).
Notation ex_run h := (sys_run ex_server 16 ws wsc (sys0 2 empty_db) h).
Definition again k se n := [ECall k se n; EClient k ClientWorker.Send].
Definition ex_h1 := [ECall 5 (Some 3) 0] ++ connect 5 ++ serve 0 ++ [EReceive 5].
Definition ex_h2 := [ECall 9 (Some 3) 1] ++ connect 9 ++ serve 2 ++ [EReceive 9] ++ again 9 (Some 3) 2 ++ serve 2 ++ [EReceive 9].
Definition ex_h3 := again 9 (Some 3) 3 ++ serve 2 ++ [EReceive 9] ++ again 5 (Some 3) 4 ++ serve 0 ++ [EReceive 5]
  ++ again 9 (Some 3) 4 ++ serve 2 ++ [EReceive 9] ++ again 9 None 4 ++ serve 2 ++ [EReceive 9] ++ again 5 (Some 3) 8 ++ serve 0 ++ [EReceive 5].
Definition ex_h := ex_h1 ++ ex_h2.
Lemma ex_log : map (fun e => (e_who e, e_req e)) (log (ex_run ex_h)) = [(Some (5, 0), 0); (Some (9, 0), 1); (Some (9, 1), 2)].
Proof. vm_compute. reflexivity. Qed.
Lemma ex_log3 : map (fun e => (e_who e, e_req e)) (log (ex_run (ex_h1 ++ ex_h2 ++ ex_h3))) =
  [(Some (5, 0), 0); (Some (9, 0), 1); (Some (9, 1), 2); (Some (9, 2), 3); (Some (5, 1), 4); (Some (9, 3), 4); (Some (9, 4), 4); (Some (5, 2), 8)].
Proof. vm_compute. reflexivity. Qed.
Definition ex_upd : header := mk_header [5] (mk_rev 1 [9; 12]).
(* the hypotheses of C97_server_state, C97_returned, C97_read_written, C97_query_written,
   C97_query_exact *)
Example C97_example_hypotheses : env_ok ex_env /\ (forall x y, ex_enc x = ex_enc y -> x = y) /\
  (N.of_nat (length (calls_of 9 ex_h)) <= 2 ^ 32)%N /\
  is_call ex_req ex_h1 5 0 (Some 3) (QApply [mk_op [1] (Insert (Some [5]) [10; 11])]) /\
  returned (ex_run ex_h1) 5 0 (ex_enc (SApply (Done [RUpdated [1] ex_h5]))) /\
  (N.to_nat 0 >= length (calls_of 9 ex_h1))%nat /\
  is_call ex_req ex_h 9 0 (Some 3) (QGet [1] (h_id ex_h5)) /\
  returned (ex_run ex_h) 9 0 (ex_enc (SGet (Done (Some (mk_doc ex_h5 [10; 11]))))) /\
  view_named ex_env (vw_name ex_lazy) = Some ex_lazy /\
  is_call ex_req ex_h 9 1 (Some 3) (QQuery (vw_name ex_lazy) None true None) /\
  returned (ex_run ex_h) 9 1 (ex_enc (SQuery (Done [mk_em [10; 11] ex_h5 []]))) /\
  only_writer ex_env ex_may ex_mayv ex_req ex_enc 16 ws wsc 2 ex_h 5 0 [1] (h_id ex_h5).
Proof.
  split; [exact ex_env_ok|]. split; [exact ex_enc_inj|]. split; [vm_compute; discriminate|]. split; [exists 0; vm_compute; auto|].
  split; [vm_compute; auto|]. split; [vm_compute; auto|]. split; [exists 1; vm_compute; auto|]. split; [vm_compute; auto|]. split; [vm_compute; reflexivity|].
  split; [exists 2; vm_compute; auto|]. split; [vm_compute; auto|].
  intros e rq I NW D.  apply (in_map (fun e => (e_who e, e_req e))) in I. rewrite ex_log in I.
  destruct I as [I|[I|[I|[]]]]; injection I as I1 I2; rewrite <- I2 in D; [destruct (NW (eq_sym I1))|..]; cbn in D; inversion D; subst rq; exact (fun x => x).
Qed.
(* the two updates that both succeed: one is the update without a change; the third
   is refused, the fourth is not permitted, and both change nothing *)
Example C97_example_updates : let h := ex_h1 ++ ex_h2 ++ ex_h3 in
  is_call ex_req h 9 2 (Some 3) (QApply [mk_op [1] (Update ex_h5 [10; 11])]) /\ returned (ex_run h) 9 2 (ex_enc (SApply (Done [RUpdated [1] ex_h5]))) /\
  is_call ex_req h 5 1 (Some 3) (QApply [mk_op [1] (Update ex_h5 [12])]) /\ returned (ex_run h) 5 1 (ex_enc (SApply (Done [RUpdated [1] ex_upd]))) /\
  never_deleted ex_env ex_may ex_mayv ex_req ex_enc 16 ws wsc 2 h [1] (h_id ex_h5) /\
  is_call ex_req h 9 3 (Some 3) (QApply [mk_op [1] (Update ex_h5 [12])]) /\ returned (ex_run h) 9 3 (ex_enc (SApply (Fail (DocumentConflict [1] ex_upd)))) /\
  returned (ex_run h) 9 4 (ex_enc (SApply (Fail PermissionDenied))) /\ returned (ex_run h) 5 2 (ex_enc SMalformed) /\
  doc_at (db (ex_run h)) [1] [5] = Some (mk_doc ex_upd [12]).
Proof.
  cbv zeta. split; [exists 3; vm_compute; auto|]. split; [vm_compute; auto|]. split; [exists 4; vm_compute; auto|]. split; [vm_compute; auto|].
  split.
  { intros e rq I D.  apply (in_map (fun e => (e_who e, e_req e))) in I. rewrite ex_log3 in I.
    repeat (destruct I as [I|I]; [injection I as I1 I2; rewrite <- I2 in D; cbn in D; inversion D; subst rq; cbn [deletes_doc]; try exact (fun x => x); intros X; apply Exists_exists in X; destruct X as (o & [<-|[]] & (_ & h & X & _)); discriminate X|]). destruct I. }
  split; [exists 4; vm_compute; auto 10|]. split; [vm_compute; auto 10|]. split; [vm_compute; auto 10|]. split; [vm_compute; auto 10|]. vm_compute. reflexivity.
Qed.
(* the hypotheses of C97_list_exact, C97_log_exact and C97_delete_exact *)
Definition ex_h4 := again 5 (Some 3) 6 ++ serve 0 ++ [EReceive 5] ++ again 9 (Some 3) 5 ++ serve 2 ++ [EReceive 9] ++ again 9 (Some 3) 7 ++ serve 2 ++ [EReceive 9].
Example C97_example_more : let h := ex_h1 ++ ex_h2 ++ ex_h3 ++ ex_h4 in
  is_call ex_req h 5 3 (Some 3) (QList [1] Unbounded (Included [5]) true (Some 3)) /\ returned (ex_run h) 5 3 (ex_enc (SList (Done [mk_doc ex_upd [12]]))) /\
  view_named ex_env (vw_name ex_lazy) = Some ex_lazy /\ distinct (Some (QMatches [12])) /\
  is_call ex_req h 9 5 (Some 3) (QDeleteDocs (vw_name ex_lazy) (Some (QMatches [12]))) /\ returned (ex_run h) 9 5 (ex_enc (SDeleted (Done 1))) /\
  doc_at (db (ex_run h)) [1] [5] = None /\
  is_call ex_req h 9 6 (Some 3) (QLog (Some 1) None) /\
  returned (ex_run h) 9 6 (ex_enc (SLog (doc_changes (db_log (db (ex_run h)))))) /\ length (doc_changes (db_log (db (ex_run h)))) = 4%nat.
Proof.
  cbv zeta. split; [exists 6; vm_compute; auto|]. split; [vm_compute; auto 10|]. split; [vm_compute; reflexivity|]. split; [exact Logic.I|]. split; [exists 5; vm_compute; auto|].
  split; [vm_compute; auto 10|]. split; [vm_compute; reflexivity|]. split; [exists 7; vm_compute; auto|]. split; [vm_compute; auto 10|]. vm_compute. reflexivity.
Qed.

Print Assumptions C97_server_state.
Print Assumptions C97_returned.
Print Assumptions C97_read_written.
Print Assumptions C97_query_written.
Print Assumptions C97_query_exact.
Print Assumptions C97_delete_exact.
Print Assumptions C97_get_exact.
Print Assumptions C97_list_exact.
Print Assumptions C97_log_exact.
Print Assumptions C97_no_lost_update.
Print Assumptions C97_malformed.
Print Assumptions C97_apply_exact.
Print Assumptions C97_refused_changes_nothing.
