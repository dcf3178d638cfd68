(* C63: a client's requests over one connection.

   A history is any list of events: calls by the application, sends, failures,
   responses with arbitrary ids and values, disconnections, in any order.
   `calls h` is the number of requests issued in it, requests are numbered from 0,
   request c carries the id `c mod 2^32`, and `wire t init [] h` lists the requests
   written to the connection that is current after h. *)
From Coq Require Import List NArith Bool Lia.
From Verif Require Import ClientWorker ClientWorkerProofs.
Import ListNotations.
Open Scope N_scope.

(* Every issued request is at any time either still held by the client (queued, being
   connected for, or outstanding) or has exactly one result; never both, never neither,
   and nothing else has a result. *)
Theorem C63_one_result : forall t h,
  NoDup (map fst (results (run t init h))) /\
  (forall c, c < calls h <->
     held (run t init h) c \/ In c (map fst (results (run t init h)))) /\
  (forall c, held (run t init h) c -> ~ In c (map fst (results (run t init h)))).
Proof.
  intros t h. split; [apply results_nodup|split].
  - intros c. apply held_or_result.
  - intros c. apply held_not_result.
Qed.

(* A result is final. *)
Theorem C63_results_final : forall t h h', exists later,
  results (run t init (h ++ h')) = results (run t init h) ++ later.
Proof. intros. rewrite run_app. apply results_grow. Qed.

(* Whatever the server sends, an answer handed to a request is the value of a response
   that carried its id and arrived on the connection that request was written to, after
   it was written. *)
Theorem C63_answer_origin : forall t h c v,
  In (c, Answer v) (results (run t init h)) ->
  exists h1 h2, h = h1 ++ Response (c mod 4294967296) v :: h2 /\ In c (wire t init [] h1).
Proof. intros t h c v. apply answer_origin. Qed.

(* If the server answers a request it received on the connection, with that request's id
   and answer, then every answer handed out is the answer to the very request, as long as
   at most 2^32 requests are issued. *)
Theorem C63_right_answer : forall t h (answer : N -> N),
  calls h <= 4294967296 ->
  (forall h1 i v h2, h = h1 ++ Response i v :: h2 ->
     exists c, In c (wire t init [] h1) /\ c mod 4294967296 = i /\ v = answer c) ->
  forall c v, In (c, Answer v) (results (run t init h)) -> v = answer c.
Proof. exact right_answer. Qed.

(* A response to a request of the current connection is handed to it, unless it already
   has a result (or the worker is in the window of C63_early_response_refuted). *)
Theorem C63_response_delivered : forall t h c v,
  calls h <= 4294967296 ->
  ph (run t init h) = Connected -> In c (wire t init [] h) ->
  In c (map fst (results (run t init (h ++ [Response (c mod 4294967296) v])))) /\
  (~ In c (map fst (results (run t init h))) ->
   In (c, Answer v) (results (run t init (h ++ [Response (c mod 4294967296) v])))).
Proof. exact answered_live. Qed.

(* When the connection fails, every outstanding request gets an error, nothing stays
   outstanding, and the failure itself is reported once: to one of them, or, if there is
   none, to the next request. *)
Theorem C63_disconnect : forall t h e,
  ph (run t init h) = Connected ->
  let w := run t init h in let w' := run t init (h ++ [Disconnect e]) in
  outstanding w' = [] /\
  (forall i c, In (i, c) (outstanding w) -> exists e', In (c, Failed e') (results w')) /\
  ((exists i c, In (i, c) (outstanding w) /\ In (c, Failed e) (results w')) /\ pending w' = None \/
   (outstanding w = [] /\ pending w' = Some e)).
Proof.
  intros t h e P w w'. unfold w'. rewrite run_app. cbn [run step]. rewrite P. fold w.
  split; [apply disconnect_out|]. unfold disconnect.
  pose proof (drain_failed e (outstanding w)) as F.
  destruct (drain e (outstanding w)) as [rs p] eqn:D. cbn [results pending fst] in *. split.
  - intros i c H. destruct (F i c H) as [e' X]. exists e'. apply in_or_app. auto.
  - destruct (outstanding w) as [|[i c] m]; cbn [drain] in D; inversion D; subst.
    + right. auto.
    + left. split; [|reflexivity]. exists i, c. split; [left; reflexivity|]. apply in_or_app. right. left. reflexivity.
Qed.

(* The same when writing a request fails; that request sees its channel closed. *)
Theorem C63_send_failure : forall t h e c q,
  ph (run t init h) = Connected -> queue (run t init h) = c :: q ->
  let w := run t init h in let w' := run t init (h ++ [SendFail e]) in
  outstanding w' = [] /\ In (c, Gone) (results w') /\
  (forall i d, In (i, d) (outstanding w) -> exists e', In (d, Failed e') (results w')) /\
  pending w' = (match outstanding w with [] => Some e | _ => None end).
Proof.
  intros t h e c q P Q w w'. unfold w'. rewrite run_app. cbn [run step]. rewrite P, Q. fold w.
  split; [apply disconnect_out|]. unfold disconnect. cbn [outstanding results queue issued].
  pose proof (drain_failed e (outstanding w)) as F.
  destruct (drain e (outstanding w)) as [rs p] eqn:D. cbn [results fst] in *. split.
  - apply in_or_app. left. apply in_or_app. right. left. reflexivity.
  - split; [intros i d H; destruct (F i d H) as [e' X]; exists e'; apply in_or_app; auto|].
    cbn [pending]. destruct (outstanding w) as [|[i d] m]; cbn [drain] in D; inversion D; reflexivity.
Qed.

(* A request is only handed an error it did not cause itself once: the remembered error
   of a lost connection is given to one request, and the next one connects again. *)
Theorem C63_error_replayed_once : forall t h c q e,
  ph (run t init h) = Idle -> queue (run t init h) = c :: q -> pending (run t init h) = Some e ->
  let w' := run t init (h ++ [Take]) in
  results w' = results (run t init h) ++ [(c, Failed e)] /\ pending w' = None /\ ph w' = Idle.
Proof.
  intros t h c q e P Q E w'. unfold w'. rewrite run_app. cbn [run step]. rewrite P, Q, E. cbn. auto.
Qed.

(* FINDING: over QUIC the first request of a connection is written before it is entered in
   the map that responses are looked up in (quic_worker.rs:86-101), while the task that
   processes responses already runs.  A response processed in between is dropped, and as
   long as the connection lives and the server does not repeat itself, no further event
   gives the request a result: the caller waits until its timeout. *)
Theorem C63_early_response_refuted : forall v h,
  (forall ev, In ev h -> match ev with
     | Disconnect _ | SendFail _ => False | Response i _ => i <> 0 | _ => True end) ->
  calls h < 4294967295 ->
  ~ In 0 (map fst (results (run Quic init
      ([Call; Take; FirstSend; Response 0 v; Register] ++ h)))).
Proof.
  intros v h H B. rewrite run_app.
  set (w0 := run Quic init [Call; Take; FirstSend; Response 0 v; Register]).
  (* the request stays outstanding under its id *)
  assert (G : forall l w,
    (forall ev, In ev l -> match ev with
       | Disconnect _ | SendFail _ => False | Response i _ => i <> 0 | _ => True end) ->
    ph w = Connected -> In (0, 0) (outstanding w) -> keyed w (0 :: 
       map (fun x => snd x) (outstanding w)) ->
    (forall c, In c (queue w) -> 0 < c) -> (forall c, In c (queue w) -> c < issued w) -> 0 < issued w ->
    issued w + calls l <= 4294967296 ->
    In (0, 0) (outstanding (run Quic w l))).
  { induction l as [|ev l IH]; intros w A P O K Q1 Q2 I1 I2; [exact O|].
    cbn [run]. assert (A' : forall e, In e l -> match e with
       | Disconnect _ | SendFail _ => False | Response i _ => i <> 0 | _ => True end) by (intros; apply A; right; assumption).
    specialize (A ev (or_introl eq_refl)).
    assert (CL : calls (ev :: l) = (match ev with Call => 1 | _ => 0 end) + calls l).
    { unfold calls. cbn [filter]. destruct ev; cbn [length]; lia. }
    rewrite CL in I2. destruct ev; cbn [step]; rewrite ?P; try (apply IH; auto; lia); try contradiction.
    - apply IH; cbn [ph outstanding queue issued]; auto; try lia.
      + intros c C. apply in_app_or in C. destruct C as [C|[C|[]]]; [auto|subst; lia].
      + intros c C. apply in_app_or in C. destruct C as [C|[C|[]]]; [specialize (Q2 _ C); lia|subst; lia].
    - destruct (queue w) as [|c q] eqn:Q; [apply IH; auto; try (rewrite Q; auto); lia|].
      assert (c < 4294967296) by (specialize (Q2 c (or_introl eq_refl)); lia).
      assert (0 < c) by (apply Q1; left; reflexivity).
      assert (W : wire_id c = c) by (unfold wire_id; apply N.mod_small; assumption).
      assert (Z : In (0, 0) (outstanding (insert c (mkW (issued w) q Connected (outstanding w) (pending w) (results w))))).
      { unfold insert. cbn [outstanding].
        destruct (take_id (wire_id c) (outstanding w)) as [[old r]|] eqn:T; cbn [outstanding].
        - right. pose proof (Permutation.Permutation_in _ (take_id_perm _ _ _ _ T) O) as X.
          destruct X as [X|X]; [inversion X; subst; lia|exact X].
        - right. exact O. }
      apply IH; auto.
      + rewrite insert_ph. reflexivity.
      + intros i d D. split; [|right; apply (in_map snd _ _ D)].
        assert (K' : keyed (mkW (issued w) q Connected (outstanding w) (pending w) (results w)) (0 :: map (fun x => snd x) (outstanding w))) by exact K.
        destruct (keyed_insert c _ _ K' i d D) as [D1 _]. exact D1.
      + unfold insert. destruct take_id as [[? ?]|]; cbn [queue]; intros; apply Q1; right; assumption.
      + rewrite insert_issued. cbn [issued]. unfold insert. destruct take_id as [[? ?]|]; cbn [queue]; intros; apply Q2; right; assumption.
      + rewrite insert_issued. cbn [issued]. lia.
      + rewrite insert_issued. cbn [issued]. lia.
    - destruct (take_id i (outstanding w)) as [[c r]|] eqn:T; [|apply IH; auto; lia].
      apply IH; cbn [ph outstanding queue issued]; auto; try lia.
      + pose proof (Permutation.Permutation_in _ (take_id_perm _ _ _ _ T) O) as X.
        destruct X as [X|X]; [inversion X; subst; congruence|exact X].
      + intros j d D. split; [|right; apply (in_map snd _ _ D)].
        destruct (K j d) as [E1 _]; [|exact E1].
        eapply Permutation.Permutation_in; [apply Permutation.Permutation_sym, (take_id_perm _ _ _ _ T)|right; exact D]. }
  assert (X : In (0, 0) (outstanding (run Quic w0 h))).
  { apply G; auto.
    - left. reflexivity.
    - intros i c [D|[]]. inversion D; subst. split; [reflexivity|left; reflexivity].
    - intros c [].
    - intros c [].
    - reflexivity.
    - change (issued w0) with 1. lia. }
  intros R.
  apply (held_not_result Quic ([Call; Take; FirstSend; Response 0 v; Register] ++ h) 0).
  - right. right. right. rewrite run_app. fold w0. apply (in_map snd _ _ X).
  - rewrite run_app. fold w0. exact R.
Qed.

(* FINDING: after a connection was lost while nothing was outstanding, the next request,
   issued later, is failed with that old error without any attempt to reach the server
   (both transports). *)
Theorem C63_stale_error_refuted : forall v e,
  let h := [Call; Take; FirstSend; Register; Response 0 v; Disconnect e] in
  results (run Quic init (h ++ [Call; Take])) = [(0, Answer v); (1, Failed e)] /\
  ~ In 1 (wire Quic init [] (h ++ [Call; Take])).
Proof. intros v e h. split; [reflexivity|]. cbn. intuition discriminate. Qed.

(* FINDING: a websocket that is closed without an error leaves the outstanding requests
   without a result however long one waits, until a later request is written. *)
Theorem C63_websocket_close_refuted : forall n h,
  (forall ev, In ev h -> match ev with Send | SendFail _ => False | _ => True end) ->
  results (run WebSocket init ([Call; Take; FirstSend; Close] ++ repeat Call n ++ h)) = [].
Proof.
  intros n h H. rewrite !run_app.
  assert (G : forall l w, (forall ev, In ev l -> match ev with Send | SendFail _ => False | _ => True end) ->
    ph w = Closed -> results (run WebSocket w l) = results w).
  { induction l as [|ev l IH]; intros w A P; [reflexivity|]. cbn [run].
    assert (A' : forall e, In e l -> match e with Send | SendFail _ => False | _ => True end) by (intros; apply A; right; assumption).
    specialize (A ev (or_introl eq_refl)).
    destruct ev; cbn [step]; rewrite ?P; try (rewrite (IH _ A' P); reflexivity); try contradiction.
    rewrite IH; auto. }
  rewrite <- run_app. rewrite G; [reflexivity| |reflexivity].
  intros ev X. apply in_app_or in X. destruct X as [X|X]; [|apply H; exact X].
  apply repeat_spec in X. subst. exact I.
Qed.

(* FINDING: the id is a u32 that wraps; a request issued 2^32 later takes the map entry of
   one still outstanding, which then sees its channel closed. *)
Theorem C63_id_reuse_refuted : forall w c,
  ph w = Connected -> queue w = [c + 4294967296] -> outstanding w = [(wire_id c, c)] ->
  results (step Quic w Send) = results w ++ [(c, Gone)].
Proof.
  intros w c P Q O. cbn [step]. rewrite P, Q. unfold insert. cbn [outstanding]. rewrite O.
  assert (E : wire_id (c + 4294967296) = wire_id c).
  { unfold wire_id. replace (c + 4294967296) with (c + 1 * 4294967296) by lia.
    apply N.mod_add. discriminate. }
  cbn [take_id]. rewrite E, N.eqb_refl. reflexivity.
Qed.

(* Concrete histories that meet the hypotheses: two requests answered out of order, a third
   one lost with the connection, a fourth failed with the remembered error or connected
   again. *)
Definition h_ex : list event :=
  [Call; Call; Call; Take; FirstSend; Register; Send; Response 1 11; Response 0 10; Send].
Example C63_ex :
  results (run Quic init h_ex) = [(1, Answer 11); (0, Answer 10)] /\
  ph (run Quic init h_ex) = Connected /\ wire Quic init [] h_ex = [0; 1; 2] /\
  results (run Quic init (h_ex ++ [Disconnect 7; Call; Take])) =
    [(1, Answer 11); (0, Answer 10); (2, Failed 7)] /\
  ph (run Quic init (h_ex ++ [Disconnect 7; Call; Take])) = Connecting 3 /\
  held (run Quic init h_ex) 2 /\
  results (run Quic init (h_ex ++ [Call; SendFail 5])) =
    [(1, Answer 11); (0, Answer 10); (3, Gone); (2, Failed 5)] /\
  results (run WebSocket init (h_ex ++ [Disconnect 7])) =
    [(1, Answer 11); (0, Answer 10); (2, Failed 7)].
Proof. repeat split; try reflexivity. right. right. right. left. reflexivity. Qed.

Print Assumptions C63_one_result.
Print Assumptions C63_results_final.
Print Assumptions C63_answer_origin.
Print Assumptions C63_right_answer.
Print Assumptions C63_response_delivered.
Print Assumptions C63_disconnect.
Print Assumptions C63_send_failure.
Print Assumptions C63_error_replayed_once.
Print Assumptions C63_early_response_refuted.
Print Assumptions C63_stale_error_refuted.
Print Assumptions C63_websocket_close_refuted.
Print Assumptions C63_id_reuse_refuted.
