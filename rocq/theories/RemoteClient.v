(* Facts about single steps of a client's worker used for the end-to-end model. *)
From Coq Require Import List NArith Bool Lia Permutation ZifyBool.
From Verif Require Import ClientWorker ClientWorkerProofs.
From Verif Require Remote.
Import ListNotations.
Open Scope N_scope.

(* issued, but not written to any connection yet *)
Definition fresh (c : call) (w : worker) : Prop := In c (queue w) \/ ph w = Connecting c.
Definition external (ev : event) : bool := match ev with Call | Response _ _ => false | _ => true end.
Lemma insert_queue c w : queue (insert c w) = queue w.
Proof. unfold insert. destruct take_id as [[]|]; reflexivity. Qed.
Lemma disconnect_queue e w : queue (disconnect e w) = queue w.
Proof. unfold disconnect. destruct drain; reflexivity. Qed.
Lemma fresh_step t w ev c : fresh c (step t w ev) -> fresh c w \/ (ev = Call /\ c = issued w).
Proof.
  unfold fresh. destruct ev; cbn [step].
  - cbn [queue ph]. rewrite in_app_iff. cbn [In]. intros [[H|[H|[]]]|H]; auto.
  - destruct (ph w) eqn:P; try (rewrite P; tauto). destruct (queue w) eqn:Q; [rewrite P, Q; tauto|]. destruct (pending w); cbn [queue ph]; intros [H|H]; try discriminate; cbn [In]; auto. injection H as ->. auto.
  - destruct (ph w) eqn:P; try (rewrite P; tauto). cbn [queue ph]. intros [H|H]; [auto|discriminate].
  - destruct (ph w) eqn:P; try (rewrite P; tauto). cbn [queue ph]. intros [H|H]; [auto|discriminate].
  - destruct (ph w) eqn:P; try (rewrite P; tauto). destruct t; [|rewrite insert_queue, insert_ph]; cbn [queue ph]; intros [H|H]; try discriminate; auto.
  - destruct (ph w) eqn:P; try (rewrite P; tauto). rewrite insert_queue, insert_ph; cbn [queue ph]; intros [H|H]; try discriminate; auto.
  - destruct (ph w) eqn:P; try (rewrite P; tauto); (destruct (queue w) eqn:Q; [rewrite P, Q; tauto|]); rewrite insert_queue, insert_ph; cbn [queue ph]; intros [H|H]; try discriminate; cbn [In]; auto.
  - destruct (ph w) eqn:P; try (rewrite P; tauto); (destruct (queue w) eqn:Q; [rewrite P, Q; tauto|]); rewrite disconnect_queue, disconnect_ph; cbn [queue ph]; intros [H|H]; try discriminate; cbn [In]; auto.
  - destruct (ph w) eqn:P; try (rewrite P; tauto); (destruct (take_id _ _) as [[]|]; [|rewrite P; tauto]); cbn [queue ph]; intros [H|H]; try discriminate; auto.
  - destruct (ph w) eqn:P; try (rewrite P; tauto). rewrite disconnect_queue, disconnect_ph. intros [H|H]; [auto|discriminate].
  - destruct t; [tauto|]. destruct (ph w) eqn:P; try (rewrite P; tauto). cbn [queue ph]. intros [H|H]; [auto|discriminate].
Qed.
Lemma fresh_lt w c : once w -> fresh c w -> c < issued w.
Proof.
  intros O [H|H]; specialize (O c); unfold total in O.
  - apply in_cnt in H. destruct (c <? issued w) eqn:E; lia.
  - rewrite H in O. cbn [in_hand cnt count_occ] in O. unfold cnt in O. cbn [count_occ] in O. destruct (N.eq_dec c c); [|congruence]. destruct (c <? issued w) eqn:E; lia.
Qed.
(* a call that is outstanding, sent or has a result is not fresh *)
Definition used (c : call) (w : worker) : Prop := ph w = Sent c \/ In c (map snd (outstanding w)) \/ In c (map fst (results w)).
Lemma used_not_fresh w c : once w -> used c w -> ~ fresh c w.
Proof.
  intros O U F. specialize (O c). unfold total in O.
  assert (A : (1 <= cnt c (queue w) + cnt c (in_hand (ph w)))%nat /\ (2 <= cnt c (queue w) + cnt c (in_hand (ph w)) + cnt c (map snd (outstanding w)) + cnt c (map fst (results w)))%nat).
  { assert (X : forall l, In c l -> (1 <= cnt c l)%nat) by (intros l I; apply in_cnt in I; lia).
    assert (Y : cnt c [c] = 1%nat) by (unfold cnt; cbn [count_occ]; destruct (N.eq_dec c c); congruence).
    destruct F as [F|F]; [apply X in F|rewrite F in *; cbn [in_hand] in *]; (destruct U as [U|[U|U]]; [rewrite U in *; cbn [in_hand] in *; try discriminate|apply X in U|apply X in U]); try lia. }
  destruct (c <? issued w); lia.
Qed.
Lemma in_insert c w : In c (map snd (outstanding (insert c w))).
Proof. unfold insert. destruct take_id as [[]|]; left; reflexivity. Qed.
Lemma writes_fresh t w ev b c : quiet w -> once w -> Remote.writes w ev = Some (b, c) -> fresh c w /\ ~ fresh c (step t w ev).
Proof.
  intros Q O W. assert (O' := once_step t w ev Q O).
  assert (U : fresh c w /\ used c (step t w ev)).
  { unfold Remote.writes in W. destruct ev; try discriminate.
    - destruct (ph w) eqn:P; try discriminate. injection W as <- <-. split; [right; exact P|]. cbn [step]. rewrite P. right. right. cbn [results]. rewrite map_app, in_app_iff. cbn. auto.
    - destruct (ph w) eqn:P; try discriminate. injection W as <- <-. split; [right; exact P|]. cbn [step]. rewrite P. destruct t; [left; reflexivity|]. right. left. apply in_insert.
    - destruct (ph w) eqn:P; try discriminate; (destruct (queue w) as [|d r] eqn:Qu; [discriminate|]); injection W as <- <-; (split; [left; rewrite Qu; left; reflexivity|]); cbn [step]; rewrite P, Qu; right; left; apply in_insert.
    - assert (DR : forall e w0, results (disconnect e w0) = results w0 ++ fst (drain e (outstanding w0))) by (intros e0 w0; unfold disconnect; destruct drain; reflexivity).
      destruct (ph w) eqn:P; try discriminate; (destruct (queue w) as [|d r] eqn:Qu; [discriminate|]); injection W as <- <-; (split; [left; rewrite Qu; left; reflexivity|]); cbn [step]; rewrite P, Qu; right; right; rewrite DR; cbn [results]; rewrite !map_app, !in_app_iff; cbn; auto. }
  split; [apply U|]. apply used_not_fresh; [exact O'|apply U].
Qed.
(* the worker keeps a connection exactly in the phases Sent, Connected and Closed *)
Definition online (w : worker) : Prop := match ph w with Sent _ | Connected | Closed => True | _ => False end.
Lemma online_step t w ev : online (step t w ev) -> (exists c, Remote.writes w ev = Some (true, c)) \/ (online w /\ forall c, Remote.writes w ev <> Some (true, c)).
Proof.
  unfold online, Remote.writes. destruct ev; cbn [step]; destruct (ph w) eqn:P; rewrite ?P; cbn [ph]; rewrite ?P; try tauto;
  try (intros _; left; eexists; reflexivity);
  try (intros _; right; split; [exact I|intros c0; destruct (queue w); discriminate]).
  - destruct (queue w); [rewrite P; tauto|]. destruct (pending w); cbn [ph]; tauto.
  - destruct t; rewrite ?P; tauto.
  - destruct t; rewrite ?P; tauto.
Qed.
