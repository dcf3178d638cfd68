(* Property theorems C19 to C26 and C59: documents, transactions and the log.
   [reach E s]: s is a state some history of transactions, mapper runs and rebuilds
   of views can lead to. [does] and [does_all] (DocsSpec.v) say what each operation
   means on a map from collections and ids to documents. *)
From Verif Require Import Base Key KeyPrefix DocId Tree View ViewProofs ViewMap Docs DocsProofs DocsSpec DocsMore DocsHist.
From Coq Require Import Sorting.Sorted Sorting.Permutation.
Local Open Scope N_scope.

(* an example schema: one collection [1] with u8 ids, a lazy view [7] of the
   contents and a unique view [8] of the first byte *)
Definition ex_hash (b : bytes) : bytes := 9 :: b.
Definition ex_reduce : list (bytes * bytes) -> outcome bytes verr := fun _ => Fail ReduceUnimplemented.
Definition ex_lazy : view := mk_view [7] [1] (mk_vdef Lazy (fun d => Some [(d_contents d, [])]) ex_reduce ex_reduce).
Definition ex_unique : view := mk_view [8] [1] (mk_vdef Unique (fun d => Some [(firstn 1 (d_contents d), [])]) ex_reduce ex_reduce).
Definition ex_env : env := mk_env ex_hash (fun c => if bytes_eqb c [1] then Some (TU 1) else None) [ex_lazy; ex_unique].
Lemma ex_env_ok : env_ok ex_env.
Proof. unfold env_ok. cbn. repeat constructor; cbn; intuition discriminate. Qed.
Definition ex_ops1 : list operation := [mk_op [1] (Insert (Some [5]) [10; 11]); mk_op [1] (Insert None [20])].
Definition ex_s1 : dbstate := fst (apply_transaction ex_env everyone empty_db ex_ops1).
Definition ex_h5 : header := mk_header [5] (mk_rev 0 [9; 10; 11]).
Definition ex_h6 : header := mk_header [6] (mk_rev 0 [9; 20]).
Lemma ex_reach1 : reach ex_env ex_s1. Proof. apply reach_tx, reach_init. Qed.

(* C19 *)
Theorem C19_all_or_nothing : forall E p s ops s' o,
  env_ok E -> reach E s -> apply_transaction E p s ops = (s', o) ->
  (exists rs, o = Done rs /\ does_all (ev_hash E) (docs_of s) ops (docs_of s') rs /\
     (exists t ch, db_log s' = db_log s ++ [(t, Some ch)]) /\
     forall v, In v (ev_views E) -> vd_policy (vw_def v) = Lazy -> forall id,
       pending s' v id <-> pending s v id \/ exists del, In (vw_coll v, id, del) (flat_map res_change rs)) \/
  ((forall rs, o <> Done rs) /\ s' = s).
Proof.
  intros E p s ops s' o EO R H. pose proof (reach_ok _ _ EO R) as OK. destruct o as [rs|e|].
  - left. exists rs. split; [reflexivity|]. split; [eapply apply_does; eassumption|]. split.
    + apply apply_success in H. destruct H as (w & ch & _ & _ & _ & _ & L). eauto.
    + intros v I L. eapply apply_pending; eassumption.
  - right. split; [discriminate|]. apply apply_cases in H.
    destruct H as [(rs & ? & ? & ? & X & _)|[-> _]]; [discriminate X|reflexivity].
  - right. split; [discriminate|]. apply apply_cases in H.
    destruct H as [(rs & ? & ? & ? & X & _)|[-> _]]; [discriminate X|reflexivity].
Qed.
(* a failing transaction fails with the error of its first failing operation *)
Theorem C19_first_error : forall E p s ops e,
  forallb (op_allowed p) ops = true -> colls_defined E ops = true ->
  (apply_transaction E p s ops = (s, Fail e) <->
   exists pre o post s1 rs, ops = pre ++ o :: post /\ apply_transaction E p s pre = (s1, Done rs) /\
     apply_transaction E p s (pre ++ [o]) = (s, Fail e)).
Proof. exact first_error_iff. Qed.
(* the third operation conflicts: nothing of the transaction remains *)
Example C19_ex :
  let ops := [mk_op [1] (Delete ex_h5); mk_op [1] (Insert None [30]); mk_op [1] (Insert (Some [6]) [40])] in
  apply_transaction ex_env everyone ex_s1 ops = (ex_s1, Fail (DocumentConflict [1] ex_h6)) /\
  snd (apply_transaction ex_env everyone ex_s1 (firstn 2 ops)) =
    Done [RDeleted [1] [5]; RUpdated [1] (mk_header [7] (mk_rev 0 [9; 30]))] /\
  forallb (op_allowed everyone) ops = true /\ colls_defined ex_env ops = true.
Proof. vm_compute. auto. Qed.

(* C20 *)
(* the revision of an update or delete that succeeds, alone or within a transaction,
   is the current one at that moment *)
Theorem C20_only_current_revision : forall E p s pre c cmd h post s' rs,
  env_ok E -> reach E s -> (exists contents, cmd = Update h contents) \/ cmd = Delete h ->
  apply_transaction E p s (pre ++ mk_op c cmd :: post) = (s', Done rs) ->
  exists s1 rs1 d, apply_transaction E p s pre = (s1, Done rs1) /\ doc_at s1 c (h_id h) = Some d /\ rev_of d = h_rev h.
Proof.
  intros E p s pre c cmd h post s' rs EO R C H.
  destruct (apply_split _ _ _ _ _ _ _ _ EO (reach_ok _ _ EO R) H) as (s1 & rs1 & m & r & A & D). cbn [op_coll op_cmd] in D.
  exists s1, rs1. destruct C as [[contents ->]| ->].
  - inversion D; subst; eauto.
  - inversion D; subst. eauto.
Qed.
Theorem C20_stale_conflicts : forall E p s c h cmd d,
  env_ok E -> reach E s -> (exists contents, cmd = Update h contents) \/ cmd = Delete h ->
  op_allowed p (mk_op c cmd) = true -> ev_pk E c <> None ->
  doc_at s c (h_id h) = Some d -> rev_of d <> h_rev h ->
  exists h', apply_transaction E p s [mk_op c cmd] = (s, Fail (DocumentConflict c h')).
Proof.
  intros E p s c h cmd d EO R C P D G N. destruct C as [[contents ->]| ->].
  - exists (d_header d). apply single_fail; [exact P|exact D|]. apply refused_exec. apply refused_update; assumption.
  - exists h. apply single_fail; [exact P|exact D|]. apply refused_exec. eapply refused_delete; [exact G|].
    intros X. apply N. unfold rev_of. rewrite X. reflexivity.
Qed.
(* Two clients read the same revision. Whatever happens in between, once the first
   client's update changed the document, the second one gets a conflict. Holds as
   long as the document is not deleted: see below. *)
Theorem C20_no_lost_update : forall E p q s0 c i d h1 a s2 rs h2 cmd,
  env_ok E -> reach E s0 -> doc_at s0 c i = Some d ->
  Forall (tx_keeps c i) h1 -> Forall (tx_keeps c i) h2 ->
  apply_transaction E p (run E s0 h1) [mk_op c (Update (d_header d) a)] = (s2, Done rs) ->
  doc_at s2 c i <> doc_at (run E s0 h1) c i ->
  (exists b, cmd = Update (d_header d) b) \/ cmd = Delete (d_header d) -> op_allowed q (mk_op c cmd) = true ->
  let s3 := run E s2 h2 in
  exists h', apply_transaction E q s3 [mk_op c cmd] = (s3, Fail (DocumentConflict c h')).
Proof.
  intros E p q s0 c i d h1 a s2 rs h2 cmd EO R G F1 F2 A CH C Q s3.
  pose proof (reach_ok _ _ EO R) as OK0. pose proof (run_reach E h1 s0 R) as R1. pose proof (reach_ok _ _ EO R1) as OK1.
  assert (HI : h_id (d_header d) = i). { apply (proj1 OK0 c). exact G. }
  destruct (run_later E h1 EO s0 c i d OK0 F1 G) as (d1 & G1 & L1).
  assert (R2 : reach E s2). { change s2 with (fst (s2, Done rs : outcome (list opres) terr)). rewrite <- A. apply reach_tx, R1. }
  pose proof (apply_does _ _ _ _ _ _ EO OK1 A) as D.
  inversion D as [|? ? ? ? ? ? ? ? DO SM DA]; subst. inversion DA as [? ? SE|]; subst. cbn [op_coll op_cmd] in DO.
  assert (X : exists d2, doc_at s2 c (h_id (d_header d)) = Some d2 /\ later d d2 /\ d2 <> d).
  { assert (GG : forall m, same_docs m m1' -> doc_at s2 c (h_id (d_header d)) = m c (h_id (d_header d))).
    { intros m S. change (doc_at s2) with (docs_of s2). rewrite <- SE. symmetry. apply S. }
    inversion DO; subst.
    - eexists. split; [rewrite (GG _ SM); apply put_same|]. split.
      + left. unfold rev_of. cbn. lia.
      + intros Y. apply (f_equal rev_of) in Y. unfold rev_of in Y. cbn in Y.
        apply (f_equal r_id) in Y. cbn in Y. lia.
    - exfalso. apply CH. rewrite (GG _ SM). unfold docs_of. reflexivity. }
  destruct X as (d2 & G2 & L2 & N2).
  destruct (run_later E h2 EO s2 c (h_id (d_header d)) d2 (reach_ok _ _ EO R2) F2 G2) as (d3 & G3 & L3).
  assert (PK : ev_pk E c <> None).
  { apply run_of_apply in A. destruct A as (_ & CD & _). unfold colls_defined in CD. cbn in CD.
    destruct (ev_pk E c); [discriminate|rewrite andb_false_l in CD; discriminate]. }
  eapply C20_stale_conflicts; try eassumption.
  - unfold s3. apply run_reach, R2.
  - intros Y. destruct L2 as [L2|L2]; [|congruence]. assert (L : r_id (rev_of d) < r_id (rev_of d3)).
    { destruct L3 as [L3| <-]; lia. }
    rewrite Y in L. unfold rev_of in L. lia.
Qed.
(* With a deletion in between, a stale revision is accepted: the document was
   deleted and inserted again with its first contents, then the old revision is
   current again although the document was changed since *)
Theorem C20_delete_reinsert_refuted : exists E s0 h c i d cmd, env_ok E /\ reach E s0 /\ doc_at s0 c i = Some d /\
  cmd = Update (d_header d) [13] /\
  exists s1 s2 rs1 rs2,
    apply_transaction E everyone s0 [mk_op c (Update (d_header d) [12])] = (s1, Done rs1) /\
    doc_at s1 c i <> doc_at s0 c i /\
    apply_transaction E everyone (run E s1 h) [mk_op c cmd] = (s2, Done rs2).
Proof.
  exists ex_env, ex_s1, [(everyone, [mk_op [1] (Delete (mk_header [5] (mk_rev 1 [9; 12])))]); (everyone, [mk_op [1] (Insert (Some [5]) [10; 11])])],
    [1], [5], (mk_doc ex_h5 [10; 11]), (Update ex_h5 [13]).
  split; [exact ex_env_ok|]. split; [exact ex_reach1|]. split; [vm_compute; reflexivity|]. split; [reflexivity|].
  eexists. eexists. eexists. eexists. split; [vm_compute; reflexivity|]. split; [vm_compute; discriminate|].
  vm_compute. reflexivity.
Qed.
Example C20_ex : exists s2 rs,
  doc_at ex_s1 [1] [5] = Some (mk_doc ex_h5 [10; 11]) /\
  apply_transaction ex_env everyone ex_s1 [mk_op [1] (Update ex_h5 [12])] = (s2, Done rs) /\
  doc_at s2 [1] [5] <> doc_at ex_s1 [1] [5] /\
  tx_keeps [1] [5] (everyone, [mk_op [1] (Delete ex_h6)]) /\
  snd (apply_transaction ex_env everyone s2 [mk_op [1] (Update ex_h5 [13])]) = Fail (DocumentConflict [1] (mk_header [5] (mk_rev 1 [9; 12]))).
Proof.
  eexists. eexists. split; [vm_compute; reflexivity|]. split; [vm_compute; reflexivity|].
  split; [vm_compute; discriminate|]. split; [|vm_compute; reflexivity].
  constructor; [|constructor]. intros [_ (h & X & Y)]. injection X as <-. discriminate Y.
Qed.

(* C21 *)
(* each operation alone: what it does if it succeeds ... *)
Theorem C21_success : forall E p s c cmd s' rs,
  env_ok E -> reach E s -> apply_transaction E p s [mk_op c cmd] = (s', Done rs) ->
  exists m r, rs = [r] /\ does (ev_hash E) (docs_of s) c cmd m r /\ same_docs m (docs_of s').
Proof.
  intros E p s c cmd s' rs EO R H. pose proof (apply_does _ _ _ _ _ _ EO (reach_ok _ _ EO R) H) as D.
  inversion D as [|? ? ? ? ? ? ? ? DO SM DA]; subst. inversion DA as [? ? SE|]; subst.
  exists m1, r. split; [reflexivity|]. split; [exact DO|]. intros x y. rewrite <- SE. apply SM.
Qed.
(* ... when it must be refused, and with which error ... *)
Theorem C21_refused : forall E p s c cmd e,
  op_allowed p (mk_op c cmd) = true -> ev_pk E c <> None -> refused (docs_of s) c cmd e ->
  apply_transaction E p s [mk_op c cmd] = (s, Fail e).
Proof.
  intros E p s c cmd e P D R. apply single_fail; [exact P|exact D|]. apply refused_exec. exact R.
Qed.
(* ... and that there is no other reason to fail than permissions, an unknown
   collection, a view and, for an insert without id, the id *)
Theorem C21_fails_only_if_refused : forall E p s c cmd e,
  apply_transaction E p s [mk_op c cmd] = (s, Fail e) ->
  op_allowed p (mk_op c cmd) = false \/ ev_pk E c = None \/ refused (docs_of s) c cmd e \/
  (exists x, e = ViewError x) \/ (exists contents, cmd = Insert None contents).
Proof.
  intros E p s c cmd e H. destruct (op_allowed p (mk_op c cmd)) eqn:P; [|auto].
  destruct (ev_pk E c) as [t|] eqn:D; [|auto]. right. right.
  rewrite apply_allowed in H; [|cbn; rewrite P; reflexivity|cbn; rewrite D; reflexivity]. cbn [run_ops] in H.
  destruct (exec_op E (db_work s) (mk_op c cmd)) as [[w r]|x|] eqn:X; [| |discriminate].
  - exfalso. destruct (record_one r) as [ch RC]. rewrite RC in H. cbn in H.
    assert (W : changes_wf ch). { eapply (record_result_spec (mk_changes [] [])); [constructor|exact RC]. }
    destruct (invalidate_total E ch W w) as [w' I]. rewrite I in H. discriminate.
  - injection H as ->. exact (exec_fails _ _ _ _ _ X).
Qed.
(* an overwrite leaves exactly the given contents, unless SHA-256 collides *)
Theorem C21_overwrite_contents : forall E p s c id contents s' rs,
  env_ok E -> reach E s -> apply_transaction E p s [mk_op c (Overwrite id contents)] = (s', Done rs) ->
  exists d, doc_at s' c id = Some d /\
    (d_contents d = contents \/ (d_contents d <> contents /\ ev_hash E (d_contents d) = ev_hash E contents)).
Proof.
  intros E p s c id contents s' rs EO R H. pose proof (reach_ok _ _ EO R) as OK.
  destruct (C21_success _ _ _ _ _ _ _ EO R H) as (m & r & _ & D & S).
  inversion D; subst; change (doc_at s') with (docs_of s'); rewrite <- S.
  - eexists. split; [apply put_same|]. left. reflexivity.
  - exists d. match goal with G : docs_of s c id = Some d |- _ => split; [exact G|]; apply (proj1 OK c) in G end.
    destruct (bytes_dec (d_contents d) contents) as [Y|Y]; [auto|right]. split; [exact Y|]. unfold rev_of in *. congruence.
  - eexists. split; [apply put_same|]. left. reflexivity.
Qed.
Theorem C21_check_changes_nothing : forall E p s c id rev s' o, env_ok E -> reach E s ->
  apply_transaction E p s [mk_op c (Check id rev)] = (s', o) -> same_docs (docs_of s) (docs_of s').
Proof.
  intros E p s c id rev s' o EO R H. destruct (C19_all_or_nothing _ _ _ _ _ _ EO R H) as [(rs & -> & _)|[_ ->]].
  - destruct (C21_success _ _ _ _ _ _ _ EO R H) as (m & r & _ & D & S). inversion D; subst; exact S.
  - apply same_refl.
Qed.
Example C21_ex :
  refused (docs_of ex_s1) [1] (Insert (Some [5]) [1]) (DocumentConflict [1] ex_h5) /\
  refused (docs_of ex_s1) [1] (Delete (mk_header [7] (mk_rev 0 []))) (DocumentNotFound [1] [7]) /\
  (exists s' rs, apply_transaction ex_env everyone ex_s1 [mk_op [1] (Overwrite [5] [44])] = (s', Done rs)) /\
  (exists s' rs, apply_transaction ex_env everyone ex_s1 [mk_op [1] (Check [5] (Some (h_rev ex_h5)))] = (s', Done rs)) /\
  (exists s' rs, apply_transaction ex_env everyone ex_s1 [mk_op [1] (Delete ex_h5)] = (s', Done rs)).
Proof.
  split; [apply (refused_insert (docs_of ex_s1) [1] [5] [1] (mk_doc ex_h5 [10; 11])); vm_compute; reflexivity|].
  split; [apply (refused_delete_missing (docs_of ex_s1) [1] (mk_header [7] (mk_rev 0 []))); vm_compute; reflexivity|].
  repeat split; eexists; eexists; vm_compute; reflexivity.
Qed.

(* C22 *)
Lemma header_eta h id : h_id h = id -> h = mk_header id (h_rev h).
Proof. intros <-. destruct h. reflexivity. Qed.
Theorem C22_log_entry : forall E p s ops s' rs,
  env_ok E -> reach E s -> apply_transaction E p s ops = (s', Done rs) ->
  exists t ch, db_log s' = db_log s ++ [(t, Some ch)] /\ (forall e, In e (db_log s) -> fst e < t) /\
    changes_iter ch = flat_map (fun r => match r with
                                         | RUpdated c h => [(c, h_id h, false)]
                                         | RDeleted c id => [(c, id, true)]
                                         | RSuccess => []
                                         end) rs /\
    length (changes_iter ch) = length (ch_docs ch).
Proof.
  intros E p s ops s' rs EO R H. apply apply_success in H. destruct H as (w & ch & _ & W & C & _ & L).
  exists (next_tx (db_log s)), ch. split; [exact L|]. split; [exact (reach_log _ _ R)|]. split; [exact C|].
  unfold changes_iter, changes_wf, change_coll in *. revert W. clear. generalize (ch_colls ch) as cs. intros cs.
  induction (ch_docs ch) as [|[[i id] del] r IH]; intros W; [reflexivity|]. inversion_clear W as [|? ? W1 W2].
  cbn [iter_changes fst] in *. destruct (nth_error cs (N.to_nat i)); [|contradiction]. cbn. rewrite IH; auto.
Qed.
(* which result each operation has: with [does], the entry lists exactly the
   inserted, updated, overwritten and deleted ids *)
Theorem C22_results : forall E p s ops s' rs,
  env_ok E -> reach E s -> apply_transaction E p s ops = (s', Done rs) ->
  Forall2 (fun o r => match op_cmd o with
                      | Insert (Some id) _ => exists rev, r = RUpdated (op_coll o) (mk_header id rev)
                      | Insert None _ => exists h, r = RUpdated (op_coll o) h
                      | Update h _ => exists rev, r = RUpdated (op_coll o) (mk_header (h_id h) rev)
                      | Overwrite id _ => exists rev, r = RUpdated (op_coll o) (mk_header id rev)
                      | Delete h => r = RDeleted (op_coll o) (h_id h)
                      | Check _ _ => r = RSuccess
                      end) ops rs.
Proof.
  intros E p s ops s' rs EO R H. apply apply_success in H. destruct H as (w & ch & S & _).
  pose proof (reach_ok _ _ EO R) as OK. unfold db_ok in OK. revert OK. generalize nothing. revert S. generalize (db_work s).
  induction 1 as [w0|w0 o w1 r ops w2 rs X S IH]; intros ex OK; constructor.
  - destruct (exec_does _ _ _ _ _ EO (proj1 OK) X) as (m & D & _).
    assert (HI : forall id d, w_map w0 (op_coll o) id = Some d -> h_id (d_header d) = id).
    { intros id d G. apply (proj1 OK (op_coll o)). exact G. }
    inversion D; subst; try reflexivity; try (eexists; reflexivity);
      try (exists (rev_of d); f_equal; apply header_eta; eapply HI; eassumption).
    destruct oid as [i|]; [|eexists; reflexivity]. destruct H0 as [X0|X0]; [injection X0 as ->; eexists; reflexivity|discriminate].
  - eapply IH. eapply exec_op_ok; eassumption.
Qed.
Example C22_ex : map snd (db_log ex_s1) = [Some (mk_changes [[1]] [(0, [5], false); (0, [6], false)])] /\
  option_map changes_iter (snd (last (db_log (fst (apply_transaction ex_env everyone ex_s1
    [mk_op [1] (Delete ex_h5); mk_op [1] (Check [6] None); mk_op [1] (Insert (Some [9]) [10])]))) (0, None))) =
    Some [([1], [5], true); ([1], [9], false)].
Proof. vm_compute. auto. Qed.

(* C23 *)
(* in every reachable state the revision of a document carries the digest of its contents *)
Theorem C23_digest : forall E s c id d, env_ok E -> reach E s -> doc_at s c id = Some d ->
  h_id (d_header d) = id /\ r_sha (rev_of d) = ev_hash E (d_contents d).
Proof.
  intros E s c id d EO R G. pose proof (proj1 (reach_ok _ _ EO R) c) as [DO SH]. split; [apply DO; exact G|apply SH with (id := id); exact G].
Qed.
(* each operation increments the revision by one if the digest changes and leaves
   the document alone otherwise; new documents start at 0 *)
Theorem C23_one_operation : forall E p s o s' rs c id,
  env_ok E -> reach E s -> apply_transaction E p s [o] = (s', Done rs) ->
  doc_at s' c id = doc_at s c id \/
  (exists d', doc_at s' c id = Some d' /\
    match doc_at s c id with
    | Some d => ev_hash E (d_contents d') <> ev_hash E (d_contents d) /\ r_id (rev_of d') = r_id (rev_of d) + 1
    | None => r_id (rev_of d') = 0
    end) \/ (doc_at s' c id = None /\ deletes o c id).
Proof.
  intros E p s [c0 cmd] s' rs c id EO R H. pose proof (reach_ok _ _ EO R) as OK.
  destruct (C21_success _ _ _ _ _ _ _ EO R H) as (m & r & _ & D & S).
  assert (SH : forall i d, docs_of s c0 i = Some d -> r_sha (rev_of d) = ev_hash E (d_contents d)).
  { intros i d G. apply (C23_digest E s c0 i d EO R G). }
  change (doc_at s') with (docs_of s'). rewrite <- S. change (doc_at s) with (docs_of s).
  inversion D; subst; try (left; reflexivity); rewrite put_get;
    match goal with |- (if ?b then _ else _) = _ \/ _ => destruct b eqn:Q; [|left; reflexivity] end;
    apply andb_true_iff in Q; destruct Q as [Q1 Q2]; apply bytes_eqb_spec in Q1, Q2; subst c id; right.
  - left. eexists. split; [reflexivity|]. rewrite H1. reflexivity.
  - left. eexists. split; [reflexivity|]. rewrite H0. pose proof (SH _ _ H0) as S1. unfold rev_of in *. cbn. rewrite H1 in *. split; [congruence|reflexivity].
  - left. eexists. split; [reflexivity|]. rewrite H0. pose proof (SH _ _ H0) as S1. unfold rev_of in *. cbn. split; [congruence|reflexivity].
  - left. eexists. split; [reflexivity|]. rewrite H0. reflexivity.
  - right. split; [reflexivity|]. split; [reflexivity|]. eexists. split; reflexivity.
Qed.
(* as long as it is not deleted, a revision identifies the document's contents *)
Theorem C23_revision_identifies_contents : forall E s h c id d d',
  env_ok E -> reach E s -> Forall (tx_keeps c id) h ->
  doc_at s c id = Some d -> doc_at (run E s h) c id = Some d' ->
  r_id (rev_of d) <= r_id (rev_of d') /\ (r_id (rev_of d) = r_id (rev_of d') -> d = d').
Proof.
  intros E s h c id d d' EO R F G G'. destruct (run_later E h EO s c id d (reach_ok _ _ EO R) F G) as (x & G2 & L).
  rewrite G' in G2. injection G2 as <-. destruct L as [L| ->]; split; [lia|lia|lia|auto].
Qed.
Example C23_ex : exists s' rs d', apply_transaction ex_env everyone ex_s1 [mk_op [1] (Update ex_h5 [12])] = (s', Done rs) /\
  doc_at s' [1] [5] = Some d' /\ rev_of d' = mk_rev 1 [9; 12] /\ tx_keeps [1] [5] (everyone, [mk_op [1] (Update ex_h5 [12])]).
Proof.
  eexists. eexists. eexists. split; [vm_compute; reflexivity|]. split; [vm_compute; reflexivity|]. split; [reflexivity|].
  constructor; [|constructor]. intros [_ (h & X & _)]. discriminate X.
Qed.

(* C24 *)
Theorem C24_frame : forall E p s ops s' o c id d, env_ok E -> reach E s ->
  apply_transaction E p s ops = (s', o) -> doc_at s c id = Some d -> Forall (fun x => ~ names x c id) ops ->
  doc_at s' c id = Some d.
Proof.
  intros E p s ops s' o c id d EO R H G F. destruct (C19_all_or_nothing _ _ _ _ _ _ EO R H) as [(rs & -> & D & _)|[_ ->]]; [|exact G].
  pose proof (proj1 (reach_ok _ _ EO R)) as OK.
  apply apply_success in H. destruct H as (w & ch & S & _ & _ & I & _). apply invalidate_spec in I; [|exact EO]. destruct I as [DD _].
  unfold doc_at in *. rewrite DD. clear DD D. pose proof (reach_ok _ _ EO R) as WOK. unfold db_ok in WOK. clear OK.
  revert WOK G. generalize nothing. revert S F. generalize (db_work s).
  induction 1 as [w0|w0 x w1 r ops w2 rs X S IH]; intros F ex OK G; [exact G|]. inversion_clear F as [|? ? F1 F2].
  pose proof (exec_op_ok _ _ _ _ _ _ EO OK X) as OK1. apply (IH F2 _ OK1).
  destruct (exec_does _ _ _ _ _ EO (proj1 OK) X) as (m & D & SM). destruct x as [c0 cmd]. cbn [op_coll op_cmd] in *.
  change (w_map w1 c id = Some d). rewrite <- SM. eapply does_named; [exact D| |exact G|exact F1].
  intros i d0 G0. apply (proj1 OK c0). exact G0.
Qed.
(* and a document that did not exist comes from an operation of the transaction *)
Theorem C24_new_documents : forall E p s ops s' rs c id, env_ok E -> reach E s ->
  apply_transaction E p s ops = (s', Done rs) -> (forall del, ~ In (c, id, del) (flat_map res_change rs)) ->
  doc_at s' c id = doc_at s c id.
Proof. intros E p s ops s' rs c id EO R H N. eapply (does_all_frame _ _ _ _ _ (apply_does _ _ _ _ _ _ EO (reach_ok _ _ EO R) H)). exact N. Qed.
Example C24_ex : exists s' o, apply_transaction ex_env everyone ex_s1 [mk_op [1] (Delete ex_h5); mk_op [1] (Insert None [30])] = (s', o) /\
  doc_at ex_s1 [1] [6] = Some (mk_doc ex_h6 [20]) /\
  Forall (fun x => ~ names x [1] [6]) [mk_op [1] (Delete ex_h5); mk_op [1] (Insert None [30])].
Proof.
  eexists. eexists. split; [reflexivity|]. split; [vm_compute; reflexivity|].
  repeat constructor; intros [_ X]; cbn in X; discriminate X.
Qed.

(* C25 *)
Theorem C25_list : forall E p s c lo hi asc, env_ok E -> reach E s -> p ActList c None = true ->
  exists ds, list_docs p s c lo hi asc None = Done ds /\
    (forall d, In d ds <-> doc_at s c (h_id (d_header d)) = Some d /\ in_bounds lo hi (h_id (d_header d)) = true) /\
    StronglySorted (fun a b => if asc then lex a b = Lt else lex b a = Lt) (map (fun d => h_id (d_header d)) ds) /\
    (forall n, list_docs p s c lo hi asc (Some n) = Done (firstn (N.to_nat n) ds)) /\
    (forall l, p ActListHeaders c None = true -> exists ds', list_docs p s c lo hi asc l = Done ds' /\
       list_headers p s c lo hi asc l = Done (map d_header ds')) /\
    (p ActCount c None = true -> count_docs p s c lo hi = Done (N.of_nat (length ds))).
Proof.
  intros E p s c lo hi asc EO R P. destruct (proj1 (reach_ok _ _ EO R) c) as [[W HI] _].
  unfold list_docs, list_headers, count_docs. rewrite P. eexists. split; [reflexivity|].
  assert (IDS : forall k d, In (k, d) (scan lo hi asc None (w_docs (db_work s) c)) -> k = h_id (d_header d)).
  { intros k d I. apply (scan_In lo hi asc _ k d W) in I. symmetry. apply HI, I. }
  split; [|split; [|split; [|split]]].
  - intros d. rewrite in_map_iff. split.
    + intros ([k d'] & Y & I). cbn in Y. subst d'. pose proof (IDS _ _ I) as ->. apply (scan_In lo hi asc _ _ _ W) in I. exact I.
    + intros [G B]. exists (h_id (d_header d), d). split; [reflexivity|]. apply scan_In; [exact W|]. auto.
  - assert (Y : map (fun d => h_id (d_header d)) (map snd (scan lo hi asc None (w_docs (db_work s) c))) = map fst (scan lo hi asc None (w_docs (db_work s) c))).
    { rewrite map_map. apply map_ext_in. intros [k d] I. symmetry. apply IDS, I. }
    rewrite Y. apply scan_sorted, W.
  - intros n. rewrite scan_limit, firstn_map. reflexivity.
  - intros l P2. rewrite P2. eexists. split; [reflexivity|]. rewrite map_map. reflexivity.
  - intros P2. rewrite P2. unfold scan. rewrite map_length. destruct asc; [|rewrite rev_length]; reflexivity.
Qed.
Theorem C25_get_multiple : forall E p s c ids, env_ok E -> reach E s -> NoDup ids ->
  forallb (fun i => p ActGet c (Some i)) ids = true ->
  exists ds, get_multiple p s c ids = Done ds /\ NoDup ds /\
    forall d, In d ds <-> In (h_id (d_header d)) ids /\ doc_at s c (h_id (d_header d)) = Some d.
Proof.
  intros E p s c ids EO R ND P. destruct (proj1 (reach_ok _ _ EO R) c) as [[W HI] _].
  unfold get_multiple. rewrite P. eexists. split; [reflexivity|].
  pose proof (get_multiple_perm (w_docs (db_work s) c) ids) as PM.
  assert (IN : forall d, In d (flat_map (fun i => match t_get i (w_docs (db_work s) c) with Some v => [v] | None => [] end) ids) <->
     In (h_id (d_header d)) ids /\ doc_at s c (h_id (d_header d)) = Some d).
  { intros d. rewrite in_flat_map. split.
    - intros (i & I & J). destruct (t_get i (w_docs (db_work s) c)) as [d'|] eqn:G; [|destruct J]. destruct J as [->|[]].
      pose proof (HI _ _ G) as Y. rewrite Y. auto.
    - intros [I G]. exists (h_id (d_header d)). split; [exact I|]. unfold doc_at in G. rewrite G. left. reflexivity. }
  split.
  - eapply Permutation_NoDup; [symmetry; exact PM|]. clear PM IN P. induction ids as [|i ids IH]; [constructor|].
    inversion_clear ND as [|? ? N1 N2]. cbn [flat_map]. destruct (t_get i (w_docs (db_work s) c)) as [d|] eqn:G; [|apply IH, N2].
    cbn [app]. constructor; [|apply IH, N2]. intros J. apply in_flat_map in J. destruct J as (j & J1 & J2).
    destruct (t_get j (w_docs (db_work s) c)) as [d'|] eqn:G'; [|destruct J2]. destruct J2 as [->|[]].
    apply N1. rewrite <- (HI _ _ G). rewrite (HI _ _ G'). exact J1.
  - intros d. rewrite <- IN. split; intros X; (eapply Permutation_in; [|exact X]); [exact PM|symmetry; exact PM].
Qed.
(* a duplicate id is answered twice *)
Example C25_ex : list_docs everyone ex_s1 [1] (Included [5]) Unbounded false (Some 1) = Done [mk_doc ex_h6 [20]] /\
  get_multiple everyone ex_s1 [1] [[6]; [9]; [5]] = Done [mk_doc ex_h5 [10; 11]; mk_doc ex_h6 [20]] /\
  count_docs everyone ex_s1 [1] (Excluded [5]) (Included [6]) = Done 1.
Proof. vm_compute. auto. Qed.

(* C26 *)
Theorem C26_no_permission_no_effect : forall E p s ops c cmd,
  In (mk_op c cmd) ops ->
  match cmd with
  | Insert _ _ => p ActInsert c None
  | Update h _ => p ActUpdate c (Some (h_id h))
  | Overwrite id _ => p ActOverwrite c (Some id)
  | Delete h => p ActDelete c (Some (h_id h))
  | Check id _ => p ActGet c (Some id)
  end = false ->
  apply_transaction E p s ops = (s, Fail PermissionDenied).
Proof.
  intros E p s ops c cmd I P0. pose (o := mk_op c cmd). assert (P : op_allowed p o = false) by (destruct cmd; exact P0). fold o in I. clearbody o. unfold apply_transaction. destruct (forallb (op_allowed p) ops) eqn:F; [|reflexivity].
  rewrite forallb_forall in F. specialize (F o I). congruence.
Qed.
(* the permission an operation needs *)
Theorem C26_required : forall p c cmd, op_allowed p (mk_op c cmd) = true <->
  match cmd with
  | Insert _ _ => p ActInsert c None = true
  | Update h _ => p ActUpdate c (Some (h_id h)) = true
  | Overwrite id _ => p ActOverwrite c (Some id) = true
  | Delete h => p ActDelete c (Some (h_id h)) = true
  | Check id _ => p ActGet c (Some id) = true
  end.
Proof. intros p c [oid x|h x|id x|h|id r]; reflexivity. Qed.
Definition ex_reader : session := fun a _ _ => match a with ActGet => true | ActInsert => true | _ => false end.
Example C26_ex : apply_transaction ex_env ex_reader ex_s1 [mk_op [1] (Insert None [50]); mk_op [1] (Delete ex_h5)] = (ex_s1, Fail PermissionDenied) /\
  exists s' rs, apply_transaction ex_env ex_reader ex_s1 [mk_op [1] (Insert None [50])] = (s', Done rs).
Proof. split; [vm_compute; reflexivity|]. eexists. eexists. vm_compute. reflexivity. Qed.
Theorem C26_reads_need_permission : forall p s c id lo hi asc l ids,
  (p ActGet c (Some id) = false -> get_doc p s c id = Fail PermissionDenied) /\
  (p ActList c None = false -> list_docs p s c lo hi asc l = Fail PermissionDenied) /\
  (p ActListHeaders c None = false -> list_headers p s c lo hi asc l = Fail PermissionDenied) /\
  (p ActCount c None = false -> count_docs p s c lo hi = Fail PermissionDenied) /\
  (In id ids -> p ActGet c (Some id) = false -> get_multiple p s c ids = Fail PermissionDenied).
Proof.
  intros p s c id lo hi asc l ids. unfold get_doc, list_docs, list_headers, count_docs, get_multiple.
  repeat split; try (intros ->; reflexivity). intros I P.
  destruct (forallb (fun i => p ActGet c (Some i)) ids) eqn:F; [|reflexivity].
  rewrite forallb_forall in F. specialize (F id I). congruence.
Qed.

(* C59: paging through the log *)
Definition doc_changes (log : list (N * option changes)) : list (N * changes) :=
  flat_map (fun e => match snd e with Some c => [(fst e, c)] | None => [] end) log.
Theorem C59_listing : forall log start limit,
  let n := N.min (match limit with Some l => l | None => 100 end) 1000 in
  list_executed log start limit =
    firstn (N.to_nat n) (filter (fun e => match start with Some s => s <=? fst e | None => true end) (doc_changes log)).
Proof.
  intros log start limit n. unfold list_executed. fold n. f_equal. unfold doc_changes.
  induction log as [|[t o] r IH]; [reflexivity|]. cbn [filter flat_map fst snd]. rewrite filter_app. rewrite <- IH.
  destruct o as [c|]; cbn [filter app fst];
    destruct (match start with Some s => s <=? t | None => true end); reflexivity.
Qed.
(* the next page starts after the last listed transaction: no entry is missed or
   repeated *)
Lemma ss_app_inv {A} (R : A -> A -> Prop) a b : StronglySorted R (a ++ b) -> StronglySorted R b /\ forall x y, In x a -> In y b -> R x y.
Proof.
  induction a as [|z a IH]; intros S; [split; [exact S|intros x y []]|]. cbn in S. inversion_clear S as [|? ? S1 F].
  destruct (IH S1) as [A1 A2]. split; [exact A1|]. intros x y [->|I] J; [|auto].
  rewrite Forall_forall in F. apply F, in_or_app. auto.
Qed.
Lemma ss_snoc {A} (R : A -> A -> Prop) a x : StronglySorted R a -> (forall y, In y a -> R y x) -> StronglySorted R (a ++ [x]).
Proof.
  induction a as [|z a IH]; intros S H; [repeat constructor|]. cbn. inversion_clear S as [|? ? S1 F]. constructor.
  - apply IH; [exact S1|]. intros y I. apply H. right. exact I.
  - apply Forall_app. split; [exact F|]. constructor; [|constructor]. apply H. left. reflexivity.
Qed.
Definition log_sorted (log : list (N * option changes)) : Prop := StronglySorted (fun a b => fst a < fst b) log.
Lemma reach_sorted E s : reach E s -> log_sorted (db_log s).
Proof.
  assert (SN : forall E s o, reach E s -> log_sorted (db_log s) -> log_sorted (db_log s ++ [(next_tx (db_log s), o)])).
  { intros E' s' o R L. apply ss_snoc; [exact L|]. intros y I. exact (reach_log _ _ R y I). }
  induction 1 as [|s p ops R IH|s v sh ids R IH I P S|s v R IH I].
  - constructor.
  - destruct (apply_transaction E p s ops) as [s' o] eqn:A. cbn [fst]. apply apply_cases in A.
    destruct A as [(rs & w & ch & w' & _ & _ & _ & _ & _ & ->)|[-> _]]; [|exact IH]. cbn. eapply SN; eassumption.
  - unfold mapper_step. destruct (map_chunk _ _ _ _ _); [|exact IH|exact IH]. cbn. eapply SN; eassumption.
  - cbn. eapply SN; eassumption.
Qed.
Lemma doc_changes_sorted log : log_sorted log -> StronglySorted (fun a b => fst a < fst b) (doc_changes log).
Proof.
  unfold doc_changes. induction 1 as [|[t o] r S IH F]; [constructor|]. cbn [flat_map fst snd]. destruct o as [c|]; [|exact IH].
  constructor; [exact IH|]. rewrite Forall_forall in *. intros [t' c'] I. apply in_flat_map in I. destruct I as ([t2 o2] & I & J).
  cbn [snd fst] in J. destruct o2; [|destruct J]. destruct J as [J|[]]. injection J as <- <-. exact (F _ I).
Qed.
Lemma filter_sorted {A} (R : A -> A -> Prop) f l : StronglySorted R l -> StronglySorted R (filter f l).
Proof.
  induction 1 as [|x l S IH F]; [constructor|]. cbn. destruct (f x); [|exact IH]. constructor; [exact IH|].
  rewrite Forall_forall in *. intros y I. apply filter_In in I. apply F, I.
Qed.
Theorem C59_next_page : forall E s start limit page t ch,
  reach E s -> list_executed (db_log s) start limit = page ++ [(t, ch)] ->
  let listed := filter (fun e => match start with Some x => x <=? fst e | None => true end) (doc_changes (db_log s)) in
  listed = (page ++ [(t, ch)]) ++ filter (fun e => t + 1 <=? fst e) (doc_changes (db_log s)).
Proof.
  intros E s start limit page t ch R H listed. pose proof (doc_changes_sorted _ (reach_sorted _ _ R)) as SD.
  rewrite C59_listing in H. fold listed in H. set (n := N.to_nat _) in H. clearbody n.
  assert (SL : StronglySorted (fun a b => fst a < fst b) listed) by apply filter_sorted, SD.
  rewrite <- (firstn_skipn n listed) at 1. rewrite H. f_equal.
  assert (IN : In (t, ch) listed). { rewrite <- (firstn_skipn n listed), H. apply in_or_app. left. apply in_or_app. right. left. reflexivity. }
  assert (T : match start with Some x => x <= t | None => True end).
  { apply filter_In in IN. destruct IN as [_ B]. destruct start; [apply N.leb_le; exact B|exact I]. }
  assert (FL : filter (fun e => t + 1 <=? fst e) (doc_changes (db_log s)) = filter (fun e => t + 1 <=? fst e) listed).
  { unfold listed. clear -T. induction (doc_changes (db_log s)) as [|[u c] r IH]; [reflexivity|]. cbn [filter fst].
    destruct (t + 1 <=? u) eqn:U.
    - assert (Y : match start with Some x => x <=? u | None => true end = true).
      { destruct start; [|reflexivity]. apply N.leb_le in U. apply N.leb_le. lia. }
      rewrite Y. cbn [filter fst]. rewrite U, IH. reflexivity.
    - destruct (match start with Some x => x <=? u | None => true end); cbn [filter fst]; rewrite ?U; exact IH. }
  rewrite FL. clear FL.
  assert (SP : listed = (page ++ [(t, ch)]) ++ skipn n listed) by (rewrite <- H, firstn_skipn; reflexivity).
  set (b := skipn n listed) in *. clearbody b. rewrite SP in *. rewrite filter_app, filter_app. cbn [filter fst].
  destruct (ss_app_inv _ _ _ SL) as [_ X].
  assert (A1 : filter (fun e : N * changes => t + 1 <=? fst e) page = []).
  { assert (SS : StronglySorted (fun a b : N * changes => fst a < fst b) ((page ++ [(t, ch)]) ++ b)) by exact SL.
    rewrite <- app_assoc in SS. clear -SS. induction page as [|[u c] r IH]; [reflexivity|]. cbn [app] in SS. inversion_clear SS as [|? ? S1 F].
    cbn [filter fst]. rewrite Forall_forall in F. assert (L : u < t) by (apply (F (t, ch)), in_or_app; right; left; reflexivity).
    destruct (N.leb_spec (t + 1) u); [lia|]. apply IH, S1. }
  rewrite A1. destruct (N.leb_spec (t + 1) t); [lia|]. cbn [app].
  assert (B1 : forall y, In y b -> t + 1 <= fst y).
  { intros y J. specialize (X (t, ch) y). cbn in X. assert (t < fst y); [|lia]. apply X; [|exact J]. apply in_or_app. right. left. reflexivity. }
  clear -B1. induction b as [|[u c] r IH]; [reflexivity|]. cbn [filter fst].
  assert (L : t + 1 <= u) by (apply (B1 (u, c)); left; reflexivity). apply N.leb_le in L. rewrite L. f_equal.
  apply IH. intros y J. apply B1. right. exact J.
Qed.
Example C59_ex : let s := fst (apply_transaction ex_env everyone ex_s1 [mk_op [1] (Delete ex_h5)]) in
  map fst (list_executed (db_log s) None (Some 1)) = [1] /\ map fst (list_executed (db_log s) (Some 2) None) = [2] /\ list_executed (db_log s) (Some 1) (Some 0) = [].
Proof. vm_compute. auto. Qed.
Print Assumptions C59_next_page.
Print Assumptions C59_listing.
Print Assumptions C19_all_or_nothing.
Print Assumptions C19_first_error.
Print Assumptions C20_no_lost_update.
Print Assumptions C20_delete_reinsert_refuted.
Print Assumptions C20_only_current_revision.
Print Assumptions C20_stale_conflicts.
Print Assumptions C21_fails_only_if_refused.
Print Assumptions C21_overwrite_contents.
Print Assumptions C22_log_entry.
Print Assumptions C22_results.
Print Assumptions C23_one_operation.
Print Assumptions C23_revision_identifies_contents.
Print Assumptions C24_frame.
Print Assumptions C25_list.
Print Assumptions C25_get_multiple.
Print Assumptions C21_success.
Print Assumptions C21_refused.
Print Assumptions C21_check_changes_nothing.
Print Assumptions C23_digest.
Print Assumptions C24_new_documents.
Print Assumptions C26_no_permission_no_effect.
Print Assumptions C26_required.
Print Assumptions C26_reads_need_permission.
