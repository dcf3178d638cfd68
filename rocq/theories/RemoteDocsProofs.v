(* Proofs about the handlers of RemoteDocs.v, for PropRemoteDocs.v. *)
From Verif Require Import Base Key KeyPrefix DocId Tree View ViewProofs ViewMap Docs DocsProofs DocsSpec DocsMore DocsHist PropDocs
  Query ViewTotal PropViews RemoteDocs.
From Coq Require Import Permutation Lia.
Local Open Scope N_scope.
Local Opaque view_chunk.

Lemma view_named_In E n v : view_named E n = Some v -> In v (ev_views E) /\ vw_name v = n.
Proof. intros F. apply find_some in F. destruct F as [I B]. split; [exact I|]. apply bytes_eqb_spec in B. exact B. Qed.
Lemma permutes_id {A} : permutes (fun l : list A => l).
Proof. intros l. apply Permutation_refl. Qed.
Lemma map_all_docs v : forall fuel ids s, w_docs (db_work (fst (map_all fuel v ids s))) = w_docs (db_work s).
Proof.
  induction fuel as [|f IH]; intros [|i ids] s; cbn [map_all]; [reflexivity|reflexivity|reflexivity|].
  destruct (map_chunk _ _ _ _ _) as [vs|e|]; [rewrite IH|..]; reflexivity.
Qed.
Lemma map_all_reach E v : In v (ev_views E) -> forall fuel ids s, sorted ids -> reach E s -> reach E (fst (map_all fuel v ids s)).
Proof.
  intros I. induction fuel as [|f IH]; intros [|i ids] s S R; cbn [map_all]; [exact R|exact R|exact R|].
  set (l := i :: ids) in *. set (n := (length l - view_chunk)%nat).
  assert (RM := reach_map E s v (fun x => x) (skipn n l) R I permutes_id (sorted_skipn _ _ S)). unfold mapper_step in RM.
  destruct (map_chunk _ _ _ _ _) as [vs|e|]; [|exact R|exact R]. apply IH; [apply sorted_firstn, S|exact RM].
Qed.
Lemma map_all_view v : forall fuel ids s s', map_all fuel v ids s = (s', Done tt) ->
  map_view_fuel (fun x => x) fuel (vw_def v) (w_docs (db_work s) (vw_coll v)) ids (w_views (db_work s) (vw_name v)) = Done (w_views (db_work s') (vw_name v)).
Proof.
  induction fuel as [|f IH]; intros [|i ids] s s'; cbn [map_all map_view_fuel]; [intros H; inversion H; reflexivity|intros H; inversion H; reflexivity|intros H; inversion H; reflexivity|].
  set (l := i :: ids). set (n := (length l - view_chunk)%nat). destruct (map_chunk _ _ _ _ _) as [vs|e|]; try discriminate.
  intros H. apply IH in H. cbn [db_work w_docs w_views set_view] in H. rewrite upd_same in H. exact H.
Qed.
Lemma update_view_reach E v s : In v (ev_views E) -> env_ok E -> reach E s -> reach E (fst (update_view v s)).
Proof.
  intros I EO R. unfold update_view. apply map_all_reach; [exact I| |exact R]. unfold t_keys. apply (ok_wf_invalid _ _ (proj1 (proj2 (reach_ok _ _ EO R) v I))).
Qed.
Lemma update_view_docs v s : w_docs (db_work (fst (update_view v s))) = w_docs (db_work s).
Proof. apply map_all_docs. Qed.
Lemma update_view_done E v s s' : env_ok E -> reach E s -> In v (ev_views E) -> update_view v s = (s', Done tt) -> forall id, ~ pending s' v id.
Proof.
  intros EO R I H. unfold update_view in H. apply map_all_view in H. pose proof (reach_ok _ _ EO R) as OK. destruct (proj2 OK v I) as [VO FR].
  destruct (map_view_spec _ _ _ _ _ permutes_id (proj1 (proj1 OK (vw_coll v))) VO H) as (_ & NP & _). exact NP.
Qed.
Lemma doc_at_docs s s' c id : w_docs (db_work s') = w_docs (db_work s) -> doc_at s' c id = doc_at s c id.
Proof. intros H. unfold doc_at. rewrite H. reflexivity. Qed.

Section Handlers.
Variable E : env.
Variable perm : option N -> session.
Variable vperm : option N -> vsession.
Hypothesis EO : env_ok E.
Notation handle := (handle E perm vperm).

Lemma delete_docs_fst ps s v q : fst (delete_docs E ps s v q) = fst (apply_transaction E ps s (delete_ops s v q)).
Proof. unfold delete_docs. destruct (apply_transaction _ _ _ _) as [s' [rs|e|]]; reflexivity. Qed.
Lemma handle_reach s se r : reach E s -> reach E (fst (handle s se r)).
Proof.
  intros R. destruct r; cbn [RemoteDocs.handle]; try exact R.
  - assert (X := reach_tx E s (perm se) ops R). destruct (apply_transaction _ _ _ _). exact X.
  - destruct (view_named E view) as [v|] eqn:V; [|exact R]. apply view_named_In in V. destruct V as [I _]. destruct (vperm se VQuery view); [|exact R].
    assert (X := update_view_reach E v s I EO R). destruct (update_view v s) as [s' [u|e|]]; exact X.
  - destruct (view_named E view) as [v|] eqn:V; [|exact R]. apply view_named_In in V. destruct V as [I _].
    assert (X := update_view_reach E v s I EO R). destruct (update_view v s) as [s' [u|e|]]; try exact X. cbn [fst] in X.
    assert (Y := reach_tx E s' (perm se) (delete_ops s' v q) X). rewrite <- delete_docs_fst in Y. destruct (delete_docs _ _ _ _ _). exact Y.
Qed.
(* requests that name a document, or may delete it through a view of its collection *)
Definition writes_doc (r : request) (c id : bytes) : Prop :=
  match r with
  | QApply ops => Exists (fun o => names o c id) ops
  | QDeleteDocs n _ => exists v, view_named E n = Some v /\ vw_coll v = c
  | _ => False
  end.
Definition deletes_doc (r : request) (c id : bytes) : Prop :=
  match r with
  | QApply ops => Exists (fun o => deletes o c id) ops
  | QDeleteDocs n _ => exists v, view_named E n = Some v /\ vw_coll v = c
  | _ => False
  end.
Lemma delete_ops_coll s v q : Forall (fun o => op_coll o = vw_coll v) (delete_ops s v q).
Proof. apply Forall_forall. intros o I. unfold delete_ops in I. apply in_flat_map in I. destruct I as (e & _ & I). apply in_map_iff in I. destruct I as (m & <- & _). reflexivity. Qed.
Lemma handle_keeps s se r c id d : reach E s -> doc_at s c id = Some d -> ~ writes_doc r c id -> doc_at (fst (handle s se r)) c id = Some d.
Proof.
  intros R G NW. destruct r; cbn [RemoteDocs.handle]; try exact G.
  - destruct (apply_transaction E (perm se) s ops) as [s' o] eqn:A. cbn [fst]. eapply C24_frame; try eassumption. apply Forall_forall. intros x I X. apply NW. apply Exists_exists. exists x. auto.
  - destruct (view_named E view) as [v|]; [|exact G]. destruct (vperm se VQuery view); [|exact G].
    assert (X := update_view_docs v s). destruct (update_view v s) as [s' [u|e|]]; cbn [fst] in *; rewrite (doc_at_docs _ _ _ _ X); exact G.
  - destruct (view_named E view) as [v|] eqn:V; [|exact G]. assert (I := proj1 (view_named_In _ _ _ V)).
    assert (X := update_view_docs v s). assert (R' := update_view_reach E v s I EO R). destruct (update_view v s) as [s' [u|e|]]; cbn [fst] in *; try (rewrite (doc_at_docs _ _ _ _ X); exact G).
    assert (Y := delete_docs_fst (perm se) s' v q). destruct (delete_docs E (perm se) s' v q) as [s2 o2]. cbn [fst] in *. destruct (apply_transaction E (perm se) s' (delete_ops s' v q)) as [s3 o3] eqn:A. cbn [fst] in Y. subst s3.
    eapply C24_frame; try eassumption; [rewrite (doc_at_docs _ _ _ _ X); exact G|]. eapply Forall_impl; [|apply delete_ops_coll]. cbv beta. intros o C [N1 _]. apply NW. exists v. split; [exact V|congruence].
Qed.
Lemma handle_later s se r c id d : reach E s -> doc_at s c id = Some d -> ~ deletes_doc r c id -> exists d', doc_at (fst (handle s se r)) c id = Some d' /\ later d d'.
Proof.
  intros R G ND. assert (Z : exists d', doc_at s c id = Some d' /\ later d d') by (exists d; split; [exact G|right; reflexivity]). destruct r; cbn [RemoteDocs.handle]; try exact Z.
  - assert (X := run_later E [(perm se, ops)] EO s c id d (reach_ok _ _ EO R)). cbn [run fold_left fst snd] in X. destruct (apply_transaction E (perm se) s ops) as [s' o]. cbn [fst] in *.
    apply X; [|exact G]. constructor; [|constructor]. apply Forall_forall. intros x I Y. apply ND. apply Exists_exists. exists x. auto.
  - destruct (view_named E view) as [v|]; [|exact Z]. destruct (vperm se VQuery view); [|exact Z].
    assert (X := update_view_docs v s). destruct (update_view v s) as [s' [u|e|]]; cbn [fst] in *; rewrite (doc_at_docs _ _ _ _ X); exact Z.
  - destruct (view_named E view) as [v|] eqn:V; [|exact Z]. assert (I := proj1 (view_named_In _ _ _ V)).
    assert (X := update_view_docs v s). assert (R' := update_view_reach E v s I EO R). destruct (update_view v s) as [s' [u|e|]]; cbn [fst] in *; try (rewrite (doc_at_docs _ _ _ _ X); exact Z).
    assert (Y := delete_docs_fst (perm se) s' v q). destruct (delete_docs E (perm se) s' v q) as [s2 o2]. cbn [fst] in *.
    assert (W := run_later E [(perm se, delete_ops s' v q)] EO s' c id d (reach_ok _ _ EO R')). cbn [run fold_left fst snd] in W. destruct (apply_transaction E (perm se) s' (delete_ops s' v q)) as [s3 o3]. cbn [fst] in *. subst s3.
    apply W; [|rewrite (doc_at_docs _ _ _ _ X); exact G]. constructor; [|constructor]. eapply Forall_impl; [|apply delete_ops_coll]. cbv beta. intros o C [N1 _]. apply ND. exists v. split; [exact V|congruence].
Qed.
Definition contents_of (cmd : command) : option bytes :=
  match cmd with Insert _ b | Update _ b | Overwrite _ b => Some b | Delete _ | Check _ _ => None end.
(* what one successful write stores *)
Lemma write_stores s se c cmd b hd s' : reach E s -> contents_of cmd = Some b -> handle s se (QApply [mk_op c cmd]) = (s', SApply (Done [RUpdated c hd])) ->
  exists d, doc_at s' c (h_id hd) = Some d /\ d_header d = hd /\ (d_contents d = b \/ (d_contents d <> b /\ ev_hash E (d_contents d) = ev_hash E b)).
Proof.
  intros R CO H. cbn [RemoteDocs.handle] in H. destruct (apply_transaction E (perm se) s [mk_op c cmd]) as [s1 o] eqn:A. inversion H; subst.
  destruct (C21_success _ _ _ _ _ _ _ EO R A) as (m & r & RE & D & SM). inversion RE; subst r. clear RE H.
  assert (G : forall i, doc_at s' c i = m c i) by (intros i; symmetry; apply SM).
  assert (DIG : forall i d, doc_at s c i = Some d -> h_id (d_header d) = i /\ r_sha (rev_of d) = ev_hash E (d_contents d)) by (intros i d X; exact (C23_digest E s c i d EO R X)).
  assert (SAME : forall i d, doc_at s c i = Some d -> ev_hash E b = r_sha (rev_of d) -> d_contents d = b \/ d_contents d <> b /\ ev_hash E (d_contents d) = ev_hash E b).
  { intros i d X Y. destruct (list_eq_dec N.eq_dec (d_contents d) b) as [Q|Q]; [left; exact Q|right]. split; [exact Q|]. rewrite Y. symmetry. apply (DIG i d X). }
  inversion D; subst; inversion CO; subst; cbn [h_id].
  - eexists. split; [rewrite G; apply put_same|]. split; [reflexivity|left; reflexivity].
  - eexists. split; [rewrite G; apply put_same|]. split; [reflexivity|left; reflexivity].
  - match goal with X : docs_of s c _ = Some d |- _ => exists d; destruct (DIG _ _ X) as [DI _]; split; [rewrite G, DI; exact X|]; split; [reflexivity|]; apply (SAME _ _ X); congruence end.
  - eexists. split; [rewrite G; apply put_same|]. split; [reflexivity|left; reflexivity].
  - match goal with X : docs_of s c _ = Some d |- _ => exists d; destruct (DIG _ _ X) as [DI _]; split; [rewrite G, DI; exact X|]; split; [reflexivity|]; apply (SAME _ _ X); congruence end.
  - eexists. split; [rewrite G; apply put_same|]. split; [reflexivity|left; reflexivity].
Qed.
End Handlers.
