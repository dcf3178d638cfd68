(* Properties of views: C28 - C34. *)
From Verif Require Import Base Key KeyPrefix DocId Tree View ViewProofs ViewMap Docs DocsProofs DocsSpec DocsMore DocsHist PropDocs
  Query ViewTotal ViewSync ViewSyncProofs.
From Coq Require Import Permutation Sorting.Sorted.
Local Open Scope N_scope.

(* ---------- specification ---------- *)
Definition anyone : vsession := fun _ _ => true.
(* the map function emits this key and value for this document *)
Definition emits (v : view) (d : doc) (k val : bytes) : Prop := exists l, vd_map (vw_def v) d = Some l /\ In (k, val) l.
(* the map function works for all documents of the view and emits no key twice for one document *)
Definition emits_once (v : view) (s : dbstate) : Prop :=
  forall id d, doc_at s (vw_coll v) id = Some d -> exists l, vd_map (vw_def v) d = Some l /\ NoDup (map fst l).

(* ---------- lemmas ---------- *)
Lemma In_mappings (t : tree entry) k h val : t_wf t ->
  (In (mk_em k h val) (flat_map entry_mappings t) <-> In (mk_map h val) (at_key t k)).
Proof.
  intros W. unfold at_key. rewrite in_flat_map. split.
  - intros ([j e] & I & J). unfold entry_mappings in J. apply in_map_iff in J. destruct J as ([h' v'] & X & J). cbn in X, J.
    injection X as -> -> ->. apply In_get in I; [|exact W]. rewrite I. exact J.
  - destruct (t_get k t) as [e|] eqn:G; [|intros []]. intros J. exists (k, e). split; [apply get_In, G|].
    unfold entry_mappings. cbn [fst snd]. change (mk_em k h val) with ((fun m => mk_em k (m_src m) (m_value m)) (mk_map h val)). apply in_map, J.
Qed.
Lemma last_value_none k l : last_value k l = None <-> ~ In k (map fst l).
Proof.
  induction l as [|[j v] r IH]; cbn [last_value map fst In]; [intuition|]. destruct (last_value k r) as [x|].
  - split; [discriminate|]. intros H. exfalso. apply H. right. destruct (in_dec bytes_dec k (map fst r)); [assumption|]. apply IH in n. discriminate.
  - destruct IH as [IH _]. specialize (IH eq_refl). destruct (bytes_eqb k j) eqn:K.
    + apply bytes_eqb_spec in K. split; [discriminate|]. intros H. exfalso. apply H. auto.
    + apply bytes_eqb_neq in K. split; [|reflexivity]. intros _ [X|X]; [congruence|contradiction].
Qed.
Lemma last_value_In k l v : last_value k l = Some v -> In (k, v) l.
Proof.
  induction l as [|[j x] r IH]; cbn [last_value]; [discriminate|]. destruct (last_value k r) as [y|]; [right; apply IH; congruence|].
  destruct (bytes_eqb k j) eqn:K; [|discriminate]. apply bytes_eqb_spec in K. intros E. injection E as ->. left. congruence.
Qed.
Lemma last_value_once k l v : NoDup (map fst l) -> (last_value k l = Some v <-> In (k, v) l).
Proof.
  intros N. split; [apply last_value_In|]. intros I. destruct (last_value k l) as [x|] eqn:L.
  - apply last_value_In in L. f_equal. clear -N I L. induction l as [|[j y] r IH]; [destruct I|]. inversion_clear N as [|? ? N1 N2].
    assert (F : forall w, In (k, w) r -> In k (map fst r)) by (intros w H; apply (in_map fst) in H; exact H).
    destruct I as [I|I], L as [L|L]; auto.
    + congruence.
    + injection I as -> ->. exfalso. apply N1, (F x), L.
    + injection L as -> ->. exfalso. apply N1, (F v), I.
  - exfalso. apply last_value_none in L. apply L. apply (in_map fst) in I. exact I.
Qed.
Lemma reach_fresh E s v id : env_ok E -> reach E s -> In v (ev_views E) -> ~ pending s v id ->
  fresh (vw_def v) (w_docs (db_work s) (vw_coll v)) (w_views (db_work s) (vw_name v)) id.
Proof. intros EO R I P. destruct (proj2 (reach_ok _ _ EO R) v I) as [_ F]. apply F; [exact P|]. intros [_ []]. Qed.
Lemma reach_vs E s v : env_ok E -> reach E s -> In v (ev_views E) -> vs_ok (vw_def v) (w_views (db_work s) (vw_name v)).
Proof. intros EO R I. apply (proj2 (reach_ok _ _ EO R) v I). Qed.
Lemma reach_id E s c id d : env_ok E -> reach E s -> doc_at s c id = Some d -> h_id (d_header d) = id.
Proof. intros EO R. apply (proj1 (reach_ok _ _ EO R) c). Qed.
(* the mappings of one document *)
Lemma doc_mappings E s v k h val : env_ok E -> db_ok E s -> In v (ev_views E) -> ~ pending s v (h_id h) ->
  (In (mk_map h val) (at_key (entries_of s v) k) <->
   exists d l, doc_at s (vw_coll v) (h_id h) = Some d /\ d_header d = h /\ vd_map (vw_def v) d = Some l /\ last_value k l = Some val).
Proof.
  intros EO OK I P. destruct (proj2 OK v I) as [VO F]. specialize (F (h_id h) P). 
  assert (FR : fresh (vw_def v) (w_docs (db_work s) (vw_coll v)) (w_views (db_work s) (vw_name v)) (h_id h)) by (apply F; intros [_ []]).
  clear F. unfold fresh in FR. fold (doc_at s (vw_coll v) (h_id h)) in FR. fold (entries_of s v) in FR.
  pose proof (ok_nodup _ _ VO k) as ND. fold (entries_of s v) in ND. split.
  - intros J. apply In_find in J; [|exact ND]. change (m_id (mk_map h val)) with (h_id h) in J.
    destruct (doc_at s (vw_coll v) (h_id h)) as [d|] eqn:G.
    + destruct FR as (l & M & FR). rewrite FR in J. destruct (last_value k l) as [x|] eqn:L; [|discriminate]. cbn in J. injection J as J1 J2.
      exists d, l. repeat split; try assumption. congruence.
    + rewrite FR in J. discriminate.
  - intros (d & l & G & H & M & L). rewrite G in FR. destruct FR as (l' & M' & FR). rewrite M in M'. injection M' as <-.
    specialize (FR k). rewrite L in FR. cbn in FR. apply find_some_In in FR. rewrite H in FR. apply FR.
Qed.

(* ---------- C28 ---------- *)
(* a document not queued for mapping: a query of the whole view shows exactly the
   last value its map function emits for each key *)
Theorem C28_document : forall E s v ms k h val, env_ok E -> reach E s -> In v (ev_views E) ->
  query anyone s v None true None = Done ms -> ~ pending s v (h_id h) ->
  (In (mk_em k h val) ms <->
   exists d l, doc_at s (vw_coll v) (h_id h) = Some d /\ d_header d = h /\ vd_map (vw_def v) d = Some l /\ last_value k l = Some val).
Proof.
  intros E s v ms k h val EO R I Q P. unfold query, anyone, view_entries, scan in Q. injection Q as <-.
  pose proof (ok_wf_entries _ _ (reach_vs E s v EO R I)) as W. fold (entries_of s v) in W.
  rewrite In_mappings by (apply wf_range, W). unfold at_key at 1. rewrite get_range. cbn [in_bounds].
  fold (at_key (entries_of s v) k). apply (doc_mappings E s v k h val EO (reach_ok _ _ EO R) I P).
Qed.
Lemma entries_nodup t : t_wf t -> (forall k, NoDup (ids (at_key t k))) -> NoDup (map (fun m => (em_key m, h_id (em_src m))) (flat_map entry_mappings t)).
Proof.
  intros W ND. assert (H : forall k e, In (k, e) t -> NoDup (ids (e_maps e))).
  { intros k e I. apply In_get in I; [|exact W]. specialize (ND k). unfold at_key in ND. rewrite I in ND. exact ND. }
  apply sorted_NoDup in W. clear ND. induction t as [|[k e] r IH]; [constructor|]. cbn [flat_map]. rewrite map_app. inversion_clear W as [|? ? W1 W2].
  assert (D1 : map (fun m => (em_key m, h_id (em_src m))) (entry_mappings (k, e)) = map (pair k) (ids (e_maps e))).
  { unfold entry_mappings, ids. cbn [fst snd]. rewrite !map_map. reflexivity. }
  rewrite D1. assert (N2 := IH W2 (fun j f J => H j f (or_intror J))). specialize (H k e (or_introl eq_refl)).
  assert (DISJ : forall x, In x (map (pair k) (ids (e_maps e))) -> ~ In x (map (fun m => (em_key m, h_id (em_src m))) (flat_map entry_mappings r))).
  { intros x A B. apply in_map_iff in A. destruct A as (i & <- & _). apply in_map_iff in B. destruct B as (m & X & B).
    apply in_flat_map in B. destruct B as ([j f] & B1 & B2). unfold entry_mappings in B2. apply in_map_iff in B2. destruct B2 as (q & <- & _).
    cbn in X. injection X as -> _. apply W1. apply (in_map fst) in B1. exact B1. }
  revert DISJ. generalize (ids (e_maps e)), H. induction l as [|i l IHl]; intros N DISJ; [exact N2|]. inversion_clear N as [|? ? A B]. cbn [map app]. constructor.
  - rewrite in_app_iff. intros [C|C]; [|apply (DISJ (k, i)); [left; reflexivity|exact C]]. apply in_map_iff in C. destruct C as (i' & X & C). injection X as ->. contradiction.
  - apply IHl; [exact B|]. intros x C. apply DISJ. right. exact C.
Qed.
Lemma range_all {V} (t : tree V) : t_range Unbounded Unbounded t = t.
Proof. unfold t_range. induction t as [|p r IH]; [reflexivity|]. cbn [filter in_bounds]. rewrite IH. reflexivity. Qed.
Lemma query_all s v : query anyone s v None true None = Done (flat_map entry_mappings (entries_of s v)).
Proof. unfold query, anyone, view_entries, scan. rewrite range_all. reflexivity. Qed.
(* nothing queued: the entries are exactly the emitted keys and values *)
Theorem C28_exact : forall E s v ms, env_ok E -> reach E s -> In v (ev_views E) -> (forall id, ~ pending s v id) -> emits_once v s ->
  query anyone s v None true None = Done ms ->
  (forall k h val, In (mk_em k h val) ms <->
     exists d, doc_at s (vw_coll v) (h_id h) = Some d /\ d_header d = h /\ emits v d k val) /\
  NoDup (map (fun m => (em_key m, h_id (em_src m))) ms).
Proof.
  intros E s v ms EO R I P ON Q. split.
  - intros k h val. rewrite (C28_document E s v ms k h val EO R I Q (P _)). split.
    + intros (d & l & G & H & M & L). exists d. repeat split; auto. exists l. split; [exact M|apply last_value_In, L].
    + intros (d & G & H & l & M & L). exists d, l. repeat split; auto. destruct (ON _ _ G) as (l' & M' & N). rewrite M in M'. injection M' as <-.
      apply last_value_once; assumption.
  - rewrite query_all in Q. injection Q as <-. pose proof (reach_vs E s v EO R I) as VO. apply entries_nodup; apply VO.
Qed.
(* a complete mapper run leaves nothing queued, in whatever order the documents of
   each batch are finished; the view then is exact *)
Definition mapped_state (s : dbstate) (v : view) (vs : vstate) (t : N) : dbstate :=
  mk_db (set_view (db_work s) (vw_name v) vs) (db_log s ++ [(t, None)]).
Theorem C28_after_mapping : forall E s v sh vs t k h val ms, env_ok E -> reach E s -> In v (ev_views E) -> permutes sh ->
  map_view sh (vw_def v) (w_docs (db_work s) (vw_coll v)) (w_views (db_work s) (vw_name v)) = Done vs ->
  query anyone (mapped_state s v vs t) v None true None = Done ms ->
  (In (mk_em k h val) ms <->
   exists d l, doc_at s (vw_coll v) (h_id h) = Some d /\ d_header d = h /\ vd_map (vw_def v) d = Some l /\ last_value k l = Some val).
Proof.
  intros E s v sh vs t k h val ms EO R I P M Q. pose proof (reach_ok _ _ EO R) as OK. destruct (proj2 OK v I) as [VO FR].
  destruct (map_view_spec _ _ _ _ _ P (proj1 (proj1 OK (vw_coll v))) VO M) as (VO' & NP & F & O).
  rewrite query_all in Q. injection Q as <-.
  assert (EN : entries_of (mapped_state s v vs t) v = vs_entries vs) by (unfold entries_of, mapped_state; cbn; rewrite upd_same; reflexivity).
  assert (OK' : db_ok E (mapped_state s v vs t)).
  { apply (set_view_ok E (db_work s) v vs EO I OK). split; [exact VO'|]. intros id NI _. destruct (in_dec bytes_dec id (t_keys (vs_invalid (w_views (db_work s) (vw_name v))))) as [J|J].
    - apply F, J.
    - eapply fresh_same; [intros j; apply O, J|]. apply FR; [exact J|]. intros [_ []]. }
  rewrite In_mappings by (rewrite EN; apply VO').
  rewrite (doc_mappings E (mapped_state s v vs t) v k h val EO OK' I); [reflexivity|].
  unfold pending, mapped_state. cbn. rewrite upd_same. apply NP.
Qed.
(* the run succeeds when map and reduce do and the view is not unique *)
Theorem C28_mapping_succeeds : forall E s v sh, env_ok E -> reach E s -> In v (ev_views E) -> permutes sh ->
  vd_policy (vw_def v) <> Unique -> reduce_total (vw_def v) ->
  (forall id d, doc_at s (vw_coll v) id = Some d -> vd_map (vw_def v) d <> None) ->
  exists vs, map_view sh (vw_def v) (w_docs (db_work s) (vw_coll v)) (w_views (db_work s) (vw_name v)) = Done vs.
Proof.
  intros E s v sh EO R I P U RT M. apply map_view_total; auto.
  - apply (proj1 (reach_ok _ _ EO R) (vw_coll v)).
  - destruct (vd_policy (vw_def v)); [reflexivity|reflexivity|congruence].
  - apply (ok_wf_invalid (vw_def v)). apply reach_vs with E; assumption.
Qed.
(* values that one document emits more than once for a key are lost, except the last *)
Definition ex_twice : view := mk_view [9] [1] (mk_vdef Lazy (fun d => Some (map (fun x => ([x mod 2], [x])) (d_contents d))) ex_reduce ex_reduce).
Definition ex_env2 : env := mk_env ex_hash (fun c => if bytes_eqb c [1] then Some (TU 1) else None) [ex_twice].
Lemma ex_env2_ok : env_ok ex_env2. Proof. repeat constructor. intros []. Qed.
Definition ex_t1 : dbstate := mapper_step ex_env2 ex_twice (fun l => l) [[5]] (fst (apply_transaction ex_env2 everyone empty_db [mk_op [1] (Insert (Some [5]) [10; 11; 12])])).
Lemma ex_t1_reach : reach ex_env2 ex_t1.
Proof. apply reach_map; [apply reach_tx, reach_init|left; reflexivity|intros l; apply Permutation_refl|repeat constructor]. Qed.
Theorem C28_repeated_keys_refuted : ~ (forall E s v ms, env_ok E -> reach E s -> In v (ev_views E) -> (forall id, ~ pending s v id) ->
  query anyone s v None true None = Done ms ->
  forall k h val, In (mk_em k h val) ms <-> exists d, doc_at s (vw_coll v) (h_id h) = Some d /\ d_header d = h /\ emits v d k val).
Proof.
  intros H. set (ms := [mk_em [0] (mk_header [5] (mk_rev 0 [9; 10; 11; 12])) [12]; mk_em [1] (mk_header [5] (mk_rev 0 [9; 10; 11; 12])) [11]]).
  destruct (H ex_env2 ex_t1 ex_twice ms ex_env2_ok ex_t1_reach (or_introl eq_refl)) with (k := [0]) (h := mk_header [5] (mk_rev 0 [9; 10; 11; 12])) (val := [10]) as [_ A].
  - intros id. unfold pending, invalid. vm_compute. auto.
  - vm_compute. reflexivity.
  - destruct A as [A|[A|[]]]; [|discriminate A|discriminate A].
    eexists. split; [vm_compute; reflexivity|]. split; [reflexivity|]. eexists. split; [reflexivity|]. cbn. auto.
Qed.
Example C28_ex : let s := mapper_step ex_env ex_lazy (@rev mapped) [[5]; [6]] ex_s1 in
  reach ex_env s /\ (forall id, ~ pending s ex_lazy id) /\ emits_once ex_lazy s /\
  query anyone s ex_lazy None true None = Done [mk_em [10; 11] ex_h5 []; mk_em [20] ex_h6 []] /\
  map_view (@rev mapped) (vw_def ex_lazy) (w_docs (db_work ex_s1) [1]) (w_views (db_work ex_s1) [7]) = Done (w_views (db_work s) [7]).
Proof.
  cbv zeta. split; [apply reach_map; [exact ex_reach1|left; reflexivity|intros l; apply Permutation_sym, Permutation_rev|repeat constructor]|].
  split; [intros id; unfold pending, invalid; vm_compute; auto|].
  split; [intros id d _; eexists; split; [reflexivity|repeat constructor; intros []]|]. vm_compute. auto.
Qed.

(* ---------- C29 ---------- *)
Lemma unique_pair (E : env) s v k m1 m2 : env_ok E -> reach E s -> In v (ev_views E) -> vd_policy (vw_def v) = Unique ->
  In m1 (at_key (entries_of s v) k) -> In m2 (at_key (entries_of s v) k) -> m1 = m2.
Proof.
  intros EO R I U A B. pose proof (ok_unique _ _ (reach_vs E s v EO R I)) as L. rewrite U in L. specialize (L eq_refl k).
  fold (entries_of s v) in L. destruct (at_key (entries_of s v) k) as [|x [|y r]]; [destruct A| |cbn in L; lia].
  destruct A as [<-|[]], B as [<-|[]]. reflexivity.
Qed.
Lemma reach_shown E s v ms k h val : env_ok E -> reach E s -> In v (ev_views E) -> query anyone s v None true None = Done ms ->
  (In (mk_em k h val) ms <-> In (mk_map h val) (at_key (entries_of s v) k)).
Proof.
  intros EO R I Q. rewrite query_all in Q. injection Q as <-. apply In_mappings, (ok_wf_entries (vw_def v)), (reach_vs E s v EO R I).
Qed.
(* no query ever shows two documents under one key *)
Theorem C29_one_per_key : forall E s v ms m1 m2, env_ok E -> reach E s -> In v (ev_views E) -> vd_policy (vw_def v) = Unique ->
  query anyone s v None true None = Done ms -> In m1 ms -> In m2 ms -> em_key m1 = em_key m2 -> m1 = m2.
Proof.
  intros E s v ms [k h a] [k2 g b] EO R I U Q A B K. cbn in K. subst k2. apply (reach_shown E s v ms k h a EO R I Q) in A. apply (reach_shown E s v ms k g b EO R I Q) in B.
  pose proof (unique_pair E s v k _ _ EO R I U A B) as X. congruence.
Qed.
(* and no two stored documents emit the same key, if all documents were mapped *)
Theorem C29_no_two_documents : forall E s v i1 d1 v1 i2 d2 v2 k, env_ok E -> reach E s -> In v (ev_views E) ->
  vd_policy (vw_def v) = Unique -> (forall id, ~ pending s v id) ->
  doc_at s (vw_coll v) i1 = Some d1 -> emits v d1 k v1 -> doc_at s (vw_coll v) i2 = Some d2 -> emits v d2 k v2 -> i1 = i2.
Proof.
  intros E s v i1 d1 v1 i2 d2 v2 k EO R I U P G1 (l1 & M1 & L1) G2 (l2 & M2 & L2).
  assert (IN : forall i d l x, doc_at s (vw_coll v) i = Some d -> vd_map (vw_def v) d = Some l -> In (k, x) l ->
    exists y, In (mk_map (d_header d) y) (at_key (entries_of s v) k) /\ h_id (d_header d) = i).
  { intros i d l x G M L. destruct (last_value k l) as [y|] eqn:LV.
    - exists y. pose proof (reach_id E s _ _ _ EO R G) as HI. split; [|exact HI].
      apply (doc_mappings E s v k (d_header d) y EO (reach_ok _ _ EO R) I (P _)). exists d, l. rewrite HI. auto.
    - apply last_value_none in LV. exfalso. apply LV. apply (in_map fst) in L. exact L. }
  destruct (IN _ _ _ _ G1 M1 L1) as (y1 & A1 & <-). destruct (IN _ _ _ _ G2 M2 L2) as (y2 & A2 & <-).
  pose proof (unique_pair E s v k _ _ EO R I U A1 A2) as X. congruence.
Qed.
(* documents are mapped within their transaction: transactions never queue
   documents of a unique view *)
Theorem C29_history : forall E v h s, env_ok E -> In v (ev_views E) -> vd_policy (vw_def v) = Unique ->
  reach E s -> (forall id, ~ pending s v id) -> forall id, ~ pending (run E s h) v id.
Proof.
  intros E v. induction h as [|[p ops] h IH]; intros s EO I U R P; [exact P|]. cbn [run fold_left].
  apply (IH (fst (apply_transaction E p s ops)) EO I U (reach_tx E s p ops R)). intros id.
  destruct (apply_transaction E p s ops) as [s1 o] eqn:A. cbn [fst].
  rewrite (apply_eager_pending E p s ops s1 o v EO (reach_ok _ _ EO R) A I); [apply P|rewrite U; reflexivity].
Qed.
Theorem C29_unique_always : forall E v h i1 d1 v1 i2 d2 v2 k, env_ok E -> In v (ev_views E) -> vd_policy (vw_def v) = Unique ->
  let s := run E empty_db h in
  doc_at s (vw_coll v) i1 = Some d1 -> emits v d1 k v1 -> doc_at s (vw_coll v) i2 = Some d2 -> emits v d2 k v2 -> i1 = i2.
Proof.
  intros E v h i1 d1 v1 i2 d2 v2 k EO I U s. apply (C29_no_two_documents E); auto.
  - apply run_reach, reach_init.
  - intros id. apply (C29_history E v h empty_db EO I U (reach_init E)). intros j [].
Qed.
(* a transaction after which two documents would emit the same key fails and changes nothing *)
Theorem C29_violation_fails : forall E p s v ops s' o k i1 i2, env_ok E -> reach E s -> In v (ev_views E) ->
  vd_policy (vw_def v) = Unique -> (forall id, ~ pending s v id) -> i1 <> i2 ->
  (forall m rs, does_all (ev_hash E) (docs_of s) ops m rs -> exists d1 d2 v1 v2,
     m (vw_coll v) i1 = Some d1 /\ m (vw_coll v) i2 = Some d2 /\ emits v d1 k v1 /\ emits v d2 k v2) ->
  apply_transaction E p s ops = (s', o) -> (forall rs, o <> Done rs) /\ s' = s.
Proof.
  intros E p s v ops s' o k i1 i2 EO R I U P N C A. destruct (C19_all_or_nothing E p s ops s' o EO R A) as [(rs & -> & D & _)|X]; [|exact X].
  exfalso. destruct (C _ _ D) as (d1 & d2 & v1 & v2 & G1 & G2 & M1 & M2). apply N.
  assert (R' : reach E s') by (pose proof (reach_tx E s p ops R) as Q; rewrite A in Q; exact Q).
  apply (C29_no_two_documents E s' v i1 d1 v1 i2 d2 v2 k EO R' I U); auto.
  intros id. rewrite (apply_eager_pending E p s ops s' _ v EO (reach_ok _ _ EO R) A I); [apply P|rewrite U; reflexivity].
Qed.
(* the error of a unique view names a real conflict (single operations) *)
Lemma map_request_one vd docs id vs : t_wf docs -> map_request (fun l => l) vd docs [id] vs =
  match map_doc vd (id, t_get id docs) with Some m => apply_batch vd vs [m] | None => Fail MapError end.
Proof.
  intros W. unfold map_request. replace (chunks batch_size [id]) with [[id]] by reflexivity. cbn [map_batches]. unfold map_batch.
  rewrite load_docs_spec by (try assumption; constructor). cbn [rev app map map_docs].
  destruct (map_doc vd (id, t_get id docs)); [|reflexivity]. destruct (apply_batch vd vs [m]); reflexivity.
Qed.
Lemma update_eager_fail views c id e : forall w, NoDup (map vw_name views) -> update_eager views c id w = Fail (ViewError e) ->
  exists v, In v views /\ eager_in c v = true /\ map_request (fun l => l) (vw_def v) (w_docs w c) [id] (w_views w (vw_name v)) = Fail e.
Proof.
  induction views as [|v r IH]; intros w N H; cbn [update_eager] in H; [discriminate|]. inversion_clear N as [|? ? N1 N2].
  change (bytes_eqb (vw_coll v) c && is_eager (vd_policy (vw_def v))) with (eager_in c v) in H. destruct (eager_in c v) eqn:EI.
  - destruct (map_request (fun l => l) (vw_def v) (w_docs w c) [id] (w_views w (vw_name v))) as [vs|x|] eqn:M; try discriminate.
    + destruct (IH _ N2 H) as (u & J & EU & MU). exists u. split; [right; exact J|]. split; [exact EU|]. cbn in MU.
      rewrite upd_other in MU; [exact MU|]. intros X. apply N1. rewrite <- X. apply in_map, J.
    + injection H as ->. exists v. split; [left; reflexivity|]. auto.
  - destruct (IH _ N2 H) as (u & J & EU & MU). exists u. split; [right; exact J|]. auto.
Qed.
Definition honest_reduce (v : view) : Prop := forall l c x, vd_reduce (vw_def v) l <> Fail (UniqueKeyViolation c x).
Lemma next_id_no_view t l e : next_id t l <> Fail (ViewError e).
Proof.
  unfold next_id. set (key := match l with Some b => _ | None => _ end).
  assert (K : key <> Fail (ViewError e)).
  { unfold key. destruct l as [b|]; [destruct (decode t b); discriminate|destruct (first_value t); discriminate]. }
  destruct key as [v|x|]; [|congruence|discriminate]. destruct (next_value t v) as [n|]; [|discriminate].
  destruct (encode t n) as [b|x|]; try discriminate. destruct (try_from_bytes b); discriminate.
Qed.
Definition touches (c : bytes) (w : work) (id : bytes) (w' : work) : Prop :=
  (forall j, j <> id -> t_get j (w_docs w' c) = t_get j (w_docs w c)) /\ w_views w' = w_views w /\
  (t_wf (w_docs w c) -> t_wf (w_docs w' c)) /\
  (forall d, t_get id (w_docs w' c) = Some d -> h_id (d_header d) = id).
Lemma exec_view_error E w o e : exec_op E w o = Fail (ViewError e) -> exists id w', 
  touches (op_coll o) w id w' /\ update_eager (ev_views E) (op_coll o) id w' = Fail (ViewError e).
Proof.
  destruct o as [c cmd]. cbn [op_coll]. unfold exec_op; cbn [op_cmd op_coll].
  assert (FIN : forall id w' r, finish E c id w' r = Fail (ViewError e) -> update_eager (ev_views E) c id w' = Fail (ViewError e)).
  { intros id w' r. unfold finish. destruct (update_eager (ev_views E) c id w'); congruence. }
  assert (SET : forall id d r, h_id (d_header d) = id -> finish E c id (set_docs w c (t_set id d (w_docs w c))) r = Fail (ViewError e) -> 
    exists id w', touches c w id w' /\ update_eager (ev_views E) c id w' = Fail (ViewError e)).
  { intros id d r HD H. exists id, (set_docs w c (t_set id d (w_docs w c))). split; [|eapply FIN, H]. unfold touches. cbn. rewrite upd_same.
    split; [intros j NE; apply get_set_other, NE|].
    split; [reflexivity|]. split; [apply wf_set|]. intros d0. rewrite get_set_same. intros X. injection X as <-. exact HD. }
  assert (UPD : forall id check contents, exec_update E w c id check contents = Fail (ViewError e) -> 
    exists id w', touches c w id w' /\ update_eager (ev_views E) c id w' = Fail (ViewError e)).
  { intros id check contents. unfold exec_update. destruct (t_get id (w_docs w c)) as [old|].
    - destruct (match check with None => true | Some _ => _ end); [|discriminate].
      unfold next_revision. destruct (bytes_eqb _ _); [discriminate|]. destruct (_ <? _); [|discriminate]. apply SET. reflexivity.
    - destruct check; [discriminate|]. apply SET. reflexivity. }
  destruct cmd as [oid contents|h contents|id contents|h|id rev].
  - unfold exec_insert. destruct oid as [i|].
    + destruct (t_get i (w_docs w c)); [discriminate|]. apply SET. reflexivity.
    + destruct (ev_pk E c) as [t|]; [|discriminate]. pose proof (next_id_no_view t (t_last (w_docs w c)) e) as NV.
      destruct (next_id t (t_last (w_docs w c))) as [i|x|]; [| |discriminate].
      * destruct (t_get i (w_docs w c)); [discriminate|]. apply SET. reflexivity.
      * intros X. injection X as ->. congruence.
  - apply UPD.
  - apply UPD.
  - unfold exec_delete. destruct (t_get (h_id h) (w_docs w c)) as [old|]; [|discriminate]. destruct (header_eqb (d_header old) h) eqn:HE; [|discriminate].
    intros H. apply header_eqb_spec in HE. rewrite HE in H.
    exists (h_id h), (set_docs w c (t_remove (h_id h) (w_docs w c))). split; [|eapply FIN, H]. unfold touches. cbn. rewrite upd_same.
    split; [intros j NE; rewrite get_remove; apply bytes_eqb_neq in NE; rewrite NE; reflexivity|].
    split; [reflexivity|]. split; [apply wf_remove|]. intros d. rewrite get_remove, bytes_eqb_refl. discriminate.
  - unfold exec_check. destruct (t_get id (w_docs w c)); [|discriminate]. destruct rev as [r|]; [|discriminate]. destruct (rev_eqb _ _); discriminate.
Qed.
(* the view whose map request fails with a violation *)
Lemma violated E s o c x v id w' : env_ok E -> reach E s ->
  (forall v, In v (ev_views E) -> honest_reduce v) -> (forall v id, In v (ev_views E) -> is_eager (vd_policy (vw_def v)) = true -> ~ pending s v id) ->
  In v (ev_views E) -> touches (op_coll o) (db_work s) id w' -> eager_in (op_coll o) v = true ->
  map_request (fun l => l) (vw_def v) (w_docs w' (op_coll o)) [id] (w_views w' (vw_name v)) = Fail (UniqueKeyViolation c x) ->
  exists k d new v1 v2, In v (ev_views E) /\ vw_coll v = op_coll o /\ vd_policy (vw_def v) = Unique /\
    doc_at s (op_coll o) (h_id x) = Some d /\ d_header d = x /\ emits v d k v1 /\
    d_header new = c /\ emits v new k v2 /\ h_id c <> h_id x.
Proof.
  intros EO R HON NP I.
  intros T EI M. pose proof (reach_ok _ _ EO R) as OK. destruct T as (T1 & T2 & T3 & T4). unfold eager_in in EI. apply andb_true_iff in EI. destruct EI as [VC EA]. apply bytes_eqb_spec in VC. rewrite T2 in M.
  destruct (proj1 OK (op_coll o)) as [[W HI] _]. rewrite map_request_one in M by auto.
  unfold map_doc in M. cbn [fst snd] in M. destruct (t_get id (w_docs w' (op_coll o))) as [d|] eqn:G.
  2: { unfold apply_batch in M. destruct (swap_all (vw_def v) _ _ _ _ _ _) as [t|y|] eqn:S; try discriminate. injection M as ->.
       apply swap_all_conflict in S; [|apply sorted_NoDup, key_set_wf|intros q; apply (HON v I)|intros k a b []].
       destruct S as [S|(k & n & m & _ & [] & _)]. discriminate S. }
  destruct (vd_map (vw_def v) d) as [l|] eqn:MD; [|discriminate]. unfold apply_batch in M.
  destruct (swap_all (vw_def v) _ _ _ _ _ _) as [t|y|] eqn:S; try discriminate. injection M as ->.
  set (m0 := (id, map (fun q => mk_em (fst q) (d_header d) (snd q)) l)) in *.
  assert (NEWS : forall k n, In n (dflt (news_of [m0] k)) -> em_key n = k /\ em_src n = d_header d /\ In (k, em_value n) l).
  { intros k n J. unfold news_of in J. cbn [flat_map snd m0] in J. rewrite app_nil_r in J.
    assert (J' : In n (filter (fun e => bytes_eqb k (em_key e)) (map (fun q => mk_em (fst q) (d_header d) (snd q)) l))).
    { destruct (filter _ _); exact J. }
    apply filter_In in J'. destruct J' as [J1 J2]. apply bytes_eqb_spec in J2. apply in_map_iff in J1. destruct J1 as ([a b] & <- & J1). cbn in *. subst. auto. }
  assert (UQ : vd_policy (vw_def v) = Unique).
  { destruct (vd_policy (vw_def v)) eqn:PO; [discriminate EA| |reflexivity]. exfalso.
    revert S. assert (NC : forall c0 x0 l0 news, add_mappings (vw_def v) news l0 <> Fail (UniqueKeyViolation c0 x0)).
    { intros c0 x0 l0 news H. destruct (add_total (vw_def v) news) with (l := l0) as (l' & X); [rewrite PO; reflexivity|congruence]. }
    intros S. apply swap_all_conflict' in S; [|exact NC|apply HON, I]. discriminate S. }
  apply swap_all_conflict in S; [|apply sorted_NoDup, key_set_wf|intros q; apply (HON v I)|].
  2: { intros k a b A1 B1. apply NEWS in A1, B1. destruct A1 as (_ & -> & _), B1 as (_ & -> & _). reflexivity. }
  destruct S as [S|(k & n & m & _ & J1 & J2 & -> & -> & NE)]; [discriminate S|]. apply NEWS in J1. destruct J1 as (K1 & K2 & K3).
  rewrite K2 in *. rewrite (T4 d eq_refl) in NE.
  destruct m as [hm vm]. cbn [m_src] in *. change (m_id (mk_map hm vm)) with (h_id hm) in NE.
  apply (doc_mappings E s v k hm vm EO OK I (NP _ _ I EA)) in J2. destruct J2 as (d2 & l2 & G2 & H2 & M2 & L2). rewrite VC in G2.
  exists k, d2, d, vm, (em_value n). repeat split; auto.
  - exists l2. split; [exact M2|apply last_value_In, L2].
  - exists l. auto.
  - rewrite (T4 d eq_refl). congruence.
Qed.
Theorem C29_errors_are_conflicts : forall E p s o s' c x, env_ok E -> reach E s ->
  (forall v, In v (ev_views E) -> honest_reduce v) -> (forall v id, In v (ev_views E) -> is_eager (vd_policy (vw_def v)) = true -> ~ pending s v id) ->
  apply_transaction E p s [o] = (s', Fail (ViewError (UniqueKeyViolation c x))) ->
  exists v k d new v1 v2, In v (ev_views E) /\ vw_coll v = op_coll o /\ vd_policy (vw_def v) = Unique /\
    doc_at s (op_coll o) (h_id x) = Some d /\ d_header d = x /\ emits v d k v1 /\
    d_header new = c /\ emits v new k v2 /\ h_id c <> h_id x.
Proof.
  intros E p s o s' c x EO R HON NP A. pose proof (reach_ok _ _ EO R) as OK.
  unfold apply_transaction, apply_to_roots in A. destruct (forallb (op_allowed p) [o]); [|discriminate].
  destruct (colls_defined E [o]); [|discriminate].
  assert (X : exec_op E (db_work s) o = Fail (ViewError (UniqueKeyViolation c x))).
  { cbn [run_ops] in A. destruct (exec_op E (db_work s) o) as [[w' r]|y|]; [|congruence|discriminate].
    destruct (record_result (mk_changes [] []) r) as [ch|y|] eqn:RR; [| |discriminate].
    - destruct (invalidate E ch w') as [w2|y|] eqn:IV; try discriminate. exfalso. injection A as _ ->. revert IV. unfold invalidate. clear.
      assert (G : forall ds (o : outcome work terr), (forall e, o <> Fail e) -> fold_left (inv_step E ch) ds o <> Fail (ViewError (UniqueKeyViolation c x))).
      { induction ds as [|d ds IH]; intros o H; cbn [fold_left]; [apply H|]. apply IH. intros e. destruct o as [w|y|]; cbn; [destruct (change_coll ch d); discriminate|apply H|discriminate]. }
      apply G. discriminate.
    - exfalso. injection A as _ ->. revert RR. unfold record_result, record_change. destruct r; cbn; discriminate. }
  apply exec_view_error in X. destruct X as (id & w' & T & U). apply update_eager_fail in U; [|exact EO].
  destruct U as (v & I & EI & M). exists v. eapply violated; eauto.
Qed.
Example C29_ex : (forall id, ~ pending ex_s1 ex_unique id) /\ vd_policy (vw_def ex_unique) = Unique /\
  query anyone ex_s1 ex_unique None true None = Done [mk_em [10] ex_h5 []; mk_em [20] ex_h6 []] /\
  apply_transaction ex_env everyone ex_s1 [mk_op [1] (Insert None [10; 99])] =
    (ex_s1, Fail (ViewError (UniqueKeyViolation (mk_header [7] (mk_rev 0 [9; 10; 99])) ex_h5))) /\
  (exists s' rs, apply_transaction ex_env everyone ex_s1 [mk_op [1] (Delete ex_h5); mk_op [1] (Insert None [10; 99])] = (s', Done rs)).
Proof. split; [intros id []|]. vm_compute. eauto 10. Qed.

Print Assumptions C28_document.
Print Assumptions C28_exact.
Print Assumptions C28_after_mapping.
Print Assumptions C28_mapping_succeeds.
Print Assumptions C28_repeated_keys_refuted.
Print Assumptions C29_one_per_key.
Print Assumptions C29_no_two_documents.
Print Assumptions C29_history.
Print Assumptions C29_unique_always.
Print Assumptions C29_violation_fails.
Print Assumptions C29_errors_are_conflicts.
