(* Properties of the updates of views: C33, C34. *)
From Verif Require Import Base Key KeyPrefix DocId Tree View ViewProofs ViewMap Docs DocsProofs DocsSpec DocsMore DocsHist PropDocs
  Query ViewTotal ViewSync ViewSyncProofs PropViews.
From Coq Require Import Permutation Sorting.Sorted.
Local Open Scope N_scope.

(* ---------- C33 ---------- *)
Lemma queue_get ids : forall t k, t_get k (fold_left (fun t i => t_set i tt t) ids t) = if mem k ids then Some tt else t_get k t.
Proof.
  induction ids as [|i r IH]; intros t k; [reflexivity|]. cbn [fold_left mem existsb]. fold (mem k r). rewrite IH, get_set.
  destruct (bytes_eqb k i), (mem k r); reflexivity.
Qed.
Lemma queue_wf ids : forall t : tree unit, t_wf t -> t_wf (fold_left (fun t i => t_set i tt t) ids t).
Proof. induction ids as [|i r IH]; intros t W; [exact W|]. apply IH, wf_set, W. Qed.
(* the version is the stored one: nothing is dropped or queued *)
Theorem C33_same_version : forall v schema st s, st = Some (mk_version 3 schema) -> integrity_scan v schema st s = (s, st, false).
Proof. intros v schema st s H. unfold integrity_scan, is_current, current_version. rewrite H. cbn. rewrite N.eqb_refl. reflexivity. Qed.
(* another version, or none, is stored: the entries are dropped, all documents
   queued, the new version is stored, and nothing else changes *)
Theorem C33_other_version : forall v schema st s, st <> Some (mk_version 3 schema) ->
  exists s', integrity_scan v schema st s = (s', Some (mk_version 3 schema), true) /\
    query anyone s' v None true None = Done [] /\
    (forall id, pending s' v id <-> exists d, doc_at s (vw_coll v) id = Some d) /\
    (forall c id, doc_at s' c id = doc_at s c id) /\
    (forall u, vw_name u <> vw_name v -> entries_of s' u = entries_of s u /\ forall id, pending s' u id <-> pending s u id).
Proof.
  intros v schema st s H. unfold integrity_scan. destruct (is_current (stored_version st) schema) eqn:C.
  - exfalso. apply H. unfold is_current, current_version in C. apply andb_true_iff in C. destruct C as [A B]. apply N.eqb_eq in A, B.
    destruct st as [[a b]|]; cbn in A, B; [congruence|discriminate].
  - eexists. split; [reflexivity|]. unfold scan_queue, scan_drop, scan_read. cbn [db_work set_view w_views w_docs].
    split; [rewrite query_all; unfold entries_of; cbn; rewrite !upd_same; reflexivity|]. split; [|split].
    + intros id. unfold pending, invalid. rewrite keys_get. cbn [db_work set_view w_views w_docs]. rewrite !upd_same. cbn [vs_invalid empty_vs]. unfold doc_at. rewrite queue_get.
      rewrite <- keys_get, <- mem_In. cbn [t_get]. destruct (mem id _); split; auto; try discriminate; [eauto|intros [u X]; discriminate].
    + reflexivity.
    + intros u N. unfold entries_of, pending. cbn. rewrite !upd_other by exact N. split; reflexivity.
Qed.
Lemma rebuilt : forall E0 v schema st s s' st' sh vs t ms k h val, env_ok E0 -> (forall c, coll_ok E0 (w_docs (db_work s) c)) -> st <> Some (mk_version 3 schema) ->
  integrity_scan v schema st s = (s', st', true) -> permutes sh ->
  map_view sh (vw_def v) (w_docs (db_work s') (vw_coll v)) (w_views (db_work s') (vw_name v)) = Done vs ->
  query anyone (mapped_state s' v vs t) v None true None = Done ms ->
  (In (mk_em k h val) ms <->
   exists d l, doc_at s (vw_coll v) (h_id h) = Some d /\ d_header d = h /\ vd_map (vw_def v) d = Some l /\ last_value k l = Some val).
Proof.
  intros E0 v schema st s s' st' sh vs t ms k h val EO R NE SC P M Q.
  destruct (C33_other_version v schema st s NE) as (s1 & SC1 & _ & PD & DD & _). rewrite SC in SC1. injection SC1 as <- _.
  pose proof (proj1 (R (vw_coll v))) as DO.
  assert (DS : w_docs (db_work s') (vw_coll v) = w_docs (db_work s) (vw_coll v)).
  { unfold integrity_scan in SC. destruct (is_current _ _); [discriminate|]. injection SC as <- _. reflexivity. }
  rewrite DS in M.
  assert (VS : exists inv, w_views (db_work s') (vw_name v) = mk_vs [] [] inv /\ t_wf inv).
  { unfold integrity_scan in SC. destruct (is_current _ _); [discriminate|]. injection SC as <- _. unfold scan_queue, scan_drop. cbn. rewrite !upd_same. cbn.
    eexists. split; [reflexivity|]. apply queue_wf, wf_nil. }
  destruct VS as (inv & VS & WI).
  assert (VO : vs_ok (vw_def v) (w_views (db_work s') (vw_name v))) by (rewrite VS; apply (vs_ok_invalid _ _ _ [] _ WI), vs_ok_empty).
  destruct (map_view_spec _ _ _ _ _ P DO VO M) as (VO' & NP & F & O).
  rewrite query_all in Q. injection Q as <-.
  assert (EN : entries_of (mapped_state s' v vs t) v = vs_entries vs) by (unfold entries_of, mapped_state; cbn; rewrite upd_same; reflexivity).
  set (E1 := mk_env (ev_hash E0) (ev_pk E0) [v]).
  assert (EO1 : env_ok E1) by (repeat constructor; intros []).
  assert (OK1 : db_ok E1 (mapped_state s' v vs t)).
  { split.
    - intros c. cbn. replace (w_docs (db_work s') c) with (w_docs (db_work s) c); [apply R|].
      unfold integrity_scan in SC. destruct (is_current _ _); [discriminate|]. injection SC as <- _. reflexivity.
    - intros u [<-|[]]. cbn. rewrite upd_same, DS. split; [exact VO'|]. intros id _ _.
      destruct (in_dec bytes_dec id (t_keys (vs_invalid (w_views (db_work s') (vw_name v))))) as [J|J]; [apply F, J|].
      unfold fresh. destruct (t_get id (w_docs (db_work s) (vw_coll v))) as [d|] eqn:G.
      + exfalso. apply J. apply PD. exists d. exact G.
      + intros j. rewrite O by exact J. rewrite VS. reflexivity. }
  rewrite In_mappings by (rewrite EN; apply VO').
  rewrite (doc_mappings E1 (mapped_state s' v vs t) v k h val EO1 OK1 (or_introl eq_refl)).
  - unfold mapped_state, doc_at at 1. cbn. rewrite DS. reflexivity.
  - unfold pending, mapped_state. cbn. rewrite upd_same. apply NP.
Qed.
(* mapping the queued documents then gives exactly the entries of the new map
   function, whatever the view held before and whatever other functions had
   produced it (E0 is the earlier schema) *)
Theorem C33_rebuilt : forall E0 v schema st s s' st' sh vs t ms k h val, env_ok E0 -> reach E0 s -> st <> Some (mk_version 3 schema) ->
  integrity_scan v schema st s = (s', st', true) -> permutes sh ->
  map_view sh (vw_def v) (w_docs (db_work s') (vw_coll v)) (w_views (db_work s') (vw_name v)) = Done vs ->
  query anyone (mapped_state s' v vs t) v None true None = Done ms ->
  (In (mk_em k h val) ms <->
   exists d l, doc_at s (vw_coll v) (h_id h) = Some d /\ d_header d = h /\ vd_map (vw_def v) d = Some l /\ last_value k l = Some val).
Proof. intros E0 v schema st s s' st' sh vs t ms k h val EO R. apply (rebuilt E0); [exact EO|]. apply (reach_ok _ _ EO R). Qed.
(* the process may die during the scan, any number of times: no document and no other view
   is affected, the version is still the old one, so the next scan runs, and mapping after it
   gives exactly the entries of the new map function *)
Definition crashed (v : view) (s : dbstate) (ns : list nat) : dbstate := fold_left (scan_crash v) ns s.
Lemma crashed_docs v ns : forall s, w_docs (db_work (crashed v s ns)) = w_docs (db_work s).
Proof. induction ns as [|n r IH]; intros s; [reflexivity|]. unfold crashed in *. cbn [fold_left]. rewrite IH. reflexivity. Qed.
Lemma crashed_views v u ns : vw_name u <> vw_name v -> forall s, w_views (db_work (crashed v s ns)) (vw_name u) = w_views (db_work s) (vw_name u).
Proof. intros N. induction ns as [|n r IH]; intros s; [reflexivity|]. unfold crashed in *. cbn [fold_left]. rewrite IH. cbn. apply upd_other, N. Qed.
Theorem C33_crash : forall E0 v schema st s ns, env_ok E0 -> reach E0 s -> st <> Some (mk_version 3 schema) ->
  (forall c id, doc_at (crashed v s ns) c id = doc_at s c id) /\
  (forall u, vw_name u <> vw_name v -> entries_of (crashed v s ns) u = entries_of s u /\ forall id, pending (crashed v s ns) u id <-> pending s u id) /\
  exists s', integrity_scan v schema st (crashed v s ns) = (s', Some (mk_version 3 schema), true) /\
    forall sh vs t ms k h val, permutes sh ->
      map_view sh (vw_def v) (w_docs (db_work s') (vw_coll v)) (w_views (db_work s') (vw_name v)) = Done vs ->
      query anyone (mapped_state s' v vs t) v None true None = Done ms ->
      (In (mk_em k h val) ms <->
       exists d l, doc_at s (vw_coll v) (h_id h) = Some d /\ d_header d = h /\ vd_map (vw_def v) d = Some l /\ last_value k l = Some val).
Proof.
  intros E0 v schema st s ns EO R NE.
  assert (DD : forall c id, doc_at (crashed v s ns) c id = doc_at s c id) by (intros c id; unfold doc_at; rewrite crashed_docs; reflexivity).
  split; [exact DD|]. split.
  - intros u N. unfold entries_of, pending, invalid. rewrite (crashed_views v u ns N). split; reflexivity.
  - destruct (C33_other_version v schema st (crashed v s ns) NE) as (s' & SC & _). exists s'. split; [exact SC|].
    intros sh vs t ms k h val P M Q. rewrite <- DD. refine (rebuilt E0 v schema st (crashed v s ns) s' _ sh vs t ms k h val EO _ NE SC P M Q).
    intros c. rewrite crashed_docs. apply (reach_ok _ _ EO R).
Qed.
Example C33_crash_ex : let s := crashed ex_lazy (fst (apply_transaction ex_env everyone empty_db ex_ops1)) [2; 1; 3]%nat in
  exists s' vs, integrity_scan ex_lazy 4 (Some (mk_version 3 3)) s = (s', Some (mk_version 3 4), true) /\
  map_view (fun l => l) (vw_def ex_lazy) (w_docs (db_work s') [1]) (w_views (db_work s') [7]) = Done vs /\
  query anyone (mapped_state s' ex_lazy vs 9) ex_lazy None true None = Done [mk_em [10; 11] ex_h5 []; mk_em [20] ex_h6 []].
Proof. eexists. eexists. split; [vm_compute; reflexivity|]. split; vm_compute; reflexivity. Qed.
(* with a transaction between reading the documents and dropping the trees, a
   document is never mapped: it is not queued, and the view has no entry of it *)
Theorem C33_concurrent_refuted : ~ (forall E s v p ops s1, env_ok E -> reach E s -> In v (ev_views E) ->
  s1 = fst (apply_transaction E p s ops) ->
  let s2 := scan_queue v (scan_read v s) (scan_drop v s1) in
  forall id d, doc_at s2 (vw_coll v) id = Some d -> pending s2 v id \/ fresh (vw_def v) (w_docs (db_work s2) (vw_coll v)) (w_views (db_work s2) (vw_name v)) id).
Proof.
  intros H. specialize (H ex_env ex_s1 ex_lazy everyone [mk_op [1] (Insert (Some [9]) [30])] _ ex_env_ok ex_reach1 (or_introl eq_refl) eq_refl).
  cbn zeta in H. specialize (H [9] (mk_doc (mk_header [9] (mk_rev 0 [9; 30])) [30]) ltac:(vm_compute; reflexivity)). destruct H as [H|H].
  - unfold pending, invalid in H. vm_compute in H. destruct H as [H|[H|[]]]; discriminate H.
  - unfold fresh in H. match type of H with context[t_get [9] ?t] => let x := eval vm_compute in (t_get [9] t) in change (t_get [9] t) with x in H end.
    destruct H as (l & M & H). vm_compute in M. injection M as <-. specialize (H [30]). vm_compute in H. discriminate H.
Qed.
Example C33_ex : exists s', integrity_scan ex_lazy 4 (Some (mk_version 3 3)) ex_s1 = (s', Some (mk_version 3 4), true) /\
  exists vs, map_view (fun l => l) (vw_def ex_lazy) (w_docs (db_work s') [1]) (w_views (db_work s') [7]) = Done vs /\
  query anyone (mapped_state s' ex_lazy vs 9) ex_lazy None true None = Done [mk_em [10; 11] ex_h5 []; mk_em [20] ex_h6 []].
Proof. eexists. split; [vm_compute; reflexivity|]. eexists. split; vm_compute; reflexivity. Qed.

(* ---------- C34 ---------- *)
(* in every schedule: when a waiting query goes on, each document of the view not
   changed by a transaction after the query's start is up to date in the view *)
Theorem C34_waits : forall E v s y0 T z ms k h val, env_ok E -> reach E s -> In v (ev_views E) ->
  steps_to E v (sys_start s) y0 -> answers E v T y0 z ->
  ~ touched_after (db_log (sy_db z)) T (vw_coll v) (h_id h) ->
  query anyone (sy_db z) v None true None = Done ms ->
  (In (mk_em k h val) ms <->
   exists d l, doc_at (sy_db z) (vw_coll v) (h_id h) = Some d /\ d_header d = h /\ vd_map (vw_def v) d = Some l /\ last_value k l = Some val).
Proof.
  intros E v s y0 T z ms k h val EO R I S0 A NT Q.
  assert (Z : steps_to E v (sys_start s) z /\ exists t, T <= t /\ In t (sy_done z)).
  { destruct A as [y t _ S1 ST NL S2|t _ S1 D LE].
    - assert (Y : sys_ok E v y) by (exact (steps_sys_ok E v _ _ EO I (steps_trans E v _ _ _ S0 S1) (start_sys_ok E v s EO R))).
      split; [eapply steps_trans; [eapply steps_trans; [exact S0|exact S1]|exact S2]|]. exists t. split; [lia|].
      eapply steps_done; [exact S2|]. apply (so_status _ _ _ Y), ST.
    - split; [eapply steps_trans; eassumption|]. eauto. }
  destruct Z as (SZ & t & LE & D). pose proof (steps_sys_ok E v _ _ EO I SZ (start_sys_ok E v s EO R)) as OK.
  assert (NP : ~ pending (sy_db z) v (h_id h)).
  { intros P. apply NT. destruct (proj2 (so_done _ _ _ OK t D) (h_id h) P) as (t' & ch & del & X & Y & W). exists t', ch, del. split; [exact X|]. split; [lia|exact W]. }
  rewrite query_all in Q. injection Q as <-. pose proof (so_db _ _ _ OK) as DB.
  rewrite In_mappings by (apply (ok_wf_entries (vw_def v)), (proj2 DB v I)).
  apply (doc_mappings E (sy_db z) v k h val EO DB I NP).
Qed.
(* each transaction's id is larger than those of all earlier ones, so nothing
   committed before the query's start has an id above T *)
Theorem C34_earlier_transactions : forall E v s y T t x, env_ok E -> reach E s -> In v (ev_views E) -> steps_to E v (sys_start s) y ->
  last_tx (sy_db y) = Some T -> In (t, x) (db_log (sy_db y)) -> t <= T.
Proof.
  intros E v s y T t x EO R I S L J. pose proof (so_log _ _ _ (steps_sys_ok E v _ _ EO I S (start_sys_ok E v s EO R)) _ J) as A. cbn in A.
  assert (B : next_tx (db_log (sy_db y)) <= T + 1).
  { unfold last_tx in L. unfold next_tx. destruct (db_log (sy_db y)) as [|e l]; [destruct J|]. revert L. generalize (last (map fst (e :: l)) 0). intros n L. injection L as <-. destruct n; lia. }
  lia.
Qed.
(* deleting and creating a database of the same name (storage.rs:977-1045) starts with an
   empty log, but tasks.rs keeps the status of the view *)
Definition recreate (y : sys) : sys := mk_sys empty_db (sy_status y) None [].
Lemma ex_steps : exists z, steps_to ex_env ex_lazy (sys_start ex_s1) z /\ sy_status z = Some 1 /\ sy_done z = [1] /\ last_tx (sy_db z) = Some 2 /\
  query anyone (sy_db z) ex_lazy None true None = Done [mk_em [10; 11] ex_h5 []; mk_em [20] ex_h6 []].
Proof.
  eexists. split.
  - eapply steps_more; [apply step_start with (t := 1); reflexivity|]. eapply steps_more; [apply step_read with (t := 1); reflexivity|].
    eapply steps_more; [eapply step_chunk with (sh := fun l => l); [reflexivity|vm_compute; discriminate|intros l; apply Permutation_refl|vm_compute; reflexivity]|].
    eapply steps_more; [apply step_finish with (t := 1); vm_compute; reflexivity|]. apply steps_refl.
  - vm_compute. auto.
Qed.
(* nothing but an answer reads the status *)
Lemma shadow_step E v y z st' : step E v y z -> exists st'',
  step E v (mk_sys (sy_db y) st' (sy_job y) (sy_done y)) (mk_sys (sy_db z) st'' (sy_job z) (sy_done z)) /\
  (sy_status z = st'' \/ (sy_status z = sy_status y /\ st'' = st' /\ sy_done z = sy_done y)).
Proof.
  intros S. destruct S as [y p ops|y u sh ids J N P Q|y t JB LT|y t JB|y t l sh vs JB NE P n M|y j JB|y t JB]; cbn [sy_db sy_status sy_job sy_done].
  - exists st'. split; [apply (step_tx E v (mk_sys (sy_db y) st' (sy_job y) (sy_done y)))|right; auto].
  - exists st'. split; [apply (step_other E v (mk_sys (sy_db y) st' (sy_job y) (sy_done y))); assumption|right; auto].
  - exists st'. split; [apply (step_start E v (mk_sys (sy_db y) st' (sy_job y) (sy_done y))); assumption|right; auto].
  - exists st'. split; [apply (step_read E v (mk_sys (sy_db y) st' (sy_job y) (sy_done y))); assumption|right; auto].
  - exists st'. split; [apply (step_chunk E v (mk_sys (sy_db y) st' (sy_job y) (sy_done y)) t l sh vs); assumption|right; auto].
  - exists st'. split; [apply (step_fail E v (mk_sys (sy_db y) st' (sy_job y) (sy_done y)) j); assumption|right; auto].
  - exists (Some t). split; [apply (step_finish E v (mk_sys (sy_db y) st' (sy_job y) (sy_done y))); assumption|left; reflexivity].
Qed.
Lemma shadow_steps E v y z : steps_to E v y z -> forall st', exists st'',
  steps_to E v (mk_sys (sy_db y) st' (sy_job y) (sy_done y)) (mk_sys (sy_db z) st'' (sy_job z) (sy_done z)) /\
  (sy_status z = st'' \/ (sy_status z = sy_status y /\ st'' = st' /\ sy_done z = sy_done y)).
Proof.
  induction 1 as [y|y z x S _ IH]; intros st'; [exists st'; split; [apply steps_refl|right; auto]|].
  destruct (shadow_step E v y z st' S) as (s1 & S1 & D1). destruct (IH s1) as (s2 & S2 & D2). exists s2. split; [eapply steps_more; eassumption|].
  destruct D2 as [D2|(A & B & C)]; [left; exact D2|]. subst s2. destruct D1 as [D1|(D1 & B & C1)]; [left; congruence|]. right. repeat split; congruence.
Qed.
(* a database that begins with the status of an earlier one of the same name, and any content: once
   its transaction ids have passed that status, or once a mapper job of its own has finished,
   queries wait as they should *)
Theorem C34_recreated : forall E v s stale y0 T z ms k h val, env_ok E -> reach E s -> In v (ev_views E) ->
  steps_to E v (mk_sys s stale None []) y0 -> (forall t, stale = Some t -> t < T) \/ sy_done y0 <> [] ->
  answers E v T y0 z ->
  ~ touched_after (db_log (sy_db z)) T (vw_coll v) (h_id h) ->
  query anyone (sy_db z) v None true None = Done ms ->
  (In (mk_em k h val) ms <->
   exists d l, doc_at (sy_db z) (vw_coll v) (h_id h) = Some d /\ d_header d = h /\ vd_map (vw_def v) d = Some l /\ last_value k l = Some val).
Proof.
  intros E v s stale y0 T z ms k h val EO R I S0 OLD A NT Q.
  assert (X : forall y, steps_to E v (mk_sys s stale None []) y -> exists st, sys_ok E v (mk_sys (sy_db y) st (sy_job y) (sy_done y)) /\
    (sy_status y = st \/ (sy_status y = stale /\ sy_done y = []))).
  { intros y Y. destruct (shadow_steps E v _ _ Y None) as (st & Y1 & D). exists st. split.
    - exact (steps_sys_ok E v _ _ EO I Y1 (start_sys_ok E v s EO R)).
    - destruct D as [D|(D & _ & D2)]; [left; exact D|right; split; [exact D|exact D2]]. }
  assert (Z : steps_to E v (mk_sys s stale None []) z /\ exists t, T <= t /\ In t (sy_done z)).
  { destruct A as [y t _ S1 ST NL S2|t _ S1 D LE].
    - assert (S01 := steps_trans E v _ _ _ S0 S1). split; [eapply steps_trans; [exact S01|exact S2]|]. exists t. split; [lia|].
      eapply steps_done; [exact S2|]. destruct (X y S01) as (st & OK & [D|[D N]]).
      + rewrite ST in D. subst st. exact (so_status _ _ _ OK t eq_refl).
      + exfalso. destruct OLD as [OLD|OLD]; [apply NL, OLD; congruence|]. destruct (sy_done y0) as [|x r] eqn:Y0; [congruence|].
        pose proof (steps_done E v _ _ S1 x) as G. rewrite Y0, N in G. exact (G (or_introl eq_refl)).
    - split; [eapply steps_trans; eassumption|]. eauto. }
  destruct Z as (SZ & t & LE & D). destruct (X z SZ) as (st & OK & _).
  assert (NP : ~ pending (sy_db z) v (h_id h)).
  { intros P. apply NT. destruct (proj2 (so_done _ _ _ OK t D) (h_id h) P) as (t' & ch & del & X1 & Y & W). exists t', ch, del. split; [exact X1|]. split; [lia|exact W]. }
  rewrite query_all in Q. injection Q as <-. pose proof (so_db _ _ _ OK) as DB. cbn [sy_db] in DB.
  rewrite In_mappings by (apply (ok_wf_entries (vw_def v)), (proj2 DB v I)).
  apply (doc_mappings E (sy_db z) v k h val EO DB I NP).
Qed.
(* the old status is 0; the first transaction of the new database is 1, and after a mapper job the
   query of it is answered *)
Example C34_recreated_ex : exists y0 z, steps_to ex_env ex_lazy (mk_sys empty_db (Some 0) None []) y0 /\ answers ex_env ex_lazy 1 y0 z /\
  query anyone (sy_db y0) ex_lazy None true None = Done [] /\
  query anyone (sy_db z) ex_lazy None true None = Done [mk_em [10; 11] ex_h5 []].
Proof.
  set (y0 := mk_sys (fst (apply_transaction ex_env everyone empty_db [mk_op [1] (Insert (Some [5]) [10; 11])])) (Some 0) None []).
  assert (W : exists z, steps_to ex_env ex_lazy y0 z /\ In 1 (sy_done z) /\ query anyone (sy_db z) ex_lazy None true None = Done [mk_em [10; 11] ex_h5 []]).
  { eexists. split; [|split].
    - eapply steps_more; [apply step_start with (t := 1); reflexivity|]. eapply steps_more; [apply step_read with (t := 1); reflexivity|].
      eapply steps_more; [eapply step_chunk with (sh := fun l => l); [reflexivity|vm_compute; discriminate|intros l; apply Permutation_refl|vm_compute; reflexivity]|].
      eapply steps_more; [apply step_finish with (t := 1); vm_compute; reflexivity|]. apply steps_refl.
    - left. reflexivity.
    - vm_compute. reflexivity. }
  destruct W as (z & S & D & Q). exists y0, z. split; [eapply steps_more; [apply (step_tx ex_env ex_lazy (mk_sys empty_db (Some 0) None []) everyone)|apply steps_refl]|].
  split; [eapply answer_job with (t := 1); [reflexivity|exact S|exact D|lia]|]. split; [vm_compute; reflexivity|exact Q].
Qed.
(* a query of the new database is answered from the old status, without its first document *)
Theorem C34_recreated_refuted : ~ (forall E v s z p ops T y0 ms k h val, env_ok E -> reach E s -> In v (ev_views E) ->
  steps_to E v (sys_start s) z -> step E v (recreate z) y0 -> y0 = mk_sys (fst (apply_transaction E p empty_db ops)) (sy_status z) None [] ->
  answers E v T y0 y0 -> ~ touched_after (db_log (sy_db y0)) T (vw_coll v) (h_id h) ->
  query anyone (sy_db y0) v None true None = Done ms ->
  (In (mk_em k h val) ms <->
   exists d l, doc_at (sy_db y0) (vw_coll v) (h_id h) = Some d /\ d_header d = h /\ vd_map (vw_def v) d = Some l /\ last_value k l = Some val)).
Proof.
  intros H. destruct ex_steps as (z & Z & ST & _).
  set (y0 := mk_sys (fst (apply_transaction ex_env everyone empty_db [mk_op [1] (Insert (Some [5]) [10; 11])])) (sy_status z) None []).
  destruct (H ex_env ex_lazy ex_s1 z everyone [mk_op [1] (Insert (Some [5]) [10; 11])] 1 y0 [] [10; 11] ex_h5 [] ex_env_ok ex_reach1 (or_introl eq_refl) Z) as [_ A].
  - apply (step_tx ex_env ex_lazy (recreate z) everyone [mk_op [1] (Insert (Some [5]) [10; 11])]).
  - reflexivity.
  - eapply answer_status with (y := y0) (t := 1); [reflexivity|apply steps_refl|exact ST|lia|apply steps_refl].
  - intros (t' & ch & del & X & Y & _). vm_compute in X. destruct X as [X|[]]. injection X as <- _. lia.
  - vm_compute. reflexivity.
  - destruct A. eexists. eexists. split; [vm_compute; reflexivity|]. split; [reflexivity|]. split; [reflexivity|]. vm_compute. reflexivity.
Qed.
Example C34_ex : exists z, steps_to ex_env ex_lazy (sys_start ex_s1) z /\ answers ex_env ex_lazy 1 (sys_start ex_s1) z /\
  query anyone (sy_db z) ex_lazy None true None = Done [mk_em [10; 11] ex_h5 []; mk_em [20] ex_h6 []].
Proof.
  destruct ex_steps as (z & Z & ST & D & _ & Q). exists z. split; [exact Z|]. split; [|exact Q]. apply answer_job with (t := 1); [reflexivity|exact Z|rewrite D; left; reflexivity|lia].
Qed.

Print Assumptions C33_same_version.
Print Assumptions C33_other_version.
Print Assumptions C33_rebuilt.
Print Assumptions C33_concurrent_refuted.
Print Assumptions C34_waits.
Print Assumptions C34_earlier_transactions.
Print Assumptions C34_recreated.
Print Assumptions C34_recreated_refuted.
Print Assumptions C33_crash.
