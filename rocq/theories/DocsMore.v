From Verif Require Import Base Key KeyPrefix DocId Tree View ViewProofs ViewMap Docs DocsProofs DocsSpec.
From Coq Require Import Sorting.Sorted Sorting.Permutation.
Local Open Scope N_scope.

Lemma finish_put E w c id d w' r res : env_ok E -> 
  h_id (d_header d) = id -> r_sha (h_rev (d_header d)) = ev_hash E (d_contents d) ->
  finish E c id (set_docs w c (t_set id d (w_docs w c))) res = Done (w', r) ->
  r = res /\ same_docs (put (w_map w) c id (Some d)) (w_map w').
Proof.
  intros EO A B H. apply finish_inv in H. destruct H as [-> H]. split; [reflexivity|].
  assert (CD : change_doc E w c id (Some d) w') by (split; [intros x X; injection X as <-; auto|exact H]).
  intros c' i. unfold w_map, put. rewrite (change_get _ _ _ _ _ _ EO CD). reflexivity.
Qed.
Lemma finish_del E w c id w' r res : env_ok E ->
  finish E c id (set_docs w c (t_remove id (w_docs w c))) res = Done (w', r) ->
  r = res /\ same_docs (put (w_map w) c id None) (w_map w').
Proof.
  intros EO H. apply finish_inv in H. destruct H as [-> H]. split; [reflexivity|].
  assert (CD : change_doc E w c id None w') by (split; [discriminate|exact H]).
  intros c' i. unfold w_map, put. rewrite (change_get _ _ _ _ _ _ EO CD). reflexivity.
Qed.
Lemma same_refl m : same_docs m m. Proof. intros c id. reflexivity. Qed.

Lemma next_rev_cases E r contents :
  (ev_hash E contents = r_sha r /\ next_revision E r contents = Done None) \/
  (ev_hash E contents <> r_sha r /\ (next_revision E r contents = Done (Some (mk_rev (r_id r + 1) (ev_hash E contents))) \/
     next_revision E r contents = Panic)).
Proof.
  unfold next_revision. destruct (bytes_eqb (ev_hash E contents) (r_sha r)) eqn:B.
  - left. apply bytes_eqb_spec in B. auto.
  - right. apply bytes_eqb_neq in B. split; [exact B|]. destruct (r_id r + 1 <? 2 ^ 32); auto.
Qed.

Lemma exec_does E w o w' r : env_ok E -> (forall c, coll_ok E (w_docs w c)) -> exec_op E w o = Done (w', r) ->
  exists m, does (ev_hash E) (w_map w) (op_coll o) (op_cmd o) m r /\ same_docs m (w_map w').
Proof.
  intros EO OK. destruct o as [c cmd]. unfold exec_op. cbn [op_cmd op_coll].
  destruct cmd as [oid contents|h contents|id contents|h|id rv].
  - unfold exec_insert.
    destruct (match oid with Some i => Done i | None => match ev_pk E c with Some t => next_id t (t_last (w_docs w c)) | None => Fail CollectionNotFound end end)
      as [i|e|] eqn:ID; try discriminate.
    destruct (t_get i (w_docs w c)) as [old|] eqn:G; [discriminate|]. intros H.
    apply (finish_put E w c i (new_doc E i contents)) in H; [|exact EO|reflexivity|reflexivity]. destruct H as [-> S].
    eexists. split; [|exact S]. apply does_insert; [|exact G]. destruct oid; [injection ID as ->|]; auto.
  - unfold exec_update. destruct (t_get (h_id h) (w_docs w c)) as [old|] eqn:G; [|discriminate].
    destruct (rev_eqb (h_rev (d_header old)) (h_rev h)) eqn:R; [|discriminate]. apply rev_eqb_spec in R.
    destruct (next_rev_cases E (h_rev (d_header old)) contents) as [[A B]|[A [B|B]]]; rewrite B.
    + intros H. injection H as <- <-. eexists. split; [|apply same_refl].
      eapply does_update_same; [exact G|exact R|congruence].
    + intros H. eapply finish_put in H; [|exact EO|reflexivity|reflexivity]. destruct H as [-> S].
      eexists. split; [|exact S]. rewrite R in *. cbn. eapply does_update; [exact G|exact R|exact A].
    + discriminate.
  - unfold exec_update. destruct (t_get id (w_docs w c)) as [old|] eqn:G.
    + destruct (next_rev_cases E (h_rev (d_header old)) contents) as [[A B]|[A [B|B]]]; rewrite B.
      * intros H. injection H as <- <-. eexists. split; [|apply same_refl].
        eapply does_overwrite_same; [exact G|exact A].
      * intros H. eapply finish_put in H; [|exact EO|reflexivity|reflexivity]. destruct H as [-> S].
        eexists. split; [|exact S]. cbn. eapply does_overwrite; [exact G|exact A].
      * discriminate.
    + intros H. eapply finish_put in H; [|exact EO|reflexivity|reflexivity]. destruct H as [-> S].
      eexists. split; [|exact S]. apply does_overwrite_new. exact G.
  - unfold exec_delete. destruct (t_get (h_id h) (w_docs w c)) as [old|] eqn:G; [|discriminate].
    destruct (header_eqb (d_header old) h) eqn:Q; [|discriminate]. apply header_eqb_spec in Q. rewrite Q.
    intros H. apply finish_del in H; [|exact EO]. destruct H as [-> S]. eexists. split; [|exact S].
    eapply does_delete; [exact G|exact Q].
  - unfold exec_check. destruct (t_get id (w_docs w c)) as [old|] eqn:G; [|discriminate].
    destruct rv as [r0|].
    + destruct (rev_eqb (h_rev (d_header old)) r0) eqn:R; [|discriminate]. apply rev_eqb_spec in R.
      intros H. injection H as <- <-. eexists. split; [|apply same_refl]. eapply does_check_rev; [exact G|exact R].
    + intros H. injection H as <- <-. eexists. split; [|apply same_refl]. eapply does_check. exact G.
Qed.
Lemma rev_neqb a b : a <> b -> rev_eqb a b = false.
Proof. intros H. destruct (rev_eqb a b) eqn:X; [apply rev_eqb_spec in X; contradiction|reflexivity]. Qed.
Lemma header_neqb a b : a <> b -> header_eqb a b = false.
Proof. intros H. destruct (header_eqb a b) eqn:X; [apply header_eqb_spec in X; contradiction|reflexivity]. Qed.
Lemma refused_exec E w c cmd e : refused (w_map w) c cmd e -> exec_op E w (mk_op c cmd) = Fail e.
Proof.
  intros R. destruct R; cbn [exec_op op_cmd op_coll]; unfold exec_insert, exec_update, exec_delete, exec_check, w_map, rev_of in *;
    rewrite H; try reflexivity.
  - rewrite (rev_neqb _ _ H0). reflexivity.
  - rewrite (header_neqb _ _ H0). reflexivity.
  - rewrite (rev_neqb _ _ H0). reflexivity.
Qed.
Lemma exec_fails E w c cmd e : exec_op E w (mk_op c cmd) = Fail e ->
  refused (w_map w) c cmd e \/ (exists x, e = ViewError x) \/ (exists contents, cmd = Insert None contents).
Proof.
  cbn [exec_op op_cmd op_coll].
  assert (FI : forall c id w r, finish E c id w r = Fail e -> exists x, e = ViewError x).
  { intros c0 id w0 r. unfold finish. assert (G : forall vs w0, update_eager vs c0 id w0 = Fail e -> exists x, e = ViewError x).
    { induction vs as [|v vs IH]; intros w1; cbn [update_eager]; [discriminate|].
      destruct (bytes_eqb (vw_coll v) c0 && is_eager (vd_policy (vw_def v))); [|apply IH].
      destruct (map_request _ (vw_def v) (w_docs w1 c0) [id] (w_views w1 (vw_name v))); [apply IH| |discriminate].
      inversion 1; subst. eauto. }
    destruct (update_eager (ev_views E) c0 id w0) eqn:U; [discriminate| |discriminate]. injection 1 as ->. eapply G. exact U. }
  destruct cmd as [oid contents|h contents|id contents|h|id rv]; unfold exec_op; cbn [op_cmd op_coll].
  - destruct oid as [i|]; [|eauto]. unfold exec_insert; cbv zeta iota beta. destruct (t_get i (w_docs w c)) eqn:G.
    + inversion 1; subst. left. apply refused_insert. exact G.
    + intros H. right. left. eapply FI. exact H.
  - unfold exec_update; cbv zeta iota beta. destruct (t_get (h_id h) (w_docs w c)) as [old|] eqn:G.
    + destruct (rev_eqb (h_rev (d_header old)) (h_rev h)) eqn:R.
      * destruct (next_rev_cases E (h_rev (d_header old)) contents) as [[A B]|[A [B|B]]]; rewrite B; try discriminate.
        intros H. right. left. eapply FI. exact H.
      * inversion 1; subst. left. apply refused_update; [exact G|]. unfold rev_of. intros X. rewrite X in R.
        assert (rev_eqb (h_rev h) (h_rev h) = true) by (apply rev_eqb_spec; reflexivity). congruence.
    + inversion 1; subst. left. apply refused_update_missing. exact G.
  - unfold exec_update; cbv zeta iota beta. destruct (t_get id (w_docs w c)) as [old|] eqn:G.
    + destruct (next_rev_cases E (h_rev (d_header old)) contents) as [[A B]|[A [B|B]]]; rewrite B; try discriminate.
      intros H. right. left. eapply FI. exact H.
    + intros H. right. left. eapply FI. exact H.
  - unfold exec_delete; cbv zeta iota beta. destruct (t_get (h_id h) (w_docs w c)) as [old|] eqn:G.
    + destruct (header_eqb (d_header old) h) eqn:R.
      * intros H. right. left. eapply FI. exact H.
      * inversion 1; subst. left. eapply refused_delete; [exact G|]. intros X. rewrite X in R.
        assert (header_eqb h h = true) by (apply header_eqb_spec; reflexivity). congruence.
    + inversion 1; subst. left. apply refused_delete_missing. exact G.
  - unfold exec_check. destruct (t_get id (w_docs w c)) as [old|] eqn:G.
    + destruct rv as [r0|]; [|discriminate]. destruct (rev_eqb (h_rev (d_header old)) r0) eqn:R; [discriminate|].
      inversion 1; subst. left. eapply refused_check; [exact G|]. unfold rev_of. intros X. rewrite X in R.
      assert (rev_eqb r0 r0 = true) by (apply rev_eqb_spec; reflexivity). congruence.
    + inversion 1; subst. left. apply refused_check_missing. exact G.
Qed.

(* ---------- transactions ---------- *)
Lemma steps_colls E w ops w' rs : env_ok E -> steps E w ops w' rs -> forall ex, work_ok E w ex -> does_all (ev_hash E) (w_map w) ops (w_map w') rs.
Proof.
  intros EO S. induction S as [w|w o w1 r ops w2 rs X S IH]; intros ex OK.
  - constructor. apply same_refl.
  - destruct (exec_does _ _ _ _ _ EO (proj1 OK) X) as (m & D & SM). econstructor; [exact D|exact SM|].
    eapply IH. eapply exec_op_ok; eassumption.
Qed.
Lemma does_all_same H m ops m' rs : does_all H m ops m' rs -> forall m'', same_docs m' m'' -> does_all H m ops m'' rs.
Proof.
  induction 1; intros m'' S.
  - constructor. intros c id. rewrite H0. apply S.
  - econstructor; eauto.
Qed.
Lemma apply_does E p s ops s' rs : env_ok E -> db_ok E s -> apply_transaction E p s ops = (s', Done rs) ->
  does_all (ev_hash E) (docs_of s) ops (docs_of s') rs.
Proof.
  intros EO OK H. apply apply_success in H. destruct H as (w & ch & S & W & C & I & L).
  apply invalidate_spec in I; [|exact EO]. destruct I as [D _].
  eapply does_all_same; [eapply steps_colls; eassumption|]. intros c id. unfold w_map, docs_of, doc_at. rewrite D. reflexivity.
Qed.
(* the first error decides *)
Lemma run_ops_fail E ops : forall w ch rs e, changes_wf ch -> run_ops E ops w ch rs = Fail e ->
  exists pre o post w1 rs1, ops = pre ++ o :: post /\ steps E w pre w1 rs1 /\
    (exec_op E w1 o = Fail e \/ (e = TransactionTooLarge /\ exists w2 r2, exec_op E w1 o = Done (w2, r2))).
Proof.
  induction ops as [|o r IH]; intros w ch rs e W H; cbn [run_ops] in H; [discriminate|].
  destruct (exec_op E w o) as [[w1 res]|x|] eqn:X; try discriminate.
  - destruct (record_result ch res) as [ch1|x|] eqn:R; try discriminate.
    + destruct (record_result_spec _ _ _ W R) as [W1 _].
      destruct (IH _ _ _ _ W1 H) as (pre & o' & post & w2 & rs1 & -> & S & C).
      exists (o :: pre), o', post, w2, (res :: rs1). split; [reflexivity|]. split; [econstructor; eassumption|exact C].
    + injection H as <-. exists [], o, r, w, []. split; [reflexivity|]. split; [constructor|].
      right. split; [|eauto]. destruct res as [|c h|c id]; cbn [record_result] in R; [discriminate| |]; unfold record_change in R;
        (destruct (index_of c (ch_colls ch) 0); [discriminate|]);
        (destruct (N.of_nat (length (ch_colls ch)) <? 65536); [discriminate|]); injection R as <-; reflexivity.
  - injection H as <-. exists [], o, r, w, []. split; [reflexivity|]. split; [constructor|]. left. exact X.
Qed.
Lemma record_no_panic ch r : record_result ch r <> Panic.
Proof.
  destruct r as [|c h|c id]; cbn [record_result]; unfold record_change; [discriminate| |];
    (destruct (index_of c (ch_colls ch) 0); [discriminate|]; destruct (N.of_nat (length (ch_colls ch)) <? 65536); discriminate).
Qed.
(* a single operation *)
Lemma record_one r : exists ch, record_result (mk_changes [] []) r = Done ch.
Proof. destruct r as [|c h|c id]; eexists; reflexivity. Qed.
Lemma single_fail E p s o e : op_allowed p o = true -> ev_pk E (op_coll o) <> None -> exec_op E (db_work s) o = Fail e ->
  apply_transaction E p s [o] = (s, Fail e).
Proof.
  intros P D X. unfold apply_transaction, apply_to_roots, colls_defined. cbn [forallb run_ops].
  rewrite P. destruct (ev_pk E (op_coll o)); [|contradiction]. cbn [andb]. rewrite X. reflexivity.
Qed.

(* ---------- revisions along a history ---------- *)
Definition deletes (o : operation) (c id : bytes) : Prop := op_coll o = c /\ exists h, op_cmd o = Delete h /\ h_id h = id.
Definition later (a b : doc) : Prop := r_id (rev_of a) < r_id (rev_of b) \/ a = b.
Lemma later_trans a b c : later a b -> later b c -> later a c.
Proof. intros [A| ->] [B| ->]; unfold later; auto. left. lia. Qed.
Lemma put_get m c id o c' i : put m c id o c' i = if bytes_eqb c' c && bytes_eqb i id then o else m c' i.
Proof. reflexivity. Qed.
Lemma put_same m c id o : put m c id o c id = o.
Proof. unfold put. rewrite !bytes_eqb_refl. reflexivity. Qed.
Lemma does_later H m c cmd m' r : does H m c cmd m' r -> forall c' i d, ~ (c = c' /\ exists h, cmd = Delete h /\ h_id h = i) ->
  m c' i = Some d -> exists d', m' c' i = Some d' /\ later d d'.
Proof.
  intros D c' i d ND G.
  assert (KEEP : exists d', m c' i = Some d' /\ later d d') by (exists d; split; [exact G|right; reflexivity]).
  destruct D; try exact KEEP; rewrite put_get;
    match goal with |- exists d', (if ?b then _ else _) = _ /\ _ => destruct b eqn:Q; [|exact KEEP] end;
    apply andb_true_iff in Q; destruct Q as [Q1 Q2]; apply bytes_eqb_spec in Q1, Q2; subst c' i.
  - congruence.
  - eexists. split; [reflexivity|]. left. rewrite H0 in G. injection G as <-. unfold rev_of in *. cbn. rewrite H1. lia.
  - eexists. split; [reflexivity|]. left. rewrite H0 in G. injection G as <-. unfold rev_of in *. cbn. lia.
  - congruence.
  - exfalso. apply ND. split; [reflexivity|]. eauto.
Qed.
Lemma does_all_later H m ops m' rs : does_all H m ops m' rs -> forall c i d, Forall (fun o => ~ deletes o c i) ops ->
  m c i = Some d -> exists d', m' c i = Some d' /\ later d d'.
Proof.
  induction 1 as [m m' S|m o m1 m1' r ops m2 rs D S A IH]; intros c i d F G.
  - exists d. rewrite <- S. split; [exact G|right; reflexivity].
  - inversion_clear F as [|? ? F1 F2]. destruct (does_later _ _ _ _ _ _ D c i d) as (d1 & G1 & L1).
    + intros [X (h & Y & Z)]. apply F1. split; [exact X|]. eauto.
    + exact G.
    + rewrite S in G1. destruct (IH c i d1 F2 G1) as (d2 & G2 & L2). exists d2. split; [exact G2|].
      eapply later_trans; eassumption.
Qed.
Definition tx_keeps (c i : bytes) (t : tx) : Prop := Forall (fun o => ~ deletes o c i) (snd t).
Lemma run_later E h : env_ok E -> forall s c i d, db_ok E s -> Forall (tx_keeps c i) h -> doc_at s c i = Some d ->
  exists d', doc_at (run E s h) c i = Some d' /\ later d d'.
Proof.
  intros EO. induction h as [|t h IH]; intros s c i d OK F G.
  - exists d. split; [exact G|right; reflexivity].
  - inversion_clear F as [|? ? F1 F2]. cbn [run fold_left]. fold (run E (fst (apply_transaction E (fst t) s (snd t))) h).
    destruct (apply_transaction E (fst t) s (snd t)) as [s1 o] eqn:A. cbn [fst].
    pose proof (apply_ok _ _ _ _ _ _ EO OK A) as OK1.
    assert (X : exists d', doc_at s1 c i = Some d' /\ later d d').
    { destruct o as [rs|e|].
      - exact (does_all_later _ _ _ _ _ (apply_does _ _ _ _ _ _ EO OK A) c i d F1 G).
      - apply apply_cases in A. destruct A as [(rs & ? & ? & ? & Y & _)|[-> _]]; [discriminate Y|]. exists d. split; [exact G|right; reflexivity].
      - apply apply_cases in A. destruct A as [(rs & ? & ? & ? & Y & _)|[-> _]]; [discriminate Y|]. exists d. split; [exact G|right; reflexivity]. }
    destruct X as (d1 & G1 & L1). destruct (IH s1 c i d1 OK1 F2 G1) as (d2 & G2 & L2). exists d2. split; [exact G2|].
    eapply later_trans; eassumption.
Qed.

(* ---------- frame ---------- *)
Lemma does_frame H m c cmd m' r : does H m c cmd m' r -> forall c' i, (forall del, ~ In (c', i, del) (res_change r)) -> m' c' i = m c' i.
Proof.
  intros D c' i N. destruct D; try reflexivity; rewrite put_get;
    match goal with |- (if ?b then _ else _) = _ => destruct b eqn:Q; [|reflexivity] end;
    apply andb_true_iff in Q; destruct Q as [Q1 Q2]; apply bytes_eqb_spec in Q1, Q2; subst c' i; exfalso; cbn in N.
  - apply (N false). auto.
  - apply (N false). auto.
  - apply (N false). auto.
  - apply (N false). auto.
  - apply (N true). auto.
Qed.
Lemma does_all_frame H m ops m' rs : does_all H m ops m' rs -> forall c i,
  (forall del, ~ In (c, i, del) (flat_map res_change rs)) -> m' c i = m c i.
Proof.
  induction 1 as [m m' S|m o m1 m1' r ops m2 rs D S A IH]; intros c i N; [symmetry; apply S|].
  rewrite IH by (intros del I; apply (N del); cbn; apply in_or_app; auto). rewrite <- S.
  eapply does_frame; [exact D|]. intros del I. apply (N del). cbn. apply in_or_app. auto.
Qed.
(* the document an operation names *)
Definition names (o : operation) (c id : bytes) : Prop := op_coll o = c /\
  match op_cmd o with
  | Insert oid _ => oid = Some id
  | Update h _ => h_id h = id
  | Overwrite i _ => i = id
  | Delete h => h_id h = id
  | Check _ _ => False
  end.
Lemma does_named H m c cmd m' r : does H m c cmd m' r -> (forall i d, m c i = Some d -> h_id (d_header d) = i) ->
  forall c' i d, m c' i = Some d -> ~ names (mk_op c cmd) c' i -> m' c' i = Some d.
Proof.
  intros D HI c' i d G N. destruct D; try exact G; rewrite put_get;
    match goal with |- (if ?b then _ else _) = _ => destruct b eqn:Q; [|exact G] end;
    apply andb_true_iff in Q; destruct Q as [Q1 Q2]; apply bytes_eqb_spec in Q1, Q2; subst c' i; exfalso.
  - congruence.
  - apply N. split; reflexivity.
  - apply N. split; reflexivity.
  - congruence.
  - apply N. split; reflexivity.
Qed.

(* ---------- listing ---------- *)
Lemma scan_limit {V} lo hi asc n (t : tree V) : scan lo hi asc (Some n) t = firstn (N.to_nat n) (scan lo hi asc None t).
Proof. reflexivity. Qed.
Lemma scan_In {V} lo hi asc (t : tree V) k v : t_wf t ->
  (In (k, v) (scan lo hi asc None t) <-> t_get k t = Some v /\ in_bounds lo hi k = true).
Proof.
  intros W. unfold scan.
  assert (X : In (k, v) (t_range lo hi t) <-> t_get k t = Some v /\ in_bounds lo hi k = true).
  { rewrite <- (get_iff k v _ (wf_range lo hi t W)), get_range. destruct (in_bounds lo hi k).
    - split; [auto|intros [A _]; exact A].
    - split; [discriminate|intros [_ A]; discriminate]. }
  destruct asc; [exact X|]. rewrite <- in_rev. exact X.
Qed.
Definition ordered_ids (asc : bool) (ids : list bytes) : Prop :=
  StronglySorted (fun a b => if asc then lex a b = Lt else lex b a = Lt) ids.
Lemma scan_sorted {V} lo hi asc (t : tree V) : t_wf t -> ordered_ids asc (map fst (scan lo hi asc None t)).
Proof.
  intros W. unfold scan, ordered_ids. pose proof (wf_range lo hi t W) as S. destruct asc.
  - apply sorted_strong. exact S.
  - rewrite map_rev. apply sorted_rev. exact S.
Qed.
Lemma insert_perm k l : Permutation (insert_sorted k l) (k :: l).
Proof.
  induction l as [|j r IH]; [reflexivity|]. cbn [insert_sorted]. destruct (lex_leb k j); [reflexivity|].
  rewrite IH. apply perm_swap.
Qed.
Lemma sort_perm l : Permutation (sort_ids l) l.
Proof. induction l as [|k r IH]; [reflexivity|]. cbn [sort_ids fold_right]. fold (sort_ids r). rewrite insert_perm. constructor. exact IH. Qed.
Lemma get_multiple_perm {V} (t : tree V) ids :
  Permutation (get_multiple_tree t ids) (flat_map (fun i => match t_get i t with Some v => [v] | None => [] end) ids).
Proof. unfold get_multiple_tree. apply Permutation_flat_map, sort_perm. Qed.
