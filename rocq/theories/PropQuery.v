(* Properties of view queries: C30 - C32. *)
From Verif Require Import Base Key KeyPrefix DocId Tree View ViewProofs ViewMap Docs DocsProofs DocsSpec DocsMore DocsHist PropDocs
  Query ViewTotal PropViews.
From Coq Require Import Permutation Sorting.Sorted.
Local Open Scope N_scope.

(* ---------- specification ---------- *)
(* the keys a query asks for *)
Definition asks (q : option qkey) (k : bytes) : bool :=
  match q with
  | None => true
  | Some (QRange lo hi) => in_bounds lo hi k
  | Some (QMatches j) => bytes_eqb k j
  | Some (QMultiple ks) => mem k ks
  end.
Definition distinct (q : option qkey) : Prop := match q with Some (QMultiple ks) => NoDup ks | _ => True end.
Definition is_range (q : option qkey) : bool := match q with None | Some (QRange _ _) => true | _ => false end.
(* the mappings of one key *)
Definition at_k (k : bytes) (ms : list emission) : list emission := filter (fun m => bytes_eqb k (em_key m)) ms.
Definition values (ms : list emission) : list (bytes * bytes) := map (fun m => (em_key m, em_value m)) ms.

(* ---------- lemmas ---------- *)
Lemma keys_filter {V} (f : bytes -> bool) (t : tree V) k : t_get k (filter (fun p => f (fst p)) t) = if f k then t_get k t else None.
Proof.
  induction t as [|[j v] r IH]; cbn [filter fst t_get]; [destruct (f k); reflexivity|]. destruct (f j) eqn:F; cbn [t_get].
  - destruct (bytes_eqb k j) eqn:K; [apply bytes_eqb_spec in K; subst; rewrite F; reflexivity|exact IH].
  - rewrite IH. destruct (bytes_eqb k j) eqn:K; [apply bytes_eqb_spec in K; subst; rewrite F; reflexivity|reflexivity].
Qed.
Lemma insert_sorted_sorted k l : sorted l -> ~ In k l -> sorted (insert_sorted k l).
Proof.
  induction l as [|j r IH]; intros S N; [constructor|]. cbn [insert_sorted]. destruct (lex_leb k j) eqn:L.
  - cbn [sorted sorted_above]. split; [|exact S]. unfold lex_leb in L. destruct (lex k j) eqn:C; [|reflexivity|discriminate].
    apply lex_eq in C. subst. exfalso. apply N. left. reflexivity.
  - assert (LT : lex j k = Lt). { unfold lex_leb in L. rewrite lex_antisym. destruct (lex k j); try discriminate. reflexivity. }
    apply sorted_above_intro.
    + apply IH; [eapply sorted_above_sorted; exact S|]. intros I. apply N. right. exact I.
    + intros x I. apply (Permutation_in _ (insert_perm k r)) in I. destruct I as [<-|I]; [exact LT|]. eapply sorted_above_In; eassumption.
Qed.
Lemma sort_sorted l : NoDup l -> sorted (sort_ids l).
Proof.
  induction l as [|k r IH]; intros N; [constructor|]. inversion_clear N as [|? ? N1 N2]. cbn [sort_ids fold_right]. fold (sort_ids r).
  apply insert_sorted_sorted; [apply IH, N2|]. intros I. apply N1. apply (Permutation_in _ (sort_perm r)). exact I.
Qed.
Definition lookups {V} (t : tree V) (ks : list bytes) : tree V := flat_map (fun k => match t_get k t with Some e => [(k, e)] | None => [] end) ks.
Lemma lookups_keys {V} (t : tree V) ks k : In k (t_keys (lookups t ks)) -> In k ks.
Proof.
  unfold lookups, t_keys. intros I. apply in_map_iff in I. destruct I as ([j e] & <- & I). apply in_flat_map in I. destruct I as (i & I & J).
  destruct (t_get i t); [|destruct J]. destruct J as [J|[]]. injection J as <- <-. exact I.
Qed.
Lemma lookups_wf {V} (t : tree V) ks : sorted ks -> t_wf (lookups t ks).
Proof.
  induction ks as [|k r IH]; intros S; [constructor|]. unfold lookups. cbn [flat_map]. fold (lookups t r).
  assert (W := IH (sorted_above_sorted _ _ S)). destruct (t_get k t) as [e|]; [|exact W]. cbn [app]. apply sorted_above_intro; [exact W|].
  intros j I. apply lookups_keys in I. eapply sorted_above_In; eassumption.
Qed.
Lemma lookups_get {V} (t : tree V) ks k : t_get k (lookups t ks) = if mem k ks then t_get k t else None.
Proof.
  induction ks as [|j r IH]; [reflexivity|]. unfold lookups. cbn [flat_map mem existsb]. fold (lookups t r). fold (mem k r).
  destruct (bytes_eqb k j) eqn:K; cbn [orb].
  - apply bytes_eqb_spec in K. subst j. destruct (t_get k t) as [e|] eqn:G; cbn [app t_get]; [rewrite bytes_eqb_refl; reflexivity|].
    rewrite IH. destruct (mem k r); reflexivity.
  - destruct (t_get j t) as [e|]; cbn [app t_get]; [rewrite K|]; exact IH.
Qed.
Lemma mem_perm k l l' : Permutation l l' -> mem k l = mem k l'.
Proof.
  intros P. destruct (mem k l') eqn:M.
  - apply mem_In. apply (Permutation_in _ (Permutation_sym P)). apply mem_In, M.
  - apply mem_false. intros I. apply mem_false in M. apply M. apply (Permutation_in _ P), I.
Qed.
(* every query without limit: the entries with the wanted keys, in order *)
Lemma view_entries_spec t q asc : t_wf t -> distinct q ->
  view_entries t q asc None = (if asc || negb (is_range q) then fun l => l else @rev _) (filter (fun p => asks q (fst p)) t).
Proof.
  intros W D. destruct q as [[lo hi|k|ks]|]; cbn [view_entries is_range negb asks].
  - rewrite orb_false_r. unfold scan, t_range. destruct asc; reflexivity.
  - rewrite orb_true_r.
    apply tree_ext; [destruct (t_get k t); constructor|apply wf_filter, W|]. intros j. rewrite (keys_filter (fun x => bytes_eqb x k)).
    destruct (bytes_eqb j k) eqn:K; [apply bytes_eqb_spec in K; subst j|]; destruct (t_get k t) as [e|]; cbn [t_get].
    + rewrite bytes_eqb_refl. reflexivity.
    + reflexivity.
    + rewrite K. reflexivity.
    + reflexivity.
  - rewrite orb_true_r. cbn [distinct] in D. fold (lookups t (sort_ids ks)).
    apply tree_ext; [apply lookups_wf, sort_sorted, D|apply wf_filter, W|]. intros j. rewrite lookups_get, (keys_filter (fun x => mem x ks)).
    rewrite (mem_perm j _ _ (sort_perm ks)). reflexivity.
  - rewrite orb_false_r. unfold scan. rewrite range_all.
    assert (F : filter (fun p : bytes * entry => true) t = t) by (clear; induction t as [|p r IH]; [reflexivity|cbn; rewrite IH; reflexivity]).
    rewrite F. destruct asc; reflexivity.
Qed.
Lemma at_k_other l k : ~ In k (map fst l) -> at_k k (flat_map entry_mappings l) = [].
Proof.
  intros N. unfold at_k. induction l as [|[j e] r IH]; [reflexivity|]. cbn [flat_map]. rewrite filter_app, IH by (intros I; apply N; right; exact I).
  rewrite app_nil_r. unfold entry_mappings. cbn [fst snd]. induction (e_maps e) as [|m q IHm]; [reflexivity|]. cbn [map filter em_key].
  destruct (bytes_eqb k j) eqn:K; [|exact IHm]. apply bytes_eqb_spec in K. exfalso. apply N. left. cbn. congruence.
Qed.
Lemma at_k_same k e : at_k k (entry_mappings (k, e)) = entry_mappings (k, e).
Proof.
  unfold at_k, entry_mappings. cbn [fst snd]. induction (e_maps e) as [|m q IHm]; [reflexivity|]. cbn [map filter em_key]. rewrite bytes_eqb_refl, IHm. reflexivity.
Qed.
Lemma at_k_entries l k : NoDup (map fst l) -> at_k k (flat_map entry_mappings l) = match t_get k l with Some e => entry_mappings (k, e) | None => [] end.
Proof.
  induction l as [|[j e] r IH]; intros N; [reflexivity|]. inversion_clear N as [|? ? N1 N2]. cbn [flat_map t_get]. unfold at_k. rewrite filter_app.
  fold (at_k k (entry_mappings (j, e))). fold (at_k k (flat_map entry_mappings r)). destruct (bytes_eqb k j) eqn:K.
  - apply bytes_eqb_spec in K. subst j. rewrite at_k_same, at_k_other by exact N1. apply app_nil_r.
  - rewrite IH by exact N2. replace (at_k k (entry_mappings (j, e))) with (@nil emission); [reflexivity|].
    symmetry. replace (entry_mappings (j, e)) with (flat_map entry_mappings [(j, e)]) by apply app_nil_r. apply at_k_other.
    intros [X|[]]. cbn in X. subst. rewrite bytes_eqb_refl in K. discriminate.
Qed.
Lemma get_rev {V} k (t : tree V) : NoDup (t_keys t) -> t_get k (rev t) = t_get k t.
Proof.
  intros N. assert (NR : NoDup (t_keys (rev t))) by (unfold t_keys; rewrite map_rev; apply NoDup_rev, N).
  destruct (t_get k t) as [v|] eqn:G.
  - apply nodup_get; [exact NR|]. rewrite <- in_rev. apply get_In, G.
  - apply get_none. apply get_none in G. unfold t_keys. rewrite map_rev, <- in_rev. exact G.
Qed.
Lemma reach_wf E s v : env_ok E -> reach E s -> In v (ev_views E) -> t_wf (entries_of s v).
Proof. intros EO R I. apply (ok_wf_entries (vw_def v)), (reach_vs E s v EO R I). Qed.

(* ---------- C31 ---------- *)
(* exactly the mappings with a wanted key, each key's mappings together and in the
   stored order *)
Theorem C31_exact : forall E s v q asc ms all, env_ok E -> reach E s -> In v (ev_views E) -> distinct q ->
  query anyone s v q asc None = Done ms -> query anyone s v None true None = Done all ->
  forall k, at_k k ms = if asks q k then at_k k all else [].
Proof.
  intros E s v q asc ms all EO R I D Q A k. pose proof (reach_wf E s v EO R I) as W. rewrite query_all in A. injection A as <-.
  unfold query, anyone in Q. injection Q as <-. rewrite view_entries_spec by assumption.
  pose proof (sorted_NoDup _ W) as N. pose proof (sorted_NoDup _ (wf_filter (fun p => asks q (fst p)) _ W)) as NF.
  assert (G : forall l, NoDup (map fst l) -> (forall j, t_get j l = t_get j (filter (fun p => asks q (fst p)) (entries_of s v))) ->
     at_k k (flat_map entry_mappings l) = if asks q k then at_k k (flat_map entry_mappings (entries_of s v)) else []).
  { intros l NL H. rewrite at_k_entries, H, (keys_filter (asks q)) by exact NL. destruct (asks q k); [|reflexivity]. symmetry. apply at_k_entries, N. }
  destruct (asc || negb (is_range q)).
  - apply G; [exact NF|reflexivity].
  - apply G; [rewrite map_rev; apply NoDup_rev, NF|]. intros j. apply get_rev, NF.
Qed.
(* in key order, or backwards *)
Lemma keys_strong_asc l : StronglySorted (fun a b => lex a b = Lt) (map fst l) -> StronglySorted (fun a b => lex a b <> Gt) (map em_key (flat_map entry_mappings l)).
Proof.
  induction l as [|[k e] r IH]; intros S; [constructor|]. inversion_clear S as [|? ? S1 S2]. cbn [flat_map]. rewrite map_app. apply strong_app; [|apply IH, S1|].
  - unfold entry_mappings. cbn [fst snd]. induction (e_maps e) as [|m q IHm]; [constructor|]. cbn [map em_key]. constructor; [exact IHm|].
    apply Forall_forall. intros x J. rewrite map_map in J. apply in_map_iff in J. destruct J as (y & <- & _). cbn. rewrite lex_refl. discriminate.
  - intros x y A B. rewrite Forall_forall in S2. apply in_map_iff in A. destruct A as (m & <- & A). unfold entry_mappings in A. apply in_map_iff in A. destruct A as (m' & <- & _).
    apply in_map_iff in B. destruct B as (n & <- & B). apply in_flat_map in B. destruct B as ([j f] & B1 & B2). unfold entry_mappings in B2. apply in_map_iff in B2. destruct B2 as (n' & <- & _).
    cbn. apply (in_map fst) in B1. specialize (S2 j B1). cbn in S2. rewrite S2. discriminate.
Qed.
Lemma keys_strong_desc l : StronglySorted (fun a b => lex b a = Lt) (map fst l) -> StronglySorted (fun a b => lex b a <> Gt) (map em_key (flat_map entry_mappings l)).
Proof.
  induction l as [|[k e] r IH]; intros S; [constructor|]. inversion_clear S as [|? ? S1 S2]. cbn [flat_map]. rewrite map_app. apply strong_app; [|apply IH, S1|].
  - unfold entry_mappings. cbn [fst snd]. induction (e_maps e) as [|m q IHm]; [constructor|]. cbn [map em_key]. constructor; [exact IHm|].
    apply Forall_forall. intros x J. rewrite map_map in J. apply in_map_iff in J. destruct J as (y & <- & _). cbn. rewrite lex_refl. discriminate.
  - intros x y A B. rewrite Forall_forall in S2. apply in_map_iff in A. destruct A as (m & <- & A). unfold entry_mappings in A. apply in_map_iff in A. destruct A as (m' & <- & _).
    apply in_map_iff in B. destruct B as (n & <- & B). apply in_flat_map in B. destruct B as ([j f] & B1 & B2). unfold entry_mappings in B2. apply in_map_iff in B2. destruct B2 as (n' & <- & _).
    cbn. apply (in_map fst) in B1. specialize (S2 j B1). cbn in S2. rewrite S2. discriminate.
Qed.
Theorem C31_order : forall E s v q asc ms, env_ok E -> reach E s -> In v (ev_views E) -> distinct q ->
  query anyone s v q asc None = Done ms ->
  StronglySorted (fun a b => if asc || negb (is_range q) then lex a b <> Gt else lex b a <> Gt) (map em_key ms).
Proof.
  intros E s v q asc ms EO R I D Q. pose proof (reach_wf E s v EO R I) as W. unfold query, anyone in Q. injection Q as <-.
  rewrite view_entries_spec by assumption. pose proof (wf_filter (fun p => asks q (fst p)) _ W) as WF. destruct (asc || negb (is_range q)).
  - apply keys_strong_asc, sorted_strong, WF.
  - apply keys_strong_desc. rewrite map_rev. apply sorted_rev, WF.
Qed.
(* ascending: the whole view, filtered *)
Theorem C31_filter : forall E s v q ms all, env_ok E -> reach E s -> In v (ev_views E) -> distinct q ->
  query anyone s v q true None = Done ms -> query anyone s v None true None = Done all ->
  ms = filter (fun m => asks q (em_key m)) all.
Proof.
  intros E s v q ms all EO R I D Q A. pose proof (reach_wf E s v EO R I) as W. rewrite query_all in A. injection A as <-.
  unfold query, anyone in Q. injection Q as <-. rewrite view_entries_spec by assumption. cbn [orb].
  generalize (entries_of s v) as t. clear. induction t as [|[k e] r IH]; [reflexivity|]. cbn [filter fst flat_map]. rewrite filter_app.
  assert (F : forall l, filter (fun m => asks q (em_key m)) (map (fun m => mk_em k (m_src m) (m_value m)) l) = if asks q k then map (fun m => mk_em k (m_src m) (m_value m)) l else []).
  { induction l as [|m l IHl]; [destruct (asks q k); reflexivity|]. cbn [map filter em_key]. rewrite IHl. destruct (asks q k); reflexivity. }
  change (entry_mappings (k, e)) with (map (fun m => mk_em k (m_src m) (m_value m)) (e_maps e)). rewrite F. destruct (asks q k); [cbn [flat_map]; rewrite IH; reflexivity|exact IH].
Qed.
(* a limit on ranges cuts after that many keys *)
Theorem C31_limit_keys : forall E s v q asc n ml ms, env_ok E -> reach E s -> In v (ev_views E) -> is_range q = true ->
  query anyone s v q asc (Some n) = Done ml -> query anyone s v q asc None = Done ms ->
  exists rest ks, ms = ml ++ rest /\ NoDup ks /\ (forall k, In k ks <-> In k (map em_key ml)) /\
    (length ks <= N.to_nat n)%nat /\ (rest <> [] -> length ks = N.to_nat n) /\
    (forall m, In m rest -> ~ In (em_key m) ks).
Proof.
  intros E s v q asc n ml ms EO R I IR QL Q. pose proof (reach_wf E s v EO R I) as W. unfold query, anyone in QL, Q. injection QL as <-. injection Q as <-.
  assert (VE : view_entries (entries_of s v) q asc (Some n) = firstn (N.to_nat n) (view_entries (entries_of s v) q asc None)) by (destruct q as [[]|]; try discriminate; reflexivity).
  rewrite VE. clear VE.
  assert (D : distinct q) by (destruct q as [[]|]; cbn; auto; discriminate).
  assert (N1 : NoDup (map fst (view_entries (entries_of s v) q asc None))).
  { rewrite view_entries_spec by assumption. pose proof (sorted_NoDup _ (wf_filter (fun p => asks q (fst p)) _ W)) as NF.
    destruct (asc || negb (is_range q)); [exact NF|]. rewrite map_rev. apply NoDup_rev, NF. }
  assert (NE : forall p, In p (view_entries (entries_of s v) q asc None) -> e_maps (snd p) <> []).
  { intros [k e] J. rewrite view_entries_spec in J by assumption.
    assert (J' : In (k, e) (filter (fun p => asks q (fst p)) (entries_of s v))) by (destruct (asc || negb (is_range q)); [exact J|apply in_rev, J]).
    apply filter_In in J'. destruct J' as [J' _]. apply In_get in J'; [|exact W]. apply (ok_nonempty _ _ (reach_vs E s v EO R I) k e J'). }
  set (l := view_entries (entries_of s v) q asc None) in *. set (m := N.to_nat n).
  exists (flat_map entry_mappings (skipn m l)), (map fst (firstn m l)).
  assert (KEYS : forall l', (forall p, In p l' -> e_maps (snd p) <> []) -> forall k, In k (map fst l') <-> In k (map em_key (flat_map entry_mappings l'))).
  { intros l' NE' k. rewrite !in_map_iff. split.
    - intros ([j e] & <- & J). specialize (NE' _ J). cbn in NE'. destruct (e_maps e) as [|x r] eqn:EM; [congruence|]. exists (mk_em j (m_src x) (m_value x)). split; [reflexivity|].
      apply in_flat_map. exists (j, e). split; [exact J|]. unfold entry_mappings. cbn [fst snd]. rewrite EM. left. reflexivity.
    - intros (x & <- & J). apply in_flat_map in J. destruct J as ([j e] & J1 & J2). unfold entry_mappings in J2. apply in_map_iff in J2. destruct J2 as (y & <- & _). exists (j, e). auto. }
  assert (SPL : l = firstn m l ++ skipn m l) by (symmetry; apply firstn_skipn).
  split; [rewrite SPL at 1; apply flat_map_app|].
  rewrite SPL, map_app in N1. assert (ND : NoDup (map fst (firstn m l)) /\ forall k, In k (map fst (firstn m l)) -> ~ In k (map fst (skipn m l))).
  { clear -N1. revert N1. generalize (map fst (firstn m l)), (map fst (skipn m l)). induction l0 as [|x l0 IH]; intros b H; [split; [constructor|intros k []]|].
    inversion_clear H as [|? ? H1 H2]. destruct (IH _ H2) as [A B]. split.
    - constructor; [|exact A]. intros J. apply H1. apply in_or_app. auto.
    - intros k [<-|J]; [intros K; apply H1, in_or_app; auto|apply B, J]. }
  destruct ND as [ND DJ]. split; [exact ND|]. split; [|split; [|split]].
  - apply KEYS. intros p J. apply NE. rewrite SPL. apply in_or_app. auto.
  - rewrite map_length. apply firstn_le_length.
  - intros H. rewrite map_length, firstn_length. destruct (Nat.le_gt_cases m (length l)); [lia|]. exfalso. apply H. rewrite skipn_all2 by lia. reflexivity.
  - intros x J K. apply (DJ _ K). apply KEYS; [|apply in_map, J]. intros p J'. apply NE. rewrite SPL. apply in_or_app. auto.
Qed.
(* but not after that many mappings; and other queries ignore limit and order *)
Definition ex_q1 : dbstate := mapper_step ex_env2 ex_twice (fun l => l) [[5]; [6]] (fst (apply_transaction ex_env2 everyone empty_db
  [mk_op [1] (Insert (Some [5]) [10; 11]); mk_op [1] (Insert (Some [6]) [12])])).
Lemma ex_q1_reach : reach ex_env2 ex_q1.
Proof. apply reach_map; [apply reach_tx, reach_init|left; reflexivity|intros l; apply Permutation_refl|repeat constructor]. Qed.
Theorem C31_limit_refuted : ~ (forall E s v q asc n ms, env_ok E -> reach E s -> In v (ev_views E) ->
  query anyone s v q asc (Some n) = Done ms -> N.of_nat (length ms) <= n).
Proof.
  intros H. specialize (H ex_env2 ex_q1 ex_twice (Some (QRange Unbounded Unbounded)) true 1 _ ex_env2_ok ex_q1_reach (or_introl eq_refl) eq_refl).
  vm_compute in H. congruence.
Qed.
Theorem C31_keys_ignore_limit : forall s v q asc n, is_range q = false ->
  query anyone s v q asc (Some n) = query anyone s v q true None.
Proof. intros s v [[]|] asc n H; try discriminate H; reflexivity. Qed.
Theorem C31_denied : forall p s v q asc n, p VQuery (vw_name v) = false -> query p s v q asc n = Fail PermissionDenied.
Proof. intros p s v q asc n H. unfold query. rewrite H. reflexivity. Qed.
(* a query with documents: the mappings of the query without them, and for the source of
   each of them the current document of the view's collection, under its id *)
Theorem C31_with_docs : forall E ps s v q asc n ms ds, env_ok E -> reach E s -> In v (ev_views E) ->
  query_with_docs anyone ps s v q asc n = Done (ms, ds) ->
  query anyone s v q asc n = Done ms /\ NoDup (map fst ds) /\
  (forall i d, In (i, d) ds <-> (exists m, In m ms /\ h_id (em_src m) = i) /\ doc_at s (vw_coll v) i = Some d) /\
  (forall m, In m ms -> ps ActGet (vw_coll v) (Some (h_id (em_src m))) = true).
Proof.
  intros E ps s v q asc n ms ds EO R I Q. unfold query_with_docs in Q.
  destruct (query anyone s v q asc n) as [ms'|e|] eqn:QQ; [|discriminate|discriminate].
  unfold get_multiple in Q. set (sources := map (fun m => h_id (em_src m)) ms') in *.
  destruct (forallb _ sources) eqn:P; [|discriminate]. injection Q as -> <-. split; [reflexivity|].
  assert (G : forall (l : list doc) (t : tree doc), (forall d, In d l -> doc_at s (vw_coll v) (h_id (d_header d)) = Some d) ->
     t_wf t -> t_wf (fold_left (fun t d => t_set (h_id (d_header d)) d t) l t) /\
  forall i, t_get i (fold_left (fun t d => t_set (h_id (d_header d)) d t) l t) =
       if existsb (fun d => bytes_eqb i (h_id (d_header d))) l then doc_at s (vw_coll v) i else t_get i t).
  { induction l as [|d l IH]; intros t H W; cbn [fold_left existsb]; [auto|].
    destruct (IH (t_set (h_id (d_header d)) d t) (fun d' J => H d' (or_intror J)) (wf_set _ _ _ W)) as [W' G']. split; [exact W'|].
    intros i. rewrite G', get_set. pose proof (H d (or_introl eq_refl)) as C.
    destruct (existsb _ l); [rewrite orb_true_r; reflexivity|]. rewrite orb_false_r. destruct (bytes_eqb i (h_id (d_header d))) eqn:B; [|reflexivity].
    apply bytes_eqb_spec in B. subst i. symmetry. exact C. }
  assert (IN : forall d, In d (get_multiple_tree (w_docs (db_work s) (vw_coll v)) sources) <->
     In (h_id (d_header d)) sources /\ doc_at s (vw_coll v) (h_id (d_header d)) = Some d).
  { intros d. pose proof (get_multiple_perm (w_docs (db_work s) (vw_coll v)) sources) as PM.
    assert (X : In d (get_multiple_tree (w_docs (db_work s) (vw_coll v)) sources) <->
      In d (flat_map (fun i => match t_get i (w_docs (db_work s) (vw_coll v)) with Some v => [v] | None => [] end) sources))
      by (split; intros J; (eapply Permutation_in; [|exact J]); [exact PM|symmetry; exact PM]).
    rewrite X, in_flat_map. split.
    - intros (i & J1 & J2). destruct (t_get i (w_docs (db_work s) (vw_coll v))) as [d'|] eqn:T; [|destruct J2]. destruct J2 as [->|[]].
      pose proof (reach_id E s (vw_coll v) i d EO R T) as Y. rewrite Y. auto.
    - intros [J T]. exists (h_id (d_header d)). split; [exact J|]. unfold doc_at in T. rewrite T. left. reflexivity. }
  destruct (G (get_multiple_tree (w_docs (db_work s) (vw_coll v)) sources) [] (fun d J => proj2 (proj1 (IN d) J)) Logic.I) as [W GT].
  clear G. set (t := fold_left _ _ _) in *. clearbody t. split; [apply sorted_NoDup, W|]. split.
  - intros i d. split.
    + intros J. apply In_get in J; [|exact W]. rewrite GT in J. destruct (existsb _ _) eqn:X; [|discriminate J]. split; [|exact J].
      apply existsb_exists in X. destruct X as (d' & X1 & X2). apply bytes_eqb_spec in X2. subst i. apply IN in X1. destruct X1 as [X1 _].
      apply in_map_iff in X1. destruct X1 as (m & X1 & X3). exists m. auto.
    + intros [(m & M1 & M2) T]. apply get_In. rewrite GT. replace (existsb _ _) with true; [exact T|]. symmetry. apply existsb_exists.
      exists d. pose proof (reach_id E s (vw_coll v) i d EO R T) as Y. split; [|rewrite Y; apply bytes_eqb_refl]. apply IN. rewrite Y. split; [|exact T].
      rewrite <- M2. apply (in_map (fun m => h_id (em_src m))). exact M1.
  - intros m M. rewrite forallb_forall in P. apply P. apply (in_map (fun m => h_id (em_src m))). exact M.
Qed.
(* documents the caller may not read: nothing is returned *)
Theorem C31_with_docs_denied : forall ps s v q asc n ms m, query anyone s v q asc n = Done ms -> In m ms ->
  ps ActGet (vw_coll v) (Some (h_id (em_src m))) = false -> query_with_docs anyone ps s v q asc n = Fail PermissionDenied.
Proof.
  intros ps s v q asc n ms m Q M P. unfold query_with_docs, get_multiple. rewrite Q.
  destruct (forallb _ _) eqn:F; [|reflexivity]. rewrite forallb_forall in F. rewrite F in P; [discriminate|].
  apply (in_map (fun m => h_id (em_src m))). exact M.
Qed.
Example C31_with_docs_ex : exists ms, query_with_docs anyone everyone ex_q1 ex_twice (Some (QMatches [1])) true None =
  Done (ms, [([5], mk_doc (mk_header [5] (mk_rev 0 [9; 10; 11])) [10; 11])]) /\ length ms = 1%nat.
Proof. eexists. split; vm_compute; reflexivity. Qed.
Example C31_ex : query anyone ex_q1 ex_twice None true None = Done [mk_em [0] (mk_header [6] (mk_rev 0 [9; 12])) [12];
     mk_em [0] (mk_header [5] (mk_rev 0 [9; 10; 11])) [10]; mk_em [1] (mk_header [5] (mk_rev 0 [9; 10; 11])) [11]] /\
  query anyone ex_q1 ex_twice (Some (QRange Unbounded Unbounded)) false (Some 1) = Done [mk_em [1] (mk_header [5] (mk_rev 0 [9; 10; 11])) [11]] /\
  query anyone ex_q1 ex_twice (Some (QMultiple [[1]; [3]])) true None = Done [mk_em [1] (mk_header [5] (mk_rev 0 [9; 10; 11])) [11]].
Proof. repeat split; vm_compute; reflexivity. Qed.

(* ---------- C30 ---------- *)
(* the view implements reduce *)
Definition implemented (v : view) : Prop := forall l, vd_reduce (vw_def v) l <> Fail ReduceUnimplemented.
Lemma entries_query s v q : query anyone s v q true None = Done (flat_map entry_mappings (view_entries (entries_of s v) q true None)).
Proof. reflexivity. Qed.
Lemma entries_of_query E s v q k e : env_ok E -> reach E s -> In v (ev_views E) -> distinct q ->
  In (k, e) (view_entries (entries_of s v) q true None) -> t_get k (entries_of s v) = Some e.
Proof.
  intros EO R I D J. pose proof (reach_wf E s v EO R I) as W. rewrite view_entries_spec in J by assumption. cbn [orb] in J.
  apply filter_In in J. apply In_get; [exact W|apply J].
Qed.
Lemma entry_values k e : values (entry_mappings (k, e)) = pairs k (e_maps e).
Proof. unfold values, entry_mappings, pairs. cbn [fst snd]. rewrite map_map. reflexivity. Qed.
(* grouped: one result for each key of the query, which is the reduction of exactly
   the values a query returns for this key *)
Theorem C30_grouped : forall E s v q gs ms, env_ok E -> reach E s -> In v (ev_views E) -> distinct q -> implemented v ->
  reduce_grouped anyone s v q = Done gs -> query anyone s v q true None = Done ms ->
  (forall k, In k (map fst gs) <-> In k (map em_key ms)) /\ NoDup (map fst gs) /\
  forall k r, In (k, r) gs -> vd_reduce (vw_def v) (values (at_k k ms)) = Done r.
Proof.
  intros E s v q gs ms EO R I D IM G Q. pose proof (reach_wf E s v EO R I) as W. rewrite entries_query in Q. injection Q as <-.
  unfold reduce_grouped, anyone in G. injection G as <-.
  assert (N : NoDup (map fst (view_entries (entries_of s v) q true None))).
  { rewrite view_entries_spec by assumption. apply sorted_NoDup, wf_filter, W. }
  assert (GET := fun k e => entries_of_query E s v q k e EO R I D).
  set (l := view_entries (entries_of s v) q true None) in *. rewrite map_map. cbn [fst]. split; [|split; [exact N|]].
  - intros k. rewrite !in_map_iff. split.
    + intros ([j e] & <- & J). pose proof (ok_nonempty _ _ (reach_vs E s v EO R I) j e (GET _ _ J)) as NE. cbn [fst].
      destruct (e_maps e) as [|x r] eqn:EM; [congruence|]. exists (mk_em j (m_src x) (m_value x)). split; [reflexivity|].
      apply in_flat_map. exists (j, e). split; [exact J|]. unfold entry_mappings. cbn [fst snd]. rewrite EM. left. reflexivity.
    + intros (x & <- & J). apply in_flat_map in J. destruct J as ([j e] & J1 & J2). unfold entry_mappings in J2. apply in_map_iff in J2. destruct J2 as (y & <- & _). exists (j, e). auto.
  - intros k r J. apply in_map_iff in J. destruct J as ([j e] & X & J). cbn in X. injection X as -> <-.
    rewrite at_k_entries by exact N. rewrite (proj2 (nodup_get k e l N) J), entry_values.
    destruct (ok_reduced _ _ (reach_vs E s v EO R I) (or_intror IM) k e (GET _ _ J)) as [X|X]; [exfalso; exact (IM _ X)|exact X].
Qed.
(* reduce calls the function again on the results of the keys, unless there is just one *)
Theorem C30_reduce : forall E s v q gs, env_ok E -> reach E s -> In v (ev_views E) -> 
  reduce_grouped anyone s v q = Done gs ->
  reduce anyone s v q = match gs with
                        | [(_, r)] => Done r
                        | _ => match vd_rereduce (vw_def v) gs with Done r => Done r | Fail e => Fail (ViewError e) | Panic => Panic end
                        end.
Proof. intros E s v q gs EO R I G. unfold reduce. rewrite G. destruct gs as [|[k r] [|? ?]]; reflexivity. Qed.
(* a reduce function that gives the same when the values are reduced by key first: then
   the result is the reduction of all values of the query *)
Definition lawful (v : view) : Prop := forall (groups : list (list (bytes * bytes))) (rs : list (bytes * bytes)),
  Forall2 (fun g r => g <> [] /\ (forall p, In p g -> fst p = fst r) /\ vd_reduce (vw_def v) g = Done (snd r)) groups rs ->
  vd_rereduce (vw_def v) rs = vd_reduce (vw_def v) (concat groups).
Theorem C30_reduce_all : forall E s v q ms, env_ok E -> reach E s -> In v (ev_views E) -> distinct q -> implemented v -> lawful v ->
  query anyone s v q true None = Done ms ->
  reduce anyone s v q = match vd_reduce (vw_def v) (values ms) with Done r => Done r | Fail e => Fail (ViewError e) | Panic => Panic end.
Proof.
  intros E s v q ms EO R I D IM LW Q. rewrite entries_query in Q. injection Q as <-.
  assert (RED : forall k e, In (k, e) (view_entries (entries_of s v) q true None) -> e_maps e <> [] /\ vd_reduce (vw_def v) (pairs k (e_maps e)) = Done (e_reduced e)).
  { intros k e J. pose proof (entries_of_query E s v q k e EO R I D J) as G. split; [apply (ok_nonempty _ _ (reach_vs E s v EO R I) k e G)|].
    destruct (ok_reduced _ _ (reach_vs E s v EO R I) (or_intror IM) k e G) as [X|X]; [exfalso; exact (IM _ X)|exact X]. }
  unfold reduce, reduce_grouped, anyone. set (l := view_entries (entries_of s v) q true None) in *.
  assert (F : Forall2 (fun g r => g <> [] /\ (forall p, In p g -> fst p = fst r) /\ vd_reduce (vw_def v) g = Done (snd r)) (map (fun p => pairs (fst p) (e_maps (snd p))) l) (map (fun e => (fst e, e_reduced (snd e))) l)).
  { clearbody l. induction l as [|[k e] r IH]; [constructor|]. cbn [map fst snd]. constructor.
    - destruct (RED k e (or_introl eq_refl)) as [A B]. split; [unfold pairs; destruct (e_maps e); [congruence|discriminate]|].
      split; [|exact B]. intros p J. unfold pairs in J. apply in_map_iff in J. destruct J as (m & <- & _). reflexivity.
    - apply IH. intros j f J. apply RED. right. exact J. }
  apply LW in F. assert (C : concat (map (fun p => pairs (fst p) (e_maps (snd p))) l) = values (flat_map entry_mappings l)).
  { clear. induction l as [|[k e] r IH]; [reflexivity|]. cbn [map concat flat_map fst snd]. unfold values. rewrite map_app. fold (values (entry_mappings (k, e))).
    fold (values (flat_map entry_mappings r)). rewrite entry_values, IH. reflexivity. }
  rewrite C in F. destruct l as [|[k e] [|p r]] eqn:L.
  - cbn [map]. rewrite <- F. reflexivity.
  - cbn [map snd fst] in *. destruct (RED k e (or_introl eq_refl)) as [_ B]. cbn [flat_map]. rewrite app_nil_r, entry_values, B. reflexivity.
  - rewrite <- F. reflexivity.
Qed.
(* summing the first bytes: grouped and total *)
Definition ex_sum (l : list (bytes * bytes)) : outcome bytes verr := Done [fold_right (fun p n => fold_right N.add 0 (snd p) + n) 0 l].
Definition ex_total : view := mk_view [9] [1] (mk_vdef Lazy (fun d => Some [([hd 0 (d_contents d) mod 2], d_contents d)]) ex_sum ex_sum).
Definition ex_env3 : env := mk_env ex_hash (fun c => if bytes_eqb c [1] then Some (TU 1) else None) [ex_total].
Lemma ex_env3_ok : env_ok ex_env3. Proof. repeat constructor. intros []. Qed.
Definition ex_q3 : dbstate := mapper_step ex_env3 ex_total (fun l => l) [[5]; [6]; [7]] (fst (apply_transaction ex_env3 everyone empty_db
  [mk_op [1] (Insert (Some [5]) [10; 11]); mk_op [1] (Insert (Some [6]) [12]); mk_op [1] (Insert (Some [7]) [13])])).
Lemma ex_q3_reach : reach ex_env3 ex_q3.
Proof. apply reach_map; [apply reach_tx, reach_init|left; reflexivity|intros l; apply Permutation_refl|repeat constructor]. Qed.
Lemma ex_sum_lawful : lawful ex_total.
Proof.
  intros groups rs F. cbn [vw_def vd_rereduce vd_reduce ex_total]. unfold ex_sum. f_equal. f_equal. induction F as [|g [k b] gs rs (_ & _ & A) F IH]; [reflexivity|].
  cbn [concat fold_right snd]. rewrite fold_right_app, IH. cbn [snd vw_def vd_reduce ex_total] in A. unfold ex_sum in A. injection A as <-. cbn [fold_right].
  rewrite N.add_0_r. assert (S : forall (g : list (bytes * bytes)) z, fold_right (fun p n => fold_right N.add 0 (snd p) + n) 0 g + z = fold_right (fun p n => fold_right N.add 0 (snd p) + n) z g) by (clear; induction g as [|p g IH]; intros z; cbn [fold_right]; [lia|rewrite <- (IH z); lia]). exact (S g _).
Qed.
Example C30_ex : implemented ex_total /\ lawful ex_total /\
  reduce_grouped anyone ex_q3 ex_total None = Done [([0], [33]); ([1], [13])] /\ reduce anyone ex_q3 ex_total None = Done [46].
Proof. split; [intros l; discriminate|]. split; [exact ex_sum_lawful|]. split; vm_compute; reflexivity. Qed.

(* ---------- C32 ---------- *)
Definition deletes (c : bytes) (hs : list header) : list operation := map (fun h => mk_op c (Delete h)) hs.
Lemma delete_ops_spec s v q ms : query anyone s v q true None = Done ms -> delete_ops s v q = deletes (vw_coll v) (map em_src ms).
Proof.
  intros Q. rewrite entries_query in Q. injection Q as <-. unfold delete_ops, deletes. induction (view_entries (entries_of s v) q true None) as [|[k e] r IH]; [reflexivity|].
  cbn [flat_map]. rewrite !map_app, IH. f_equal. unfold entry_mappings. cbn [fst snd]. rewrite !map_map. reflexivity.
Qed.
Lemma deletes_effect H c hs : forall m m' rs, does_all H m (deletes c hs) m' rs ->
  length rs = length hs /\ forall c' i, m' c' i = if bytes_eqb c' c && mem i (map h_id hs) then None else m c' i.
Proof.
  induction hs as [|h hs IH]; intros m m' rs D; cbn [deletes map] in D.
  - inversion D as [? ? S|]; subst. split; [reflexivity|]. intros c' i. cbn. rewrite andb_false_r. symmetry. apply S.
  - inversion D as [|? ? m1 m1' r ops m2 rs0 D1 SM D2]; subst. cbn [op_coll op_cmd] in *.
    inversion D1 as [| | | | | |? d0 G0 E0 Q1 Q2 Q3| |]; subst. apply IH in D2; destruct D2 as [L D2]. split; [cbn; lia|].
    intros c' i. rewrite D2. rewrite <- SM. unfold put. cbn [map mem existsb]. fold (mem i (map h_id hs)).
    destruct (bytes_eqb c' c) eqn:C, (mem i (map h_id hs)) eqn:M; cbn [andb orb]; try reflexivity; rewrite ?orb_true_r; try reflexivity.
    destruct (bytes_eqb i _); reflexivity.
Qed.
(* success: the documents with a mapping in the query are gone, all others are as before *)
Theorem C32_exact : forall E p s v q s' n ms, env_ok E -> reach E s -> In v (ev_views E) ->
  query anyone s v q true None = Done ms -> delete_docs E p s v q = (s', Done n) ->
  n = N.of_nat (length ms) /\
  forall c id, doc_at s' c id = if bytes_eqb c (vw_coll v) && mem id (map (fun m => h_id (em_src m)) ms) then None else doc_at s c id.
Proof.
  intros E p s v q s' n ms EO R I Q X. unfold delete_docs in X. rewrite (delete_ops_spec s v q ms Q) in X.
  destruct (apply_transaction E p s (deletes (vw_coll v) (map em_src ms))) as [s1 [rs|e|]] eqn:A; try discriminate. injection X as <- <-.
  destruct (C19_all_or_nothing E p s _ s1 _ EO R A) as [(rs' & Y & D & _)|[Y _]]; [|exfalso; exact (Y rs eq_refl)]. injection Y as <-.
  apply deletes_effect in D. destruct D as [L D]. rewrite map_length in L. split; [rewrite L; reflexivity|].
  intros c id. unfold docs_of in D. rewrite D. rewrite map_map. reflexivity.
Qed.
(* failure: nothing is deleted *)
Theorem C32_failed : forall E p s v q s' o, env_ok E -> reach E s -> delete_docs E p s v q = (s', o) -> (forall n, o <> Done n) -> s' = s.
Proof.
  intros E p s v q s' o EO R X N. unfold delete_docs in X. destruct (apply_transaction E p s (delete_ops s v q)) as [s1 o1] eqn:A.
  destruct (C19_all_or_nothing E p s _ s1 _ EO R A) as [(rs & -> & _)|[_ ->]].
  - injection X as <- <-. exfalso. eapply N. reflexivity.
  - destruct o1; congruence.
Qed.
(* it succeeds when the view is up to date, no document has two mappings in the
   query, and the session may delete the documents *)
Lemma update_eager_total views c id : forall w, (forall v, In v views -> reduce_total (vw_def v)) -> t_wf (w_docs w c) -> t_get id (w_docs w c) = None ->
  exists w', update_eager views c id w = Done w' /\ w_docs w' = w_docs w.
Proof.
  induction views as [|v r IH]; intros w RT W G; cbn [update_eager]; [eauto|].
  assert (RT' : forall u, In u r -> reduce_total (vw_def u)) by (intros u J; apply RT; right; exact J).
  destruct (bytes_eqb (vw_coll v) c && is_eager (vd_policy (vw_def v))); [|apply IH; assumption].
  destruct (map_request_total (fun l => l) (vw_def v) (w_docs w c) [id] (w_views w (vw_name v))) as (vs & ->).
  - intros l; apply Permutation_refl.
  - apply RT. left. reflexivity.
  - exact W.
  - constructor.
  - right. intros j [<-|[]]. exact G.
  - destruct (IH (set_view w (vw_name v) vs) RT' W G) as (w' & A & B). eauto.
Qed.
Lemma run_deletes E c hs : forall w ch rs, (forall v, In v (ev_views E) -> reduce_total (vw_def v)) -> t_wf (w_docs w c) -> NoDup (map h_id hs) ->
  (forall h, In h hs -> exists d, t_get (h_id h) (w_docs w c) = Some d /\ d_header d = h) -> ch_colls ch = [] \/ ch_colls ch = [c] ->
  exists w' ch' rs', run_ops E (deletes c hs) w ch rs = Done (w', ch', rs').
Proof.
  induction hs as [|h hs IH]; intros w ch rs RT W N D CH; cbn [deletes map run_ops]; [eauto|]. inversion_clear N as [|? ? N1 N2].
  unfold exec_op at 1. cbn [op_cmd op_coll]. unfold exec_delete. destruct (D h (or_introl eq_refl)) as (d & G & HD). rewrite G.
  assert (HE : header_eqb (d_header d) h = true) by (apply header_eqb_spec, HD). rewrite HE. unfold finish.
  destruct (update_eager_total (ev_views E) c (h_id (d_header d)) (set_docs w c (t_remove (h_id h) (w_docs w c)))) as (w' & -> & WD).
  - exact RT.
  - cbn. rewrite upd_same. apply wf_remove, W.
  - cbn. rewrite upd_same, get_remove, HD, bytes_eqb_refl. reflexivity.
  - assert (RR : exists ch', record_result ch (RDeleted c (h_id h)) = Done ch' /\ ch_colls ch' = [c]).
    { cbn [record_result]. unfold record_change. destruct CH as [-> | ->]; cbn [index_of]; [|rewrite bytes_eqb_refl]; eexists; split; reflexivity. }
    destruct RR as (ch' & -> & CH'). apply IH; auto; rewrite WD; cbn; rewrite upd_same.
    + apply wf_remove, W.
    + intros g J. destruct (D g (or_intror J)) as (d' & G' & HD'). exists d'. split; [|exact HD']. rewrite get_remove.
      destruct (bytes_eqb (h_id g) (h_id h)) eqn:X; [|exact G']. apply bytes_eqb_spec in X. exfalso. apply N1. rewrite <- X. apply in_map, J.
Qed.
Theorem C32_succeeds : forall E p s v q ms, env_ok E -> reach E s -> In v (ev_views E) -> (forall id, ~ pending s v id) -> distinct q ->
  (forall u, In u (ev_views E) -> reduce_total (vw_def u)) -> ev_pk E (vw_coll v) <> None -> (forall i, p ActDelete (vw_coll v) (Some i) = true) ->
  query anyone s v q true None = Done ms -> NoDup (map (fun m => h_id (em_src m)) ms) ->
  exists s' n, delete_docs E p s v q = (s', Done n).
Proof.
  intros E p s v q ms EO R I NP D RT PK P Q N. unfold delete_docs. rewrite (delete_ops_spec s v q ms Q).
  destruct (run_deletes E (vw_coll v) (map em_src ms) (db_work s) (mk_changes [] []) [] RT) as (w & ch & rs & RO).
  - apply (proj1 (reach_ok _ _ EO R) (vw_coll v)).
  - rewrite map_map. exact N.
  - intros h J. apply in_map_iff in J. destruct J as ([k h' val] & <- & J). cbn [em_src].
    rewrite entries_query in Q. injection Q as <-. apply in_flat_map in J. destruct J as ([j e] & J1 & J2). unfold entry_mappings in J2. apply in_map_iff in J2.
    destruct J2 as ([h2 v2] & X & J2). cbn in X. injection X as -> -> ->. cbn [snd] in J2. pose proof (entries_of_query E s v q k e EO R I D J1) as G.
    assert (AT : In (mk_map h' val) (at_key (entries_of s v) k)) by (unfold at_key; rewrite G; exact J2).
    apply (doc_mappings E s v k h' val EO (reach_ok _ _ EO R) I (NP _)) in AT. destruct AT as (d & l & A & B & _). exists d. auto.
  - left. reflexivity.
  - assert (PP : forallb (op_allowed p) (deletes (vw_coll v) (map em_src ms)) = true).
    { apply forallb_forall. intros o J. apply in_map_iff in J. destruct J as (h & <- & _). apply P. }
    assert (CC : colls_defined E (deletes (vw_coll v) (map em_src ms)) = true).
    { unfold colls_defined. apply forallb_forall. intros o J. apply in_map_iff in J. destruct J as (h & <- & _). cbn. destruct (ev_pk E (vw_coll v)); congruence. }
    destruct (apply_ran E p s _ w ch rs PP CC RO) as (s' & A). rewrite A. eauto.
Qed.
(* a document with two mappings in the query: everything fails, although every
   document exists and may be deleted *)
Theorem C32_two_mappings_refuted : ~ (forall E p s v q ms, env_ok E -> reach E s -> In v (ev_views E) -> (forall id, ~ pending s v id) -> distinct q ->
  (forall u, In u (ev_views E) -> reduce_total (vw_def u)) -> ev_pk E (vw_coll v) <> None -> (forall i, p ActDelete (vw_coll v) (Some i) = true) ->
  query anyone s v q true None = Done ms -> exists s' n, delete_docs E p s v q = (s', Done n)).
Proof.
  intros H. destruct (H ex_env2 everyone ex_q1 ex_twice None (flat_map entry_mappings (entries_of ex_q1 ex_twice)) ex_env2_ok ex_q1_reach (or_introl eq_refl)) as (s' & n & X).
  - intros id. unfold pending, invalid. vm_compute. auto.
  - exact I.
  - intros u [<-|[]] l. right. reflexivity.
  - discriminate.
  - reflexivity.
  - apply query_all.
  - assert (Y : snd (delete_docs ex_env2 everyone ex_q1 ex_twice None) = Fail (DocumentNotFound [1] [5])) by (vm_compute; reflexivity). rewrite X in Y. discriminate Y.
Qed.
Example C32_ex : exists s', delete_docs ex_env3 everyone ex_q3 ex_total (Some (QMatches [0])) = (s', Done 2) /\
  doc_at s' [1] [5] = None /\ doc_at s' [1] [6] = None /\ doc_at s' [1] [7] <> None /\ (forall id, ~ pending ex_q3 ex_total id).
Proof.
  eexists. split; [vm_compute; reflexivity|]. split; [vm_compute; reflexivity|]. split; [vm_compute; reflexivity|].
  split; [vm_compute; congruence|]. intros id. unfold pending, invalid. vm_compute. auto.
Qed.

Print Assumptions C31_exact.
Print Assumptions C31_order.
Print Assumptions C31_filter.
Print Assumptions C31_limit_keys.
Print Assumptions C31_limit_refuted.
Print Assumptions C31_keys_ignore_limit.
Print Assumptions C31_denied.
Print Assumptions C31_with_docs.
Print Assumptions C31_with_docs_denied.
Print Assumptions C30_grouped.
Print Assumptions C30_reduce.
Print Assumptions C30_reduce_all.
Print Assumptions C32_exact.
Print Assumptions C32_failed.
Print Assumptions C32_succeeds.
Print Assumptions C32_two_mappings_refuted.
