(* Proofs about Entry.v *)
From Verif Require Import Base Key KeyPrefix DocId Tree View ViewProofs ViewMap Docs DocsProofs DocsSpec DocsMore DocsHist ViewSyncProofs PropDocs Query PropViews PropQuery Modify PropModify Entry.
Local Open Scope N_scope.

Lemma others_trans E s1 s2 s3 : others E s1 s2 -> others E s2 s3 -> others E s1 s3.
Proof.
  induction 1; intros X; [exact X|eapply others_tx, IHothers, X|eapply others_map; try eassumption; apply IHothers, X|eapply others_scan; try eassumption; apply IHothers, X].
Qed.
Lemma load_others E pv p v r s s1 o : load E pv p v r s s1 o -> others E s s1.
Proof. intros [i a b O|n a b e O Q|n a b ms c0 O Q O2]; auto. eapply others_trans; eassumption. Qed.

Definition named (v : view) (s : dbstate) (n i : bytes) : Prop :=
  exists d x, doc_at s (vw_coll v) i = Some d /\ emits v d n x.

Lemma query_pv pv s v q asc l ms : query pv s v q asc l = Done ms -> query anyone s v q asc l = Done ms.
Proof. unfold query, anyone. destruct (pv VQuery (vw_name v)); [auto|discriminate]. Qed.
Lemma sources_named E pv s v n ms i : env_ok E -> reach E s -> In v (ev_views E) ->
  query pv s v (Some (QMatches n)) true None = Done ms -> ~ pending s v i -> (In i (sources ms) <-> named v s n i).
Proof.
  intros EO R I Q P. apply query_pv in Q.
  assert (Q2 := C31_filter E s v (Some (QMatches n)) ms _ EO R I (ltac:(cbn; auto)) Q eq_refl).
  set (all := flat_map entry_mappings _) in Q2.
  assert (QA : query anyone s v None true None = Done all) by reflexivity.
  unfold sources. rewrite in_map_iff. split.
  - intros ([k h val] & <- & M). cbn [em_src] in *. rewrite Q2 in M. apply filter_In in M. destruct M as [M K]. cbn [em_key asks] in K.
    apply bytes_eqb_spec in K. subst k. apply (C28_document E s v all n h val EO R I QA P) in M.
    destruct M as (d & l & G & H & MP & L). exists d, val. split; [exact G|]. exists l. split; [exact MP|apply last_value_In, L].
  - intros (d & x & G & l & MP & L). destruct (last_value n l) as [y|] eqn:LV.
    2: { exfalso. apply last_value_none in LV. apply LV. apply (in_map fst) in L. exact L. }
    destruct (C23_digest E s _ _ _ EO R G) as [HI _].
    exists (mk_em n (d_header d) y). cbn [em_src]. split; [exact HI|]. rewrite Q2. apply filter_In. split.
    + apply (C28_document E s v all n (d_header d) y EO R I QA); rewrite HI; [exact P|]. exists d, l. auto.
    + cbn [asks em_key]. apply bytes_eqb_refl.
Qed.

(* the map of the documents by id *)
Lemma fold_docs_wf (l : list doc) : forall t, t_wf t -> t_wf (fold_left (fun t d => t_set (h_id (d_header d)) d t) l t).
Proof. induction l as [|d l IH]; intros t W; [exact W|]. cbn [fold_left]. apply IH, wf_set, W. Qed.
Lemma fold_docs_get (m : bytes -> option doc) (l : list doc) : (forall d, In d l -> m (h_id (d_header d)) = Some d) ->
  forall t i, t_get i (fold_left (fun t d => t_set (h_id (d_header d)) d t) l t) =
  if existsb (fun d => bytes_eqb i (h_id (d_header d))) l then m i else t_get i t.
Proof.
  induction l as [|d l IH]; intros A t i; [reflexivity|]. cbn [fold_left existsb].
  rewrite IH by (intros x X; apply A; right; exact X). rewrite get_set. destruct (existsb (fun d0 => bytes_eqb i (h_id (d_header d0))) l); [rewrite orb_true_r; reflexivity|].
  rewrite orb_false_r. destruct (bytes_eqb i (h_id (d_header d))) eqn:B; [|reflexivity]. apply bytes_eqb_spec in B. subst i. symmetry. apply A. left. reflexivity.
Qed.

Lemma first_doc_spec E p s c ids x : env_ok E -> reach E s -> first_doc (get_multiple p s c ids) = Done x ->
  match x with
  | Some d => doc_at s c (h_id (d_header d)) = Some d /\ In (h_id (d_header d)) ids /\
      forall i d', In i ids -> doc_at s c i = Some d' -> lex (h_id (d_header d)) i <> Gt
  | None => forall i, In i ids -> doc_at s c i = None
  end.
Proof.
  intros EO R F. unfold first_doc, get_multiple in F. destruct (forallb _ ids); [|discriminate].
  set (ds := get_multiple_tree _ _) in F.
  assert (IN : forall d, In d ds <-> In (h_id (d_header d)) ids /\ doc_at s c (h_id (d_header d)) = Some d).
  { intros d. unfold ds. pose proof (get_multiple_perm (w_docs (db_work s) c) ids) as PM.
    assert (EQ : In d (get_multiple_tree (w_docs (db_work s) c) ids) <-> In d (flat_map (fun i => match t_get i (w_docs (db_work s) c) with Some v => [v] | None => [] end) ids)).
    { split; apply Permutation.Permutation_in; [exact PM|apply Permutation.Permutation_sym, PM]. }
    rewrite EQ. rewrite in_flat_map. split.
    - intros (i & Ii & Y). destruct (t_get i (w_docs (db_work s) c)) as [y|] eqn:G; [|destruct Y]. destruct Y as [->|[]].
      destruct (C23_digest E s c i d EO R G) as [<- _]. split; [exact Ii|exact G].
    - intros [Ii G]. exists (h_id (d_header d)). split; [exact Ii|]. unfold doc_at in G. rewrite G. left. reflexivity. }
  set (t := fold_left (fun t d => t_set (h_id (d_header d)) d t) ds []) in F.
  assert (W : t_wf t) by (apply fold_docs_wf; constructor).
  assert (G : forall i, t_get i t = if existsb (fun d => bytes_eqb i (h_id (d_header d))) ds then doc_at s c i else None).
  { intros i. unfold t. rewrite (fold_docs_get (doc_at s c)); [reflexivity|]. intros d D. apply IN in D. apply D. }
  assert (FULL : forall i d, In i ids -> doc_at s c i = Some d -> t_get i t = Some d).
  { intros i d Ii D. rewrite G. assert (X : existsb (fun d0 => bytes_eqb i (h_id (d_header d0))) ds = true).
    { apply existsb_exists. exists d. destruct (C23_digest E s c i d EO R D) as [HI _]. rewrite HI. split; [|apply bytes_eqb_refl]. apply IN. rewrite HI. auto. }
    rewrite X. exact D. }
  injection F as F. clearbody t. destruct t as [|[k d] t]; cbn [map hd_error snd] in F; subst x.
  - intros i Ii. destruct (doc_at s c i) as [d|] eqn:D; [|reflexivity]. apply FULL in D; [discriminate D|exact Ii].
  - pose proof (G k) as GK. cbn [t_get] in GK. rewrite bytes_eqb_refl in GK.
    destruct (existsb _ ds) eqn:X; [|discriminate]. symmetry in GK. destruct (C23_digest E s c k d EO R GK) as [HI _].
    rewrite HI. split; [exact GK|]. split.
    { apply existsb_exists in X. destruct X as (y & Y & BQ). apply bytes_eqb_spec in BQ. apply IN in Y. rewrite BQ. apply Y. }
    intros i d' Ii D L. apply FULL in D; [|exact Ii]. cbn [t_get] in D.
    destruct (bytes_eqb i k) eqn:B.
    + apply bytes_eqb_spec in B. subst i. rewrite lex_refl in L. discriminate.
    + apply get_In in D. pose proof (sorted_strong _ W) as SS. change (t_keys ((k, d) :: t)) with (k :: map fst t) in SS. inversion SS as [|? ? ? FA]; subst.
      rewrite Forall_forall in FA. rewrite FA in L; [discriminate L|]. apply (in_map fst) in D. exact D.
Qed.

Lemma load_found E pv p v r s s1 d : env_ok E -> reach E s -> load E pv p v r s s1 (Done (Some d)) ->
  doc_at s1 (vw_coll v) (h_id (d_header d)) = Some d.
Proof.
  intros EO R L. pose proof (others_reach _ _ _ (load_others _ _ _ _ _ _ _ _ L) R) as R1.
  inversion L as [i a b O X Y Z W|n a b e O Q|n a b ms c0 O Q O2 X Y Z W]; subst.
  - unfold get_doc in W. destruct (p ActGet (vw_coll v) (Some i)); [|discriminate]. injection W as W.
    destruct (C23_digest E s1 _ i d EO R1 W) as [HI _]. rewrite HI. exact W.
  - pose proof (first_doc_spec E p s1 _ _ _ EO R1 W) as F. apply F.
Qed.
