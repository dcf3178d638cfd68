(* Vocabulary for the properties of documents and views: what a user can observe and
   which histories are possible. *)
From Verif Require Import Base Key KeyPrefix DocId Tree View ViewProofs ViewMap Docs DocsProofs.
Local Open Scope N_scope.

(* the document a reader gets *)
Definition doc_at (s : dbstate) (c id : bytes) : option doc := t_get id (w_docs (db_work s) c).
Definition rev_of (d : doc) : revision := h_rev (d_header d).
Definition empty_db : dbstate := mk_db (mk_work (fun _ => []) (fun _ => empty_vs)) [].
Definition everyone : session := fun _ _ _ => true.

(* transactions applied one after the other, failed ones included *)
Definition tx : Type := session * list operation.
Definition run (E : env) (s : dbstate) (h : list tx) : dbstate :=
  fold_left (fun s t => fst (apply_transaction E (fst t) s (snd t))) h s.

(* one transaction of a mapper job (map_view) on a view, for any set of documents
   and any arrival order of the mapped documents *)
Definition mapper_step (E : env) (v : view) (shuffle : list mapped -> list mapped) (ids : list bytes) (s : dbstate) : dbstate :=
  match map_chunk shuffle (vw_def v) (w_docs (db_work s) (vw_coll v)) ids (w_views (db_work s) (vw_name v)) with
  | Done vs => mk_db (set_view (db_work s) (vw_name v) vs) (db_log s ++ [(next_tx (db_log s), None)])
  | _ => s
  end.
(* an integrity scan that finds another version (integrity_scanner.rs:73-118), run
   without anything else in between: all entries are dropped, all documents queued *)
Definition rebuilt (docs : tree doc) : vstate := mk_vs [] [] (map (fun p => (fst p, tt)) docs).
Definition scan_step (E : env) (v : view) (s : dbstate) : dbstate :=
  mk_db (set_view (db_work s) (vw_name v) (rebuilt (w_docs (db_work s) (vw_coll v)))) (db_log s ++ [(next_tx (db_log s), None)]).

(* every state a database can be in *)
Inductive reach (E : env) : dbstate -> Prop :=
| reach_init : reach E empty_db
| reach_tx s p ops : reach E s -> reach E (fst (apply_transaction E p s ops))
| reach_map s v shuffle ids : reach E s -> In v (ev_views E) -> permutes shuffle -> sorted ids -> reach E (mapper_step E v shuffle ids s)
| reach_scan s v : reach E s -> In v (ev_views E) -> reach E (scan_step E v s).

Lemma vs_ok_empty vd : vs_ok vd empty_vs.
Proof.
  constructor; cbn; try constructor; try discriminate.
  - intros [].
  - intros (ks & X & _). discriminate.
  - lia.
Qed.
Lemma empty_ok E : db_ok E empty_db.
Proof.
  split; cbn.
  - intros c. split; [split; [constructor|]|]; intros id d X; discriminate.
  - intros v _. split; [apply vs_ok_empty|]. intros id _ _. unfold fresh. cbn. reflexivity.
Qed.
Lemma same_name E u v : env_ok E -> In u (ev_views E) -> In v (ev_views E) -> vw_name u = vw_name v -> u = v.
Proof.
  unfold env_ok. induction (ev_views E) as [|y l IH]; intros EO I J X; [destruct I|].
  cbn [map] in EO. inversion_clear EO as [|? ? N1 N2]. destruct I as [->|I], J as [->|J]; auto.
  - exfalso. apply N1. rewrite X. apply in_map, J.
  - exfalso. apply N1. rewrite <- X. apply in_map, I.
Qed.
Lemma set_view_ok E w v vs : env_ok E -> In v (ev_views E) -> work_ok E w nothing ->
  view_ok v (w_docs w (vw_coll v)) vs (fun _ => False) -> work_ok E (set_view w (vw_name v) vs) nothing.
Proof.
  intros EO I [D V] OK. split; [exact D|]. intros u J. cbn [set_view w_docs w_views].
  destruct (bytes_dec (vw_name u) (vw_name v)) as [X|X].
  - rewrite (same_name E u v EO J I X), upd_same. exact OK.
  - rewrite upd_other by exact X. apply V, J.
Qed.
Lemma mapper_ok E v shuffle ids s : env_ok E -> db_ok E s -> In v (ev_views E) -> permutes shuffle -> sorted ids ->
  db_ok E (mapper_step E v shuffle ids s).
Proof.
  intros EO OK I P S. unfold mapper_step.
  destruct (map_chunk shuffle (vw_def v) (w_docs (db_work s) (vw_coll v)) ids (w_views (db_work s) (vw_name v))) as [vs|e|] eqn:M; auto.
  destruct OK as [D V]. destruct (V v I) as [VO FR].
  destruct (map_chunk_spec _ _ _ _ _ _ P VO (proj1 (D (vw_coll v))) S M) as (OK' & IV & F & O).
  apply set_view_ok; auto; [split; auto|]. split; [exact OK'|]. intros id NI _.
  destruct (in_dec bytes_dec id ids) as [J|J]; [apply F, J|].
  eapply fresh_same; [intros k; apply O, J|]. apply FR; [|intros [_ []]]. intros X. apply NI, IV. auto.
Qed.
Lemma rebuilt_ok vd docs : t_wf docs -> vs_ok vd (rebuilt docs).
Proof.
  intros W. destruct (vs_ok_empty vd) as [A B C D E F G H]. constructor; auto.
  unfold t_wf, rebuilt, t_keys. cbn. rewrite map_map. exact W.
Qed.
Lemma scan_ok E v s : env_ok E -> db_ok E s -> In v (ev_views E) -> db_ok E (scan_step E v s).
Proof.
  intros EO OK I. apply set_view_ok; auto. destruct OK as [D V]. pose proof (proj1 (proj1 (D (vw_coll v)))) as W.
  split; [apply rebuilt_ok, W|]. intros id NI _. unfold fresh. destruct (t_get id (w_docs (db_work s) (vw_coll v))) as [d|] eqn:G.
  - exfalso. apply NI. unfold invalid, rebuilt, t_keys. cbn. rewrite map_map. cbn. apply keys_get. eauto.
  - reflexivity.
Qed.
Theorem reach_ok E s : env_ok E -> reach E s -> db_ok E s.
Proof.
  intros EO R. induction R.
  - apply empty_ok.
  - destruct (apply_transaction E p s ops) as [s' o] eqn:A. eapply apply_ok; eassumption.
  - apply mapper_ok; assumption.
  - apply scan_ok; assumption.
Qed.
Lemma run_reach E h : forall s, reach E s -> reach E (run E s h).
Proof. induction h as [|t h IH]; intros s R; [exact R|]. apply IH. apply reach_tx, R. Qed.

(* ---------- what the operations mean, on a map from collection and id to documents ---------- *)
Definition docmap := bytes -> bytes -> option doc.
Definition put (m : docmap) (c id : bytes) (o : option doc) : docmap :=
  fun c' i => if bytes_eqb c' c && bytes_eqb i id then o else m c' i.
Definition same_docs (m m' : docmap) : Prop := forall c id, m c id = m' c id.
Definition first_rev (H : bytes -> bytes) (contents : bytes) : revision := mk_rev 0 (H contents).
Inductive does (H : bytes -> bytes) (m : docmap) (c : bytes) : command -> docmap -> opres -> Prop :=
| does_insert oid id contents : (oid = Some id \/ oid = None) -> m c id = None ->
    does H m c (Insert oid contents) (put m c id (Some (mk_doc (mk_header id (first_rev H contents)) contents)))
      (RUpdated c (mk_header id (first_rev H contents)))
| does_update h d contents : m c (h_id h) = Some d -> rev_of d = h_rev h -> H contents <> r_sha (h_rev h) ->
    let h' := mk_header (h_id h) (mk_rev (r_id (h_rev h) + 1) (H contents)) in
    does H m c (Update h contents) (put m c (h_id h) (Some (mk_doc h' contents))) (RUpdated c h')
| does_update_same h d contents : m c (h_id h) = Some d -> rev_of d = h_rev h -> H contents = r_sha (h_rev h) ->
    does H m c (Update h contents) m (RUpdated c (d_header d))
| does_overwrite id d contents : m c id = Some d -> H contents <> r_sha (rev_of d) ->
    let h' := mk_header id (mk_rev (r_id (rev_of d) + 1) (H contents)) in
    does H m c (Overwrite id contents) (put m c id (Some (mk_doc h' contents))) (RUpdated c h')
| does_overwrite_same id d contents : m c id = Some d -> H contents = r_sha (rev_of d) ->
    does H m c (Overwrite id contents) m (RUpdated c (d_header d))
| does_overwrite_new id contents : m c id = None ->
    does H m c (Overwrite id contents) (put m c id (Some (mk_doc (mk_header id (first_rev H contents)) contents)))
      (RUpdated c (mk_header id (first_rev H contents)))
| does_delete h d : m c (h_id h) = Some d -> d_header d = h ->
    does H m c (Delete h) (put m c (h_id h) None) (RDeleted c (h_id h))
| does_check id d : m c id = Some d -> does H m c (Check id None) m RSuccess
| does_check_rev id r d : m c id = Some d -> rev_of d = r -> does H m c (Check id (Some r)) m RSuccess.
(* when an operation is refused *)
Inductive refused (m : docmap) (c : bytes) : command -> terr -> Prop :=
| refused_insert id contents d : m c id = Some d -> refused m c (Insert (Some id) contents) (DocumentConflict c (d_header d))
| refused_update h contents d : m c (h_id h) = Some d -> rev_of d <> h_rev h ->
    refused m c (Update h contents) (DocumentConflict c (d_header d))
| refused_update_missing h contents : m c (h_id h) = None -> refused m c (Update h contents) (DocumentNotFound c (h_id h))
| refused_delete h d : m c (h_id h) = Some d -> d_header d <> h -> refused m c (Delete h) (DocumentConflict c h)
| refused_delete_missing h : m c (h_id h) = None -> refused m c (Delete h) (DocumentNotFound c (h_id h))
| refused_check id r d : m c id = Some d -> rev_of d <> r -> refused m c (Check id (Some r)) (DocumentConflict c (mk_header id r))
| refused_check_missing id o : m c id = None -> refused m c (Check id o) (DocumentNotFound c id).

Definition docs_of (s : dbstate) : docmap := doc_at s.
Definition w_map (w : work) : docmap := fun c id => t_get id (w_docs w c).
(* several operations, each seeing the effect of the earlier ones *)
Inductive does_all (H : bytes -> bytes) : docmap -> list operation -> docmap -> list opres -> Prop :=
| does_none m m' : same_docs m m' -> does_all H m [] m' []
| does_next m o m1 m1' r ops m2 rs : does H m (op_coll o) (op_cmd o) m1 r -> same_docs m1 m1' ->
    does_all H m1' ops m2 rs -> does_all H m (o :: ops) m2 (r :: rs).
