(* Property theorems C106: what the errors of a transaction say about themselves.
   [application_error E p s ops]: the error the application gets. [refused], [emits] and
   [pending]: DocsSpec.v, PropViews.v. *)
From Verif Require Import Base Key Tree View ViewProofs ViewMap Docs DocsProofs DocsSpec DocsMore DocsHist ViewTotal PropDocs PropViews Errors.
Local Open Scope N_scope.

(* ---------- which operation failed ---------- *)
Lemma failed_at E : forall ops w ch rs e, run_ops E ops w ch rs = Fail e -> e <> TransactionTooLarge ->
  exists w' o, In o ops /\ exec_op E w' o = Fail e /\ error_in E w ops = Some (error_of E w' o e).
Proof.
  induction ops as [|o ops IH]; intros w ch rs e H NT; cbn [run_ops] in H; [discriminate|]. cbn [error_in].
  destruct (exec_op E w o) as [[w1 r]|x|] eqn:X; [| |discriminate].
  - destruct (record_result ch r) as [ch'|x|] eqn:RR; [| |discriminate].
    + destruct (IH _ _ _ _ H NT) as (w' & o' & J & K & L). exists w', o'. split; [right; exact J|]. auto.
    + exfalso. injection H as ->. revert RR. unfold record_result, record_change. destruct r; try discriminate;
      destruct (index_of _ _ _); try discriminate; destruct (_ <? _); try discriminate; congruence.
  - injection H as ->. exists w, o. split; [left; reflexivity|]. auto.
Qed.
Lemma application_failed E p s ops s' e : apply_transaction E p s ops = (s', Fail e) ->
  match e with DocumentConflict _ _ | ViewError _ => True | _ => False end ->
  exists w' o, In o ops /\ exec_op E w' o = Fail e /\ application_error E p s ops = Some (error_of E w' o e) /\
    exists ch rs, run_ops E ops (db_work s) ch rs = Fail e.
Proof.
  intros A M. unfold application_error. rewrite A. cbn [snd].
  assert (R : run_ops E ops (db_work s) (mk_changes [] []) [] = Fail e).
  { unfold apply_transaction, apply_to_roots in A. destruct (forallb (op_allowed p) ops); [|injection A as _ <-; contradiction].
    destruct (colls_defined E ops); [|injection A as _ <-; contradiction].
    destruct (run_ops E ops _ _ _) as [[[w ch] rs]|y|]; [|congruence|discriminate].
    exfalso. destruct (invalidate E ch w) as [w2|y|] eqn:IV; try discriminate. injection A as _ ->. revert IV. unfold invalidate.
    assert (G : forall ds (o : outcome work terr), (forall e, o <> Fail e) -> fold_left (inv_step E ch) ds o <> Fail e).
    { induction ds as [|d ds IH]; intros o H; cbn [fold_left]; [apply H|]. apply IH. intros e0. destruct o as [w0|y|]; cbn; [destruct (change_coll ch d); discriminate|apply H|discriminate]. }
    apply G. discriminate. }
  destruct (failed_at _ _ _ _ _ _ R) as (w' & o & I & X & EI). { intros ->. contradiction. }
  exists w', o. split; [exact I|]. split; [exact X|]. split; [|eauto]. destruct e; try contradiction; exact EI.
Qed.
Lemma fails_same E p s ops s' e : apply_transaction E p s ops = (s', Fail e) -> s' = s.
Proof.
  unfold apply_transaction, apply_to_roots. destruct (forallb _ _); [|congruence]. destruct (colls_defined E ops); [|congruence].
  destruct (run_ops E ops _ _ _) as [[[w ch] rs]|y|]; try congruence. destruct (invalidate E ch w); congruence.
Qed.
Lemma conflict_refused E p s c cmd s' cc h : apply_transaction E p s [mk_op c cmd] = (s', Fail (DocumentConflict cc h)) ->
  refused (docs_of s) c cmd (DocumentConflict cc h) \/ (exists contents, cmd = Insert None contents).
Proof.
  intros T. pose proof (fails_same _ _ _ _ _ _ T) as ->.
  destruct (C21_fails_only_if_refused _ _ _ _ _ _ T) as [P|[P|[P|[[y P]|P]]]]; try discriminate P; auto; exfalso; revert T;
    unfold apply_transaction; cbn [forallb].
  - rewrite P. discriminate.
  - destruct (op_allowed p (mk_op c cmd) && true); [|discriminate]. unfold apply_to_roots, colls_defined. cbn [forallb op_coll]. rewrite P. discriminate.
Qed.
Lemma application_conflict E p s ops s' c h : apply_transaction E p s ops = (s', Fail (DocumentConflict c h)) ->
  application_error E p s ops = Some (EConflict c h).
Proof. intros A. destruct (application_failed _ _ _ _ _ _ A) as (w & o & _ & _ & X & _); [exact I|]. exact X. Qed.

(* C106 *)
(* conflicting_document answers exactly when the transaction failed with a conflict in the
   collection asked for, with the header of that error *)
Theorem C106_conflicting_document : forall E p s ops x mine h,
  application_error E p s ops = Some x ->
  conflicting_document mine x = Some h <-> exists s', apply_transaction E p s ops = (s', Fail (DocumentConflict mine h)).
Proof.
  intros E p s ops x mine h A. split.
  - intros C. destruct (apply_transaction E p s ops) as [s' o] eqn:T. exists s'. f_equal.
    destruct o as [rs|e|]; unfold application_error in A; rewrite T in A; cbn [snd] in A; try discriminate.
    destruct e; try (injection A as <-; discriminate C).
    + pose proof (application_conflict _ _ _ _ _ _ _ T) as B. unfold application_error in B. rewrite T in B. cbn [snd] in B. rewrite B in A.
      injection A as <-. cbn in C. destruct (bytes_eqb coll mine) eqn:Q; [|discriminate]. apply bytes_eqb_spec in Q. congruence.
    + exfalso. destruct (application_failed _ _ _ _ _ _ T) as (w & o & _ & _ & B & _); [exact I|].
      unfold application_error in B. rewrite T in B. cbn [snd] in B. rewrite B in A. injection A as <-. unfold error_of in C.
      destruct e; try discriminate C. destruct (changed E w o) as [[id w']|]; [|discriminate C].
      destruct (failing_view (ev_views E) (op_coll o) id w'); discriminate C.
  - intros [s' T]. rewrite (application_conflict _ _ _ _ _ _ _ T) in A. injection A as <-. cbn. rewrite bytes_eqb_refl. reflexivity.
Qed.
(* for an insert or an update alone it is the header of the stored document ... *)
Definition saves (cmd : command) (id : bytes) : Prop :=
  (exists contents, cmd = Insert (Some id) contents) \/ (exists h contents, cmd = Update h contents /\ h_id h = id).
Theorem C106_current : forall E p s c cmd id x mine h, env_ok E -> reach E s -> saves cmd id ->
  application_error E p s [mk_op c cmd] = Some x -> conflicting_document mine x = Some h ->
  mine = c /\ h_id h = id /\ exists d, doc_at s c id = Some d /\ d_header d = h.
Proof.
  intros E p s c cmd id x mine h EO R SV A C. pose proof (reach_ok _ _ EO R) as OK.
  apply (C106_conflicting_document _ _ _ _ _ _ _ A) in C. destruct C as [s' T].
  destruct (conflict_refused _ _ _ _ _ _ _ _ T) as [P|[y P]].
  - assert (ID : forall d, docs_of s c id = Some d -> h_id (d_header d) = id).
    { intros d G. destruct (proj1 OK c) as [[W HI] _]. exact (HI _ _ G). }
    destruct SV as [[contents ->]|(h0 & contents & -> & HI)]; inversion P; subst.
    + split; [reflexivity|]. split; [apply ID; assumption|eauto].
    + split; [reflexivity|]. split; [apply ID; assumption|eauto].
  - subst cmd. destruct SV as [[? Q]|(? & ? & Q & _)]; discriminate Q.
Qed.
(* ... so an update that names it does not conflict if nothing came between *)
Theorem C106_retry : forall E p s c cmd id x mine h contents, env_ok E -> reach E s -> saves cmd id ->
  application_error E p s [mk_op c cmd] = Some x -> conflicting_document mine x = Some h ->
  forall q s' d h', apply_transaction E q s [mk_op c (Update h contents)] <> (s', Fail (DocumentConflict d h')).
Proof.
  intros E p s c cmd id x mine h contents EO R SV A C q s' cc h' T.
  destruct (C106_current _ _ _ _ _ _ _ _ _ EO R SV A C) as (-> & HI & d & G & HD).
  destruct (conflict_refused _ _ _ _ _ _ _ _ T) as [P|[y P]].
  - inversion P as [|h1 c1 d1 K NE| | | | |]. subst. unfold docs_of in K. rewrite G in K. injection K as ->. apply NE. reflexivity.
  - discriminate P.
Qed.
(* for a delete or a check it is what the caller passed: of another revision than the
   stored document's, and naming it again fails again *)
Definition presents (cmd : command) (h : header) : Prop := cmd = Delete h \/ cmd = Check (h_id h) (Some (h_rev h)).
Theorem C106_own_header : forall E p s c cmd h x mine h', env_ok E -> reach E s -> presents cmd h ->
  application_error E p s [mk_op c cmd] = Some x -> conflicting_document mine x = Some h' ->
  mine = c /\ h' = h /\ (exists d, doc_at s c (h_id h) = Some d /\ rev_of d <> h_rev h) /\
  forall q cmd' s' rs, presents cmd' h' \/ (exists contents, cmd' = Update h' contents) ->
    apply_transaction E q s [mk_op c cmd'] <> (s', Done rs).
Proof.
  intros E p s c cmd h x mine h' EO R PR A C. pose proof (reach_ok _ _ EO R) as OK.
  apply (C106_conflicting_document _ _ _ _ _ _ _ A) in C. destruct C as [s' T].
  assert (K : mine = c /\ h' = h /\ exists d, doc_at s c (h_id h) = Some d /\ rev_of d <> h_rev h).
  { destruct (conflict_refused _ _ _ _ _ _ _ _ T) as [P|[y P]].
    - destruct PR as [->| ->]; inversion P; subst.
      + split; [reflexivity|]. split; [reflexivity|]. exists d. split; [assumption|]. intros Q.
        destruct (proj1 OK mine) as [[_ HI] _]. match goal with G : docs_of s _ _ = Some d |- _ => apply HI in G; rename G into GI end. destruct d as [[i r] b]. destruct h' as [i' r']. unfold rev_of in *. cbn in *.
        intuition congruence.
      + split; [reflexivity|]. split; [destruct h; reflexivity|]. exists d. auto.
    - subst cmd. destruct PR; discriminate. }
  destruct K as (-> & -> & d & G & NE). split; [reflexivity|]. split; [reflexivity|]. split; [eauto|].
  intros q cmd' s2 rs PR' T'. destruct (C21_success _ _ _ _ _ _ _ EO R T') as (m & r & _ & D & _).
  unfold docs_of in D. destruct PR' as [[->| ->]|[contents ->]]; inversion D; subst; unfold rev_of in *; congruence.
Qed.
(* so it is not the header of the conflicting document, and a retry loop that goes by it
   never ends *)
Theorem C106_own_header_refuted : exists E s h x, env_ok E /\ reach E s /\
  application_error E everyone s [mk_op [1] (Delete h)] = Some x /\
  exists d, doc_at s [1] (h_id h) = Some d /\ conflicting_document [1] x <> Some (d_header d).
Proof.
  exists ex_env, ex_s1, (mk_header [5] (mk_rev 7 [])). eexists. split; [exact ex_env_ok|]. split; [apply reach_tx, reach_init|].
  split; [vm_compute; reflexivity|]. eexists. split; [vm_compute; reflexivity|]. vm_compute. discriminate.
Qed.
(* in a transaction of several operations it can be a header the same transaction wrote and
   that is never stored *)
Theorem C106_uncommitted_refuted : exists E s ops x h, env_ok E /\ reach E s /\
  application_error E everyone s ops = Some x /\ conflicting_document [1] x = Some h /\
  (exists d, doc_at s [1] (h_id h) = Some d /\ d_header d <> h) /\
  exists x', application_error E everyone s [mk_op [1] (Update h [30])] = Some x' /\ exists h', conflicting_document [1] x' = Some h'.
Proof.
  exists ex_env, ex_s1, [mk_op [1] (Overwrite [5] [12]); mk_op [1] (Insert (Some [5]) [13])]. eexists. eexists.
  split; [exact ex_env_ok|]. split; [apply reach_tx, reach_init|].
  split; [vm_compute; reflexivity|]. split; [vm_compute; reflexivity|]. split.
  - eexists. split; [vm_compute; reflexivity|]. vm_compute. discriminate.
  - eexists. split; [vm_compute; reflexivity|]. eexists. vm_compute. reflexivity.
Qed.

(* ---------- unique views ---------- *)
Lemma failing_eager views c id e : forall w, NoDup (map vw_name views) -> update_eager views c id w = Fail (ViewError e) ->
  exists v, In v views /\ eager_in c v = true /\ failing_view views c id w = Some (vw_name v) /\
    map_request (fun l => l) (vw_def v) (w_docs w c) [id] (w_views w (vw_name v)) = Fail e.
Proof.
  induction views as [|v r IH]; intros w N H; cbn [update_eager] in H; [discriminate|]. inversion_clear N as [|? ? N1 N2]. cbn [failing_view].
  change (bytes_eqb (vw_coll v) c && is_eager (vd_policy (vw_def v))) with (eager_in c v) in *. destruct (eager_in c v) eqn:EI.
  - destruct (map_request (fun l => l) (vw_def v) (w_docs w c) [id] (w_views w (vw_name v))) as [vs|x|] eqn:M; try discriminate.
    + destruct (IH _ N2 H) as (u & J & EU & FU & MU). exists u. split; [right; exact J|]. split; [exact EU|]. split; [exact FU|]. cbn in MU.
      rewrite upd_other in MU; [exact MU|]. intros X. apply N1. rewrite <- X. apply in_map, J.
    + injection H as ->. exists v. split; [left; reflexivity|]. auto.
  - destruct (IH _ N2 H) as (u & J & EU & MU). exists u. split; [right; exact J|]. auto.
Qed.
Lemma exec_changed E w o e : exec_op E w o = Fail (ViewError e) -> exists id w',
  changed E w o = Some (id, w') /\ touches (op_coll o) w id w' /\ update_eager (ev_views E) (op_coll o) id w' = Fail (ViewError e).
Proof.
  destruct o as [c cmd]. cbn [op_coll]. unfold exec_op, changed; cbn [op_cmd op_coll].
  assert (FIN : forall id w' r, finish E c id w' r = Fail (ViewError e) -> update_eager (ev_views E) c id w' = Fail (ViewError e)).
  { intros id w' r. unfold finish. destruct (update_eager (ev_views E) c id w'); congruence. }
  assert (SET : forall id d r, h_id (d_header d) = id -> finish E c id (set_docs w c (t_set id d (w_docs w c))) r = Fail (ViewError e) ->
    exists i w', Some (id, set_docs w c (t_set id d (w_docs w c))) = Some (i, w') /\ touches c w i w' /\ update_eager (ev_views E) c i w' = Fail (ViewError e)).
  { intros id d r HD H. exists id, (set_docs w c (t_set id d (w_docs w c))). split; [reflexivity|]. split; [|eapply FIN, H]. unfold touches. cbn. rewrite upd_same.
    split; [intros j NE; apply get_set_other, NE|].
    split; [reflexivity|]. split; [apply wf_set|]. intros d0. rewrite get_set_same. intros X. injection X as <-. exact HD. }
  assert (UPD : forall id check contents, exec_update E w c id check contents = Fail (ViewError e) ->
    exists i w', match t_get id (w_docs w c) with
      | Some old => match next_revision E (h_rev (d_header old)) contents with
                    | Done (Some r) => Some (id, set_docs w c (t_set id (mk_doc (mk_header id r) contents) (w_docs w c)))
                    | _ => None
                    end
      | None => Some (id, set_docs w c (t_set id (new_doc E id contents) (w_docs w c)))
      end = Some (i, w') /\ touches c w i w' /\ update_eager (ev_views E) c i w' = Fail (ViewError e)).
  { intros id check contents. unfold exec_update. destruct (t_get id (w_docs w c)) as [old|].
    - destruct (match check with None => true | Some _ => _ end); [|discriminate].
      unfold next_revision. destruct (bytes_eqb _ _); [discriminate|]. destruct (_ <? _); [|discriminate]. apply SET. reflexivity.
    - destruct check; [discriminate|]. apply SET. reflexivity. }
  destruct cmd as [oid contents|h contents|id contents|h|id rev].
  - unfold exec_insert. destruct oid as [i|].
    + destruct (t_get i (w_docs w c)); [discriminate|]. apply SET. reflexivity.
    + destruct (ev_pk E c) as [t|]; [|discriminate]. pose proof (next_id_no_view t (t_last (w_docs w c)) e) as NV.
      destruct (next_id t (t_last (w_docs w c))) as [i|x|]; [| |discriminate].
      * destruct (t_get i (w_docs w c)); [discriminate|]. apply SET. reflexivity.
      * intros X. injection X as ->. congruence.
  - apply UPD.
  - apply UPD.
  - unfold exec_delete. destruct (t_get (h_id h) (w_docs w c)) as [old|]; [|discriminate]. destruct (header_eqb (d_header old) h) eqn:HE; [|discriminate].
    intros H. apply header_eqb_spec in HE. rewrite HE in H.
    exists (h_id h), (set_docs w c (t_remove (h_id h) (w_docs w c))). split; [reflexivity|]. split; [|eapply FIN, H]. unfold touches. cbn. rewrite upd_same.
    split; [intros j NE; rewrite get_remove; apply bytes_eqb_neq in NE; rewrite NE; reflexivity|].
    split; [reflexivity|]. split; [apply wf_remove|]. intros d. rewrite get_remove, bytes_eqb_refl. discriminate.
  - unfold exec_check. destruct (t_get id (w_docs w c)); [|discriminate]. destruct rev as [r|]; [|discriminate]. destruct (rev_eqb _ _); discriminate.
Qed.
(* a violated unique view always reaches the application as a unique key error that names a
   unique view of the operation's collection, the document that was refused and the stored
   one with the same key; is_unique_key_error holds for the view types registered under that
   name, and for no others *)
Theorem C106_unique : forall E p s o s' c x, env_ok E -> reach E s ->
  (forall v, In v (ev_views E) -> honest_reduce v) -> (forall v id, In v (ev_views E) -> is_eager (vd_policy (vw_def v)) = true -> ~ pending s v id) ->
  apply_transaction E p s [o] = (s', Fail (ViewError (UniqueKeyViolation c x))) ->
  exists v k d new v1 v2, application_error E p s [o] = Some (EUnique (vw_name v) c x) /\
    In v (ev_views E) /\ vw_coll v = op_coll o /\ vd_policy (vw_def v) = Unique /\
    doc_at s (op_coll o) (h_id x) = Some d /\ d_header d = x /\ emits v d k v1 /\
    d_header new = c /\ emits v new k v2 /\ h_id c <> h_id x.
Proof.
  intros E p s o s' c x EO R HON NP A.
  destruct (application_failed _ _ _ _ _ _ A) as (w & o' & I & X & AE & ch & rs & RO); [exact I|]. destruct I as [->|[]].
  assert (X0 : exec_op E (db_work s) o' = Fail (ViewError (UniqueKeyViolation c x))).
  { cbn [run_ops] in RO. destruct (exec_op E (db_work s) o') as [[w1 r]|y|] eqn:Y; [|congruence|discriminate].
    exfalso. destruct (record_result ch r) as [ch'|y|] eqn:RR; [|revert RR; injection RO as ->; unfold record_result, record_change; destruct r; try discriminate; destruct (index_of _ _ _); try discriminate; destruct (_ <? _); discriminate|discriminate].
    discriminate RO. }
  assert (W : application_error E p s [o'] = Some (error_of E (db_work s) o' (ViewError (UniqueKeyViolation c x)))).
  { unfold application_error. rewrite A. cbn [snd error_in]. rewrite X0. reflexivity. }
  pose proof (exec_changed _ _ _ _ X0) as (id & w' & CH & T & U).
  destruct (failing_eager _ _ _ _ _ EO U) as (v & IV & EI & FV & M).
  destruct (violated E s o' c x v id w' EO R HON NP IV T EI M) as (k & d & new & v1 & v2 & _ & B).
  exists v, k, d, new, v1, v2. split; [|split; [exact IV|exact B]].
  rewrite W. unfold error_of. rewrite CH, FV. reflexivity.
Qed.
Theorem C106_is_unique_key_error : forall E p s ops x registered ty, application_error E p s ops = Some x ->
  is_unique_key_error registered ty x = true ->
  exists n c e s', x = EUnique n c e /\ registered ty = Some n /\ In n (map vw_name (ev_views E)) /\
    apply_transaction E p s ops = (s', Fail (ViewError (UniqueKeyViolation c e))).
Proof.
  intros E p s ops x registered ty A IU. destruct x as [|n c e|]; try discriminate IU. cbn in IU.
  destruct (registered ty) as [m|] eqn:RG; [|discriminate]. apply bytes_eqb_spec in IU. subst m.
  destruct (apply_transaction E p s ops) as [s' o] eqn:T. exists n, c, e, s'.
  destruct o as [rs|f|]; try (unfold application_error in A; rewrite T in A; discriminate A).
  destruct f; try (unfold application_error in A; rewrite T in A; discriminate A).
  { rewrite (application_conflict _ _ _ _ _ _ _ T) in A. discriminate A. }
  destruct (application_failed _ _ _ _ _ _ T) as (w & o & _ & X & B & _); [exact I|]. rewrite B in A. injection A as A.
  unfold error_of in A. destruct e0; try discriminate A. destruct (changed E w o) as [[id w']|]; [|discriminate A].
  destruct (failing_view (ev_views E) (op_coll o) id w') as [q|] eqn:F; [|discriminate A]. injection A as -> -> ->.
  split; [reflexivity|]. split; [reflexivity|]. split; [|reflexivity].
  clear - F. revert w' F. induction (ev_views E) as [|v r IH]; intros w' F; cbn [failing_view] in F; [discriminate|]. cbn [map].
  destruct (_ && _); [|right; exact (IH _ F)].
  destruct (map_request _ _ _ _ _); [right; exact (IH _ F)|injection F as <-; left; reflexivity|injection F as <-; left; reflexivity].
Qed.
Theorem C106_same_name : forall registered t1 t2 x, registered t1 = registered t2 ->
  is_unique_key_error registered t1 x = is_unique_key_error registered t2 x.
Proof. intros registered t1 t2 x H. destruct x; cbn; try reflexivity. rewrite H. reflexivity. Qed.

(* an update from a stale header names the stored one; a second document with the same
   first byte violates the unique view [8] and no other *)
Example C106_ex :
  (exists x, application_error ex_env everyone ex_s1 [mk_op [1] (Update (mk_header [5] (mk_rev 7 [])) [30])] = Some x /\
    conflicting_document [1] x = Some ex_h5 /\ conflicting_document [2] x = None) /\
  (exists x, application_error ex_env everyone ex_s1 [mk_op [1] (Insert (Some [7]) [10; 99])] = Some x /\
    x = EUnique [8] (mk_header [7] (mk_rev 0 [9; 10; 99])) ex_h5 /\
    is_unique_key_error (fun t => if t =? 0 then Some [8] else Some [7]) 0 x = true /\
    is_unique_key_error (fun t => if t =? 0 then Some [8] else Some [7]) 1 x = false /\
    is_unique_key_error (fun _ => None) 0 x = false).
Proof.
  split; eexists; (split; [vm_compute; reflexivity|]); vm_compute; repeat match goal with |- _ /\ _ => split end; reflexivity.
Qed.
Example C106_ex_hyps : env_ok ex_env /\ reach ex_env ex_s1 /\ (forall id, ~ pending ex_s1 ex_unique id) /\ honest_reduce ex_unique /\
  saves (Update (mk_header [5] (mk_rev 7 [])) [30]) [5] /\ presents (Delete ex_h5) ex_h5.
Proof.
  split; [exact ex_env_ok|]. split; [apply reach_tx, reach_init|]. split; [intros id []|]. split; [intros l c x; discriminate|].
  split; [right; eexists; eexists; split; reflexivity|left; reflexivity].
Qed.

Print Assumptions C106_conflicting_document.
Print Assumptions C106_current.
Print Assumptions C106_retry.
Print Assumptions C106_own_header.
Print Assumptions C106_own_header_refuted.
Print Assumptions C106_uncommitted_refuted.
Print Assumptions C106_unique.
Print Assumptions C106_is_unique_key_error.
Print Assumptions C106_same_name.
