(* Property theorem C27: modify. *)
From Verif Require Import Base Key KeyPrefix DocId Tree View ViewProofs ViewMap Docs DocsProofs DocsSpec DocsMore DocsHist PropDocs Modify.
Local Open Scope N_scope.

Definition collision (H : bytes -> bytes) : Prop := exists a b, a <> b /\ H a = H b.

(* If modify succeeds, then at the moment of its last transaction the document's
   contents were those the modifier was applied to, and after it they are the
   modifier's result; unless a collision of SHA-256 is exhibited. [self]: a document
   as it was once read, so that its revision carries the digest of its contents. *)
Theorem C27_modify_applies_to_latest : forall E p c f self s before after k rs,
  env_ok E -> reach E s -> r_sha (rev_of self) = ev_hash E (d_contents self) ->
  modify E p c f 0 self s before after k (Done rs) ->
  collision (ev_hash E) \/
  exists d d', doc_at before c (h_id (d_header self)) = Some d /\
    apply_transaction E p before [mk_op c (Update (d_header d) (f k (d_contents d)))] = (after, Done rs) /\
    doc_at after c (h_id (d_header self)) = Some d' /\
    d_contents d' = f k (d_contents d).
Proof.
  intros E p c f self s before after k rs EO R SH M. remember (Done rs) as o eqn:O. remember 0%nat as n eqn:Z. clear Z.
  revert R SH O. induction M as [n self s s1 s2 o OT A C|n self s s1 s2 o s3 self' before after k r OT A C OT2 G M IH|
    n self s s1 s2 o s3 OT A C OT2 G|n self s s1 s2 o s3 e OT A C OT2 G]; intros R SH O.
  - subst o. pose proof (others_reach _ _ _ OT R) as R1.
    destruct (C21_success _ _ _ _ _ _ _ EO R1 A) as (m & r & -> & D & S).
    assert (X : exists d, docs_of s1 c (h_id (d_header self)) = Some d /\ rev_of d = h_rev (d_header self)).
    { inversion D; subst; eauto. }
    destruct X as (d & G & RV). pose proof (C23_digest _ _ _ _ _ EO R1 G) as [ID SD].
    destruct (bytes_dec (d_contents d) (d_contents self)) as [Y|Y].
    2: { left. exists (d_contents d), (d_contents self). split; [exact Y|]. unfold rev_of in *. congruence. }
    assert (HD : d_header d = d_header self).
    { unfold rev_of in RV. destruct (d_header d), (d_header self). cbn in *. congruence. }
    assert (UNCH : ev_hash E (f n (d_contents self)) = r_sha (h_rev (d_header self)) -> m = docs_of s1 ->
      collision (ev_hash E) \/ exists d', doc_at s2 c (h_id (d_header self)) = Some d' /\ d_contents d' = f n (d_contents d)).
    { intros HH MM. destruct (bytes_dec (d_contents d) (f n (d_contents d))) as [W|W].
      - right. exists d. split; [|exact W]. change (doc_at s2) with (docs_of s2). rewrite <- S, MM. exact G.
      - left. exists (d_contents d), (f n (d_contents d)). split; [exact W|]. unfold rev_of in *. rewrite Y in *. congruence. }
    assert (FIN : collision (ev_hash E) \/ exists d', doc_at s2 c (h_id (d_header self)) = Some d' /\ d_contents d' = f n (d_contents d)).
    { inversion D; subst; [|apply UNCH; [assumption|reflexivity]]. right. eexists. split.
      - change (doc_at s2) with (docs_of s2). rewrite <- S. apply put_same.
      - cbn. rewrite Y. reflexivity. }
    destruct FIN as [FC|(d' & G' & F')]; [left; exact FC|]. right. exists d, d'. split; [exact G|].
    split; [rewrite HD, Y; exact A|]. split; [exact G'|exact F'].
  - assert (R2 : reach E s2). { change s2 with (fst (s2, o)). rewrite <- A. apply reach_tx, (others_reach _ _ _ OT R). }
    pose proof (others_reach _ _ _ OT2 R2) as R3. unfold get_doc in G.
    destruct (p ActGet c (Some (h_id (d_header self)))); [|discriminate]. injection G as G.
    destruct (C23_digest _ _ _ _ _ EO R3 G) as [ID SD]. rewrite ID in IH. apply IH; assumption.
  - discriminate.
  - discriminate.
Qed.
(* when it does not succeed the last transaction changed nothing *)
Theorem C27_failure_changes_nothing : forall E p c f n self s before after k o,
  modify E p c f n self s before after k o -> (forall rs, o <> Done rs) -> after = before.
Proof.
  intros E p c f n self s before after k o M. induction M; intros N; auto.
  match goal with A : apply_transaction _ _ _ _ = _ |- _ => apply apply_cases in A; destruct A as [(rs & ? & ? & ? & -> & _)|[-> _]] end;
    [destruct (N _ eq_refl)|reflexivity].
Qed.
(* the document changes between the read and the update: the first attempt
   conflicts, the second succeeds *)
Definition ex_append : nat -> bytes -> bytes := fun _ b => b ++ [77].
Example C27_ex : exists self s before after rs,
  reach ex_env s /\ r_sha (rev_of self) = ev_hash ex_env (d_contents self) /\
  modify ex_env everyone [1] ex_append 0 self s before after 1 (Done rs) /\
  doc_at after [1] [5] = Some (mk_doc (mk_header [5] (mk_rev 2 [9; 12; 77])) [12; 77]).
Proof.
  pose (s1 := fst (apply_transaction ex_env everyone ex_s1 [mk_op [1] (Update ex_h5 [12])])).
  exists (mk_doc ex_h5 [10; 11]), ex_s1, s1. eexists. eexists. split; [apply ex_reach1|]. split; [reflexivity|]. split.
  - apply (modify_retry ex_env everyone [1] ex_append 0 _ ex_s1 s1 s1 (Fail (DocumentConflict [1] (mk_header [5] (mk_rev 1 [9; 12])))) s1
             (mk_doc (mk_header [5] (mk_rev 1 [9; 12])) [12])).
    + eapply others_tx. apply others_none.
    + vm_compute. reflexivity.
    + reflexivity.
    + apply others_none.
    + vm_compute. reflexivity.
    + apply modify_end; [apply others_none|vm_compute; reflexivity|reflexivity].
  - vm_compute. reflexivity.
Qed.
Print Assumptions C27_modify_applies_to_latest.
Print Assumptions C27_failure_changes_nothing.
