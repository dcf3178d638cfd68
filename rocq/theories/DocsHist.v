From Verif Require Import Base Key KeyPrefix DocId Tree View ViewProofs ViewMap Docs DocsProofs DocsSpec DocsMore.
Local Open Scope N_scope.

(* ---------- the work queued for lazy views ---------- *)
Definition pending (s : dbstate) (v : view) (id : bytes) : Prop := invalid (w_views (db_work s) (vw_name v)) id.
Lemma exec_lazy E w o w' r v : env_ok E -> (forall c, coll_ok E (w_docs w c)) -> exec_op E w o = Done (w', r) ->
  In v (ev_views E) -> vd_policy (vw_def v) = Lazy -> w_views w' (vw_name v) = w_views w (vw_name v).
Proof.
  intros EO OK X I L. pose proof (exec_op_effect _ _ _ _ _ OK X) as F.
  assert (CH : forall c id od, change_doc E w c id od w' -> w_views w' (vw_name v) = w_views w (vw_name v)).
  { intros c id od [_ U]. apply update_eager_spec in U; [|exact EO]. destruct U as (_ & _ & B). rewrite B; [reflexivity|].
    intros u J EU Y. rewrite (same_name E u v EO J I Y) in EU. unfold eager_in in EU. rewrite L in EU. cbn in EU.
    rewrite andb_false_r in EU. discriminate. }
  destruct F; eauto.
Qed.
Lemma steps_lazy E w ops w' rs v : env_ok E -> steps E w ops w' rs -> forall ex, work_ok E w ex ->
  In v (ev_views E) -> vd_policy (vw_def v) = Lazy -> w_views w' (vw_name v) = w_views w (vw_name v).
Proof.
  intros EO S. induction S as [w|w o w1 r ops w2 rs X S IH]; intros ex OK I L; [reflexivity|].
  rewrite (IH _ (exec_op_ok _ _ _ _ _ _ EO OK X) I L). eapply exec_lazy; try eassumption. apply OK.
Qed.
Lemma inv_lazy E ch v : env_ok E -> In v (ev_views E) -> vd_policy (vw_def v) = Lazy ->
  forall ds w w', fold_left (inv_step E ch) ds (Done w) = Done w' ->
  (forall id, invalid (w_views w' (vw_name v)) id <->
     invalid (w_views w (vw_name v)) id \/ exists del, In (vw_coll v, id, del) (iter_changes (ch_colls ch) ds)) /\
  vs_entries (w_views w' (vw_name v)) = vs_entries (w_views w (vw_name v)) /\
  vs_docmap (w_views w' (vw_name v)) = vs_docmap (w_views w (vw_name v)).
Proof.
  intros EO I L. induction ds as [|d r IH]; intros w w' H; cbn [fold_left inv_step] in H.
  - injection H as <-. split; [|auto]. intros id. cbn. split; [auto|]. intros [X|[y []]]; exact X.
  - destruct (change_coll ch d) as [c|] eqn:C.
    2: { exfalso. clear -H. induction r as [|x r IH]; cbn [fold_left] in H; [discriminate|exact (IH H)]. }
    destruct (IH _ _ H) as (A & B & D). destruct (inv_views_spec (ev_views E) c (snd (fst d)) EO w) as [V _].
    rewrite (V v I) in A, B, D. destruct d as [[ix id0] dl]. cbn [iter_changes fst snd] in *. unfold change_coll in C. cbn [fst] in C.
    rewrite C. unfold lazy_in in *. rewrite L in *. cbn [is_eager negb] in *. rewrite andb_true_r in *.
    destruct (bytes_eqb (vw_coll v) c) eqn:Q.
    + apply bytes_eqb_spec in Q. split; [|auto]. intros id. rewrite A. unfold invalid, add_invalid. cbn [vs_invalid].
      rewrite keys_set. split.
      * intros [[->|X]|[y X]]; [right; exists dl; left; congruence|auto|right; exists y; right; exact X].
      * intros [X|[y [X|X]]]; [auto|left; left; congruence|right; exists y; exact X].
    + apply bytes_eqb_neq in Q. split; [|auto]. intros id. rewrite A. split.
      * intros [X|[y X]]; [auto|right; exists y; right; exact X].
      * intros [X|[y [X|X]]]; [auto|congruence|right; exists y; exact X].
Qed.
Lemma apply_pending E p s ops s' rs v : env_ok E -> db_ok E s -> apply_transaction E p s ops = (s', Done rs) ->
  In v (ev_views E) -> vd_policy (vw_def v) = Lazy ->
  forall id, pending s' v id <-> pending s v id \/ exists del, In (vw_coll v, id, del) (flat_map res_change rs).
Proof.
  intros EO OK H I L id. apply apply_success in H. destruct H as (w & ch & S & W & C & IV & _).
  destruct (inv_lazy E ch v EO I L _ _ _ IV) as (A & _). unfold pending. rewrite A.
  rewrite (steps_lazy _ _ _ _ _ _ EO S _ OK I L). unfold changes_iter in C. rewrite C. reflexivity.
Qed.

(* ---------- prefixes of a transaction ---------- *)
Lemma run_ops_app E a : forall b w ch rs, run_ops E (a ++ b) w ch rs =
  match run_ops E a w ch rs with
  | Done (w', ch', rs') => run_ops E b w' ch' rs'
  | Fail e => Fail e
  | Panic => Panic
  end.
Proof.
  induction a as [|o a IH]; intros b w ch rs; cbn [app run_ops]; [reflexivity|].
  destruct (exec_op E w o) as [[w1 r]|e|]; [|reflexivity|reflexivity].
  destruct (record_result ch r); [apply IH|reflexivity|reflexivity].
Qed.
Lemma run_ops_wf E a w w' ch' rs' : run_ops E a w (mk_changes [] []) [] = Done (w', ch', rs') -> changes_wf ch'.
Proof. intros H. apply run_ops_spec in H; [|constructor]. destruct H as (new & _ & _ & W & _). exact W. Qed.
Lemma apply_allowed E p s ops : forallb (op_allowed p) ops = true -> colls_defined E ops = true ->
  apply_transaction E p s ops =
  match run_ops E ops (db_work s) (mk_changes [] []) [] with
  | Done (w, ch, rs) =>
      match invalidate E ch w with
      | Done w' => (mk_db w' (db_log s ++ [(next_tx (db_log s), Some ch)]), Done rs)
      | Fail e => (s, Fail e)
      | Panic => (s, Panic)
      end
  | Fail e => (s, Fail e)
  | Panic => (s, Panic)
  end.
Proof. intros P C. unfold apply_transaction, apply_to_roots. rewrite P, C. reflexivity. Qed.
Lemma apply_ran E p s ops w ch rs : forallb (op_allowed p) ops = true -> colls_defined E ops = true ->
  run_ops E ops (db_work s) (mk_changes [] []) [] = Done (w, ch, rs) -> exists s', apply_transaction E p s ops = (s', Done rs).
Proof.
  intros P C R. rewrite apply_allowed, R by assumption. destruct (invalidate_total E ch (run_ops_wf _ _ _ _ _ _ R) w) as [w' ->]. eauto.
Qed.
Lemma run_of_apply E p s ops s' rs : apply_transaction E p s ops = (s', Done rs) ->
  forallb (op_allowed p) ops = true /\ colls_defined E ops = true /\
  exists w ch, run_ops E ops (db_work s) (mk_changes [] []) [] = Done (w, ch, rs) /\ changes_wf ch /\ invalidate E ch w = Done (db_work s').
Proof.
  intros H. apply apply_cases in H. destruct H as [(rs' & w & ch & w' & X & P & C & R & I & ->)|[_ X]].
  - injection X as <-. split; [exact P|]. split; [exact C|]. exists w, ch. split; [exact R|]. split; [|exact I].
    eapply run_ops_wf, R.
  - exfalso. exact (X rs eq_refl).
Qed.
Lemma first_failing E ops : forall w ch rs e, run_ops E ops w ch rs = Fail e -> exists pre o post w1 ch1 rs1,
  ops = pre ++ o :: post /\ run_ops E pre w ch rs = Done (w1, ch1, rs1) /\ run_ops E [o] w1 ch1 rs1 = Fail e.
Proof.
  induction ops as [|o r IH]; intros w ch rs e H; [discriminate|].
  destruct (run_ops E [o] w ch rs) as [[[w1 ch1] rs1]|x|] eqn:O1.
  - change (o :: r) with ([o] ++ r) in H. rewrite run_ops_app, O1 in H.
    destruct (IH _ _ _ _ H) as (pre & o' & post & w2 & ch2 & rs2 & -> & A & B).
    exists (o :: pre), o', post, w2, ch2, rs2. split; [reflexivity|]. split; [|exact B].
    change (o :: pre) with ([o] ++ pre). rewrite run_ops_app, O1. exact A.
  - change (o :: r) with ([o] ++ r) in H. rewrite run_ops_app, O1 in H. injection H as <-.
    exists [], o, r, w, ch, rs. auto.
  - change (o :: r) with ([o] ++ r) in H. rewrite run_ops_app, O1 in H. discriminate.
Qed.
Lemma forallb_app_split {A} (f : A -> bool) a o b : forallb f (a ++ o :: b) = true ->
  forallb f a = true /\ forallb f (a ++ [o]) = true.
Proof. rewrite !forallb_app. cbn. rewrite !andb_true_iff. intuition. Qed.
Lemma first_error_iff E p s ops e : forallb (op_allowed p) ops = true -> colls_defined E ops = true ->
  (apply_transaction E p s ops = (s, Fail e) <->
   exists pre o post s1 rs, ops = pre ++ o :: post /\ apply_transaction E p s pre = (s1, Done rs) /\
     apply_transaction E p s (pre ++ [o]) = (s, Fail e)).
Proof.
  intros P C. split.
  - intros H. rewrite apply_allowed in H by assumption.
    destruct (run_ops E ops (db_work s) (mk_changes [] []) []) as [[[w ch] rs]|x|] eqn:R.
    + destruct (invalidate_total E ch (run_ops_wf _ _ _ _ _ _ R) w) as [w' Y]. rewrite Y in H. discriminate.
    + injection H as ->. destruct (first_failing _ _ _ _ _ _ R) as (pre & o & post & w1 & ch1 & rs1 & -> & A & B).
      destruct (forallb_app_split _ _ _ _ P) as [P1 P2]. destruct (forallb_app_split _ _ _ _ C) as [C1 C2].
      destruct (apply_ran _ _ _ _ _ _ _ P1 C1 A) as [s1 Y]. exists pre, o, post, s1, rs1.
      split; [reflexivity|]. split; [exact Y|]. rewrite apply_allowed, run_ops_app, A, B by assumption. reflexivity.
    + discriminate.
  - intros (pre & o & post & s1 & rs & -> & A & B).
    destruct (forallb_app_split _ _ _ _ P) as [P1 P2]. destruct (forallb_app_split _ _ _ _ C) as [C1 C2].
    apply run_of_apply in A. destruct A as (_ & _ & w & ch & R & W & _).
    rewrite apply_allowed, run_ops_app, R in B by assumption.
    change (pre ++ o :: post) with (pre ++ [o] ++ post) in *. rewrite apply_allowed, run_ops_app, R, run_ops_app by assumption.
    destruct (run_ops E [o] w ch rs) as [[[w1 ch1] rs1]|x|] eqn:O1; [|exact B|exact B].
    destruct (invalidate E ch1 w1) eqn:IV; try discriminate.
    assert (R1 : run_ops E (pre ++ [o]) (db_work s) (mk_changes [] []) [] = Done (w1, ch1, rs1)) by (rewrite run_ops_app, R; exact O1).
    destruct (invalidate_total E ch1 (run_ops_wf _ _ _ _ _ _ R1) w1) as [w' Y]. congruence.
Qed.
(* the state an operation of a transaction sees *)
Lemma apply_split E p s pre o post s' rs : env_ok E -> db_ok E s -> apply_transaction E p s (pre ++ o :: post) = (s', Done rs) ->
  exists s1 rs1 m r, apply_transaction E p s pre = (s1, Done rs1) /\ does (ev_hash E) (docs_of s1) (op_coll o) (op_cmd o) m r.
Proof.
  intros EO OK H. apply run_of_apply in H. destruct H as (P & C & w & ch & R & W & I).
  destruct (forallb_app_split _ _ _ _ P) as [P1 P2]. destruct (forallb_app_split _ _ _ _ C) as [C1 C2].
  rewrite run_ops_app in R. destruct (run_ops E pre (db_work s) (mk_changes [] []) []) as [[[w1 ch1] rs1]|x|] eqn:R1; try discriminate.
  destruct (apply_ran _ _ _ _ _ _ _ P1 C1 R1) as [s1 Y]. cbn [run_ops] in R.
  destruct (exec_op E w1 o) as [[w2 r]|x|] eqn:X; try discriminate.
  apply run_of_apply in Y as Z. destruct Z as (_ & _ & w1' & ch1' & R1' & W1' & I1). rewrite R1 in R1'. injection R1' as <- <-.
  apply run_ops_spec in R1 as SP; [|constructor]. destruct SP as (new & Q & S & _). cbn in Q. subst new.
  pose proof (steps_ok _ _ _ _ _ EO S _ OK) as OK1. destruct (exec_does _ _ _ _ _ EO (proj1 OK1) X) as (m & D & _).
  exists s1, rs1. apply invalidate_spec in I1; [|exact EO]. destruct I1 as [DD _].
  assert (M : w_map w1 = docs_of s1). { unfold w_map, docs_of, doc_at. rewrite DD. reflexivity. }
  exists m, r. split; [exact Y|]. rewrite <- M. exact D.
Qed.

(* ---------- the transaction log ---------- *)
Definition log_ok (log : list (N * option changes)) : Prop := forall e, In e log -> fst e < next_tx log.
Lemma next_tx_pos log : 1 <= next_tx log.
Proof. unfold next_tx. destruct (last (map fst log) 0); lia. Qed.
Lemma next_tx_snoc log n o : 1 <= n -> next_tx (log ++ [(n, o)]) = n + 1.
Proof. intros H. unfold next_tx. rewrite map_app. cbn [map fst]. rewrite last_last. destruct n; [lia|reflexivity]. Qed.
Lemma log_snoc log o : log_ok log -> log_ok (log ++ [(next_tx log, o)]).
Proof.
  intros L e I. pose proof (next_tx_pos log) as P. rewrite next_tx_snoc by exact P. apply in_app_or in I. destruct I as [I|[<-|[]]].
  - specialize (L e I). lia.
  - cbn. lia.
Qed.
Lemma reach_log E s : reach E s -> log_ok (db_log s).
Proof.
  induction 1 as [|s p ops R IH|s v sh ids R IH I P S|s v R IH I].
  - intros e [].
  - destruct (apply_transaction E p s ops) as [s' o] eqn:A. cbn [fst]. apply apply_cases in A.
    destruct A as [(rs & w & ch & w' & _ & _ & _ & _ & _ & ->)|[-> _]]; [|exact IH]. cbn. apply log_snoc, IH.
  - unfold mapper_step. destruct (map_chunk _ _ _ _ _); [|exact IH|exact IH]. cbn. apply log_snoc, IH.
  - cbn. apply log_snoc, IH.
Qed.
