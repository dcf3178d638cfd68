From Verif Require Import Base Key KeyPrefix DocId Tree View ViewProofs ViewMap Docs DocsProofs DocsSpec DocsMore DocsHist ViewSync.
Local Open Scope N_scope.

(* ---------- eager views: transactions never leave documents unmapped ---------- *)
Lemma exec_eager E w o w' r ex v : env_ok E -> work_ok E w ex -> exec_op E w o = Done (w', r) ->
  In v (ev_views E) -> is_eager (vd_policy (vw_def v)) = true ->
  vs_invalid (w_views w' (vw_name v)) = vs_invalid (w_views w (vw_name v)).
Proof.
  intros EO OK X I L. pose proof (exec_op_effect _ _ _ _ _ (proj1 OK) X) as F.
  assert (CH : forall c id od, change_doc E w c id od w' -> vs_invalid (w_views w' (vw_name v)) = vs_invalid (w_views w (vw_name v))).
  { intros c id od CD. destruct CD as [HD U]. apply update_eager_spec in U; [|exact EO]. destruct U as (D & A & B).
    destruct (eager_in c v) eqn:EV.
    - specialize (A v I EV). cbn [set_docs w_docs w_views] in A.
      apply map_request_spec in A; [| apply permutes_id| | |constructor].
      + destruct A as (_ & A & _). exact A.
      + apply (proj2 OK v I).
      + rewrite upd_same. destruct (proj1 OK c) as [[WF HI] _]. destruct od as [d|]; (split; [|intros i d0]).
        * apply wf_set, WF.
        * rewrite get_set. destruct (bytes_eqb i id) eqn:Q; [|apply HI]. intros Y. injection Y as <-. apply bytes_eqb_spec in Q. subst. apply HD. reflexivity.
        * apply wf_remove, WF.
        * rewrite get_remove. destruct (bytes_eqb i id); [discriminate|]. apply HI.
    - rewrite B; [destruct od; reflexivity|]. intros u J EU Y. rewrite (same_name E u v EO J I Y) in EU. congruence. }
  destruct F; eauto.
Qed.
Lemma steps_eager E w ops w' rs v : env_ok E -> steps E w ops w' rs -> forall ex, work_ok E w ex ->
  In v (ev_views E) -> is_eager (vd_policy (vw_def v)) = true -> vs_invalid (w_views w' (vw_name v)) = vs_invalid (w_views w (vw_name v)).
Proof.
  intros EO S. induction S as [w|w o w1 r ops w2 rs X S IH]; intros ex OK I L; [reflexivity|].
  rewrite (IH _ (exec_op_ok _ _ _ _ _ _ EO OK X) I L). eapply exec_eager; eassumption.
Qed.
Lemma inv_eager E ch v : env_ok E -> In v (ev_views E) -> is_eager (vd_policy (vw_def v)) = true ->
  forall ds w w', fold_left (inv_step E ch) ds (Done w) = Done w' -> w_views w' (vw_name v) = w_views w (vw_name v).
Proof.
  intros EO I L. induction ds as [|d r IH]; intros w w' H; cbn [fold_left inv_step] in H.
  - injection H as <-. reflexivity.
  - destruct (change_coll ch d) as [c|] eqn:C.
    2: { exfalso. clear -H. induction r as [|x r IH]; cbn [fold_left] in H; [discriminate|exact (IH H)]. }
    rewrite (IH _ _ H). destruct (inv_views_spec (ev_views E) c (snd (fst d)) EO w) as [V _]. rewrite (V v I).
    unfold lazy_in. rewrite L. rewrite andb_false_r. reflexivity.
Qed.
Lemma apply_eager_pending E p s ops s' o v : env_ok E -> db_ok E s -> apply_transaction E p s ops = (s', o) ->
  In v (ev_views E) -> is_eager (vd_policy (vw_def v)) = true -> forall id, pending s' v id <-> pending s v id.
Proof.
  intros EO OK H I L id. destruct o as [rs|e|].
  - apply apply_success in H. destruct H as (w & ch & S & W & C & IV & _).
    unfold pending, invalid. rewrite (inv_eager E ch v EO I L _ _ _ IV), (steps_eager _ _ _ _ _ _ EO S _ OK I L). reflexivity.
  - apply apply_cases in H. destruct H as [(rs & ? & ? & ? & X & _)|[-> _]]; [discriminate X|reflexivity].
  - apply apply_cases in H. destruct H as [(rs & ? & ? & ? & X & _)|[-> _]]; [discriminate X|reflexivity].
Qed.

(* ---------- waiting queries ---------- *)
Definition touched_after (log : list (N * option changes)) (t : N) (c id : bytes) : Prop :=
  exists t' ch del, In (t', Some ch) log /\ t < t' /\ In (c, id, del) (changes_iter ch).
Lemma touched_more log e t c id : touched_after log t c id -> touched_after (log ++ e) t c id.
Proof. intros (t' & ch & del & A & B). exists t', ch, del. split; [apply in_or_app; auto|exact B]. Qed.

Record sys_ok (E : env) (v : view) (y : sys) : Prop := {
  so_db : db_ok E (sy_db y);
  so_log : log_ok (db_log (sy_db y));
  so_status : forall t, sy_status y = Some t -> In t (sy_done y);
  so_done : forall t, In t (sy_done y) -> t < next_tx (db_log (sy_db y)) /\
              forall id, pending (sy_db y) v id -> touched_after (db_log (sy_db y)) t (vw_coll v) id;
  so_job : match sy_job y with
           | None => True
           | Some (JStarted t) => t < next_tx (db_log (sy_db y))
           | Some (JMapping t l) => t < next_tx (db_log (sy_db y)) /\ sorted l /\
               forall id, pending (sy_db y) v id -> In id l \/ touched_after (db_log (sy_db y)) t (vw_coll v) id
           end }.
Lemma next_tx_lt log x : next_tx log < next_tx (log ++ [(next_tx log, x)]).
Proof. rewrite next_tx_snoc by apply next_tx_pos. lia. Qed.

(* a step of the database that queues no document without logging it *)
Definition db_step (v : view) (s s' : dbstate) : Prop :=
  next_tx (db_log s) <= next_tx (db_log s') /\ (forall e, In e (db_log s) -> In e (db_log s')) /\
  forall id, pending s' v id -> pending s v id \/ forall t, t < next_tx (db_log s) -> touched_after (db_log s') t (vw_coll v) id.
Lemma db_step_ok E v y s' : db_step v (sy_db y) s' -> db_ok E s' -> log_ok (db_log s') -> sys_ok E v y ->
  sys_ok E v (mk_sys s' (sy_status y) (sy_job y) (sy_done y)).
Proof.
  intros (LE & SUB & PEND) OK LG [A B C D J]. assert (TM : forall t c id, touched_after (db_log (sy_db y)) t c id -> touched_after (db_log s') t c id).
  { intros t c id (t' & ch & del & X & Y). exists t', ch, del. split; [apply SUB, X|exact Y]. }
  constructor; cbn; auto.
  - intros t I. destruct (D t I) as [D1 D2]. split; [lia|]. intros id P. destruct (PEND id P) as [P'|P']; auto.
  - destruct (sy_job y) as [[t|t l]|]; [lia| |exact I]. destruct J as (J1 & J2 & J3). split; [lia|]. split; [exact J2|].
    intros id P. destruct (PEND id P) as [P'|P']; [|right; auto]. destruct (J3 id P'); auto.
Qed.
Lemma tx_db_step E v p s ops : env_ok E -> db_ok E s -> log_ok (db_log s) -> In v (ev_views E) ->
  let s' := fst (apply_transaction E p s ops) in db_step v s s' /\ db_ok E s' /\ log_ok (db_log s').
Proof.
  intros EO OK LG I s'. unfold s'. destruct (apply_transaction E p s ops) as [s1 o] eqn:A. cbn [fst].
  pose proof (apply_ok _ _ _ _ _ _ EO OK A) as OK1.
  assert (ID : s1 = s -> db_step v s s1 /\ db_ok E s1 /\ log_ok (db_log s1)).
  { intros ->. split; [|auto]. split; [lia|]. split; auto. }
  pose proof A as A0. apply apply_cases in A. destruct A as [(rs & w & ch & w' & -> & _ & _ & _ & _ & S1)|[S1 _]]; [|auto].
  assert (LG1 : db_log s1 = db_log s ++ [(next_tx (db_log s), Some ch)]) by (subst s1; reflexivity).
  split; [|split; [exact OK1|rewrite LG1; apply log_snoc, LG]].
  split; [rewrite LG1; pose proof (next_tx_lt (db_log s) (Some ch)); lia|].
  split; [intros e X; rewrite LG1; apply in_or_app; auto|].
  intros id P. destruct (vd_policy (vw_def v)) eqn:PO.
  - apply (apply_pending _ _ _ _ _ _ v EO OK A0 I PO) in P. destruct P as [P|(del & P)]; [auto|right].
    intros t LT. apply apply_success in A0. destruct A0 as (w1 & ch1 & _ & _ & C1 & _ & L1).
    rewrite L1 in LG1. apply app_inv_head in LG1. injection LG1 as ->. exists (next_tx (db_log s)), ch, del.
    split; [rewrite L1; apply in_or_app; right; left; reflexivity|]. split; [exact LT|]. rewrite C1. exact P.
  - left. apply (apply_eager_pending _ _ _ _ _ _ v EO OK A0 I) in P; [exact P|rewrite PO; reflexivity].
  - left. apply (apply_eager_pending _ _ _ _ _ _ v EO OK A0 I) in P; [exact P|rewrite PO; reflexivity].
Qed.
Lemma other_db_step E v u sh ids s : env_ok E -> db_ok E s -> log_ok (db_log s) -> In v (ev_views E) -> In u (ev_views E) -> u <> v ->
  permutes sh -> sorted ids ->
  let s' := mapper_step E u sh ids s in db_step v s s' /\ db_ok E s' /\ log_ok (db_log s').
Proof.
  intros EO OK LG I J N P S s'. pose proof (mapper_ok E u sh ids s EO OK J P S) as OK'. fold s' in OK'.
  assert (NN : vw_name v <> vw_name u) by (intros X; apply N; eapply same_name; eauto).
  unfold s', mapper_step in *. destruct (map_chunk _ _ _ _ _) as [vs|e|].
  - split; [|split; [exact OK'|cbn; apply log_snoc, LG]]. split; [cbn; pose proof (next_tx_lt (db_log s) None); lia|].
    split; [intros e X; cbn; apply in_or_app; auto|]. intros id PD. left. unfold pending in *. cbn in PD. rewrite upd_other in PD by exact NN. exact PD.
  - split; [|auto]. split; [lia|]. split; auto.
  - split; [|auto]. split; [lia|]. split; auto.
Qed.
Lemma last_tx_lt s t : last_tx s = Some t -> t < next_tx (db_log s).
Proof.
  unfold last_tx, next_tx. destruct (db_log s) as [|e l]; [discriminate|]. generalize (last (map fst (e :: l)) 0). intros n H.
  injection H as <-. destruct n; lia.
Qed.
Lemma step_sys_ok E v y z : env_ok E -> In v (ev_views E) -> step E v y z -> sys_ok E v y -> sys_ok E v z.
Proof.
  intros EO I ST OK. destruct ST as [y p ops|y u sh ids J N P S|y t JB LT|y t JB|y t l sh vs JB NE P n M|y j JB|y t JB].
  - destruct (tx_db_step E v p (sy_db y) ops EO (so_db _ _ _ OK) (so_log _ _ _ OK) I) as (A & B & C).
    apply db_step_ok; assumption.
  - destruct (other_db_step E v u sh ids (sy_db y) EO (so_db _ _ _ OK) (so_log _ _ _ OK) I J N P S) as (A & B & C).
    apply db_step_ok; assumption.
  - destruct OK as [A B C D _]. constructor; cbn; auto. apply last_tx_lt, LT.
  - destruct OK as [A B C D J]. rewrite JB in J. constructor; cbn; auto. split; [exact J|]. split.
    + apply (ok_wf_invalid (vw_def v)). apply (proj2 A v I).
    + intros id X. left. exact X.
  - destruct OK as [A B C D J]. rewrite JB in J. destruct J as (J1 & J2 & J3).
    assert (S1 : sorted (skipn n l)) by (apply sorted_skipn, J2).
    destruct (proj2 A v I) as [VO FR].
    destruct (map_chunk_spec _ _ _ _ _ _ P VO (proj1 (proj1 A (vw_coll v))) S1 M) as (OK' & IV & F & O).
    pose proof (mapper_ok E v sh (skipn n l) (sy_db y) EO A I P S1) as A'. unfold mapper_step in A'. rewrite M in A'.
    set (s' := mk_db (set_view (db_work (sy_db y)) (vw_name v) vs) (db_log (sy_db y) ++ [(next_tx (db_log (sy_db y)), None)])) in *.
    assert (PD : forall id, pending s' v id -> pending (sy_db y) v id /\ ~ In id (skipn n l)).
    { intros id X. unfold pending, s' in X. cbn in X. rewrite upd_same in X. apply IV. exact X. }
    pose proof (next_tx_lt (db_log (sy_db y)) None) as LT.
    constructor; cbn; auto.
    + apply log_snoc, B.
    + intros t' X. destruct (D t' X) as [D1 D2]. split; [lia|]. intros id PX. apply touched_more, D2, PD, PX.
    + split; [lia|]. split; [apply sorted_firstn, J2|]. intros id PX. destruct (PD id PX) as [P1 P2].
      destruct (J3 id P1) as [Q|Q]; [left|right; apply touched_more, Q].
      rewrite <- (firstn_skipn n l) in Q. apply in_app_or in Q. destruct Q as [Q|Q]; [exact Q|contradiction].
  - destruct OK as [A B C D J]. constructor; cbn; auto.
  - destruct OK as [A B C D J]. rewrite JB in J. destruct J as (J1 & J2 & J3). constructor; cbn; auto.
    + intros t' X. injection X as <-. auto.
    + intros t' [<-|X]; [|auto]. split; [exact J1|]. intros id P. destruct (J3 id P) as [[]|Q]. exact Q.
Qed.
Lemma steps_sys_ok E v y z : env_ok E -> In v (ev_views E) -> steps_to E v y z -> sys_ok E v y -> sys_ok E v z.
Proof. intros EO I S. induction S; auto. intros OK. apply IHS. eapply step_sys_ok; eassumption. Qed.
Lemma start_sys_ok E v s : env_ok E -> reach E s -> sys_ok E v (sys_start s).
Proof.
  intros EO R. constructor; cbn.
  - apply reach_ok; assumption.
  - eapply reach_log, R.
  - discriminate.
  - intros t [].
  - exact I.
Qed.
Lemma step_done E v y z : step E v y z -> forall t, In t (sy_done y) -> In t (sy_done z).
Proof. destruct 1; cbn; auto. Qed.
Lemma steps_done E v y z : steps_to E v y z -> forall t, In t (sy_done y) -> In t (sy_done z).
Proof. induction 1; eauto using step_done. Qed.
Lemma steps_trans E v a b c : steps_to E v a b -> steps_to E v b c -> steps_to E v a c.
Proof. induction 1; auto. intros X. econstructor; eauto. Qed.
