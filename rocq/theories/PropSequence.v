(* C19, C106: a transaction does what its operations do one after the other, and the unique
   view an operation of it violates is violated in the state the operations before it make. *)
From Verif Require Import Base Key Tree View ViewProofs ViewMap Docs DocsProofs DocsSpec DocsMore DocsHist ViewTotal Query PropDocs PropViews ViewSync ViewSyncProofs Errors PropErrors.
From Coq Require Import Lia.
Local Open Scope N_scope.

(* equal but for the ids noted down for lazy views *)
Definition alike (E : env) (w1 w2 : work) : Prop :=
  (forall c, w_docs w1 c = w_docs w2 c) /\
  forall v, In v (ev_views E) ->
    (is_eager (vd_policy (vw_def v)) = true -> w_views w1 (vw_name v) = w_views w2 (vw_name v)) /\
    vs_entries (w_views w1 (vw_name v)) = vs_entries (w_views w2 (vw_name v)) /\ vs_docmap (w_views w1 (vw_name v)) = vs_docmap (w_views w2 (vw_name v)).
Lemma alike_refl E w : alike E w w.
Proof. split; [reflexivity|]. intros v _. auto. Qed.
Lemma alike_trans E a b c : alike E a b -> alike E b c -> alike E a c.
Proof.
  intros [A1 A2] [B1 B2]. split; [intros x; rewrite A1; apply B1|]. intros v I. destruct (A2 v I) as (P & Q & R), (B2 v I) as (P' & Q' & R').
  split; [intros X; rewrite P by exact X; apply P', X|]. split; congruence.
Qed.
Lemma alike_sym E a b : alike E a b -> alike E b a.
Proof. intros [A1 A2]. split; [intros x; symmetry; apply A1|]. intros v I. destruct (A2 v I) as (P & Q & R). split; [intros X; symmetry; apply P, X|]. auto. Qed.
Definition rel {A} (R : A -> A -> Prop) (a b : outcome A terr) : Prop :=
  match a, b with Done x, Done y => R x y | Fail e, Fail f => e = f | Panic, Panic => True | _, _ => False end.
Lemma alike_docs E w1 w2 c t : alike E w1 w2 -> alike E (set_docs w1 c t) (set_docs w2 c t).
Proof.
  intros [A B]. split; [|exact B]. intros d. cbn. unfold upd. destruct (bytes_eqb d c); [reflexivity|apply A].
Qed.
Lemma alike_view E w1 w2 n vs : alike E w1 w2 -> alike E (set_view w1 n vs) (set_view w2 n vs).
Proof.
  intros [A B]. split; [exact A|]. intros u I. cbn. unfold upd. destruct (bytes_eqb (vw_name u) n); [auto|apply B, I].
Qed.
Lemma update_eager_alike E c id : forall views w1 w2, incl views (ev_views E) -> alike E w1 w2 ->
  rel (alike E) (update_eager views c id w1) (update_eager views c id w2).
Proof.
  induction views as [|v r IH]; intros w1 w2 I A; cbn [update_eager]; [exact A|].
  destruct (bytes_eqb (vw_coll v) c) eqn:VC; cbn [andb].
  2: { apply IH; [intros x J; apply I; right; exact J|exact A]. }
  destruct (is_eager (vd_policy (vw_def v))) eqn:EA.
  2: { apply IH; [intros x J; apply I; right; exact J|exact A]. }
  destruct A as [A B]. destruct (B v (I v (or_introl eq_refl))) as (P & _). rewrite (A c), (P EA).
  destruct (map_request _ _ _ _ _) as [vs|x|]; [|reflexivity|exact Logic.I]. apply IH; [intros x J; apply I; right; exact J|]. apply alike_view. split; assumption.
Qed.
Definition with_res {A} (R : work -> work -> Prop) (a b : work * A) : Prop := R (fst a) (fst b) /\ snd a = snd b.
Lemma finish_alike E c id w1 w2 r : alike E w1 w2 -> rel (with_res (alike E)) (finish E c id w1 r) (finish E c id w2 r).
Proof.
  intros A. unfold finish. pose proof (update_eager_alike E c id (ev_views E) w1 w2 (incl_refl _) A) as U.
  destruct (update_eager _ c id w1), (update_eager _ c id w2); cbn in *; try contradiction; auto. split; auto.
Qed.
Lemma exec_alike E o w1 w2 : alike E w1 w2 -> rel (with_res (alike E)) (exec_op E w1 o) (exec_op E w2 o).
Proof.
  intros A. assert (D : forall c, w_docs w1 c = w_docs w2 c) by apply A. unfold exec_op. destruct o as [c [oid ct|h ct|id ct|h|id rv]]; cbn [op_cmd op_coll];
    unfold exec_insert, exec_update, exec_delete, exec_check; rewrite D.
  - destruct oid as [i|]; [|destruct (ev_pk E c) as [t|]; [destruct (next_id t _) as [i|x|]|]]; try reflexivity; try exact Logic.I;
      (destruct (t_get i (w_docs w2 c)); [reflexivity|apply finish_alike, alike_docs, A]).
  - destruct (t_get (h_id h) (w_docs w2 c)) as [old|]; [|reflexivity]. destruct (rev_eqb _ _); [|reflexivity].
    destruct (next_revision E _ ct) as [[r|]|x|]; [apply finish_alike, alike_docs, A|split; [exact A|reflexivity]|reflexivity|exact Logic.I].
  - destruct (t_get id (w_docs w2 c)) as [old|]; [|apply finish_alike, alike_docs, A].
    destruct (next_revision E _ ct) as [[r|]|x|]; [apply finish_alike, alike_docs, A|split; [exact A|reflexivity]|reflexivity|exact Logic.I].
  - destruct (t_get (h_id h) (w_docs w2 c)) as [old|]; [|reflexivity]. destruct (header_eqb _ _); [apply finish_alike, alike_docs, A|reflexivity].
  - destruct (t_get id (w_docs w2 c)) as [old|]; [|reflexivity]. destruct rv as [r|]; [destruct (rev_eqb _ _)|]; try reflexivity; split; auto.
Qed.

(* the operations alone, without the list of changes *)
Fixpoint exec_all (E : env) (ops : list operation) (w : work) : outcome (work * list opres) terr :=
  match ops with
  | [] => Done (w, [])
  | o :: r => match exec_op E w o with
              | Done (w1, x) => match exec_all E r w1 with Done (w2, xs) => Done (w2, x :: xs) | Fail e => Fail e | Panic => Panic end
              | Fail e => Fail e
              | Panic => Panic
              end
  end.
Lemma record_small ch r : N.of_nat (length (ch_colls ch)) < 65536 -> exists ch', record_result ch r = Done ch' /\ (length (ch_colls ch') <= Datatypes.S (length (ch_colls ch)))%nat.
Proof.
  intros L. destruct r as [|c h|c id]; cbn [record_result]; [exists ch; split; [reflexivity|lia]| |];
    (unfold record_change; destruct (index_of c (ch_colls ch) 0); [eexists; split; [reflexivity|cbn; lia]|];
     replace (N.of_nat (length (ch_colls ch)) <? 65536) with true by (symmetry; apply N.ltb_lt; exact L); eexists; split; [reflexivity|cbn; rewrite app_length; cbn; lia]).
Qed.
Lemma run_exec E : forall ops w ch rs, N.of_nat (length (ch_colls ch)) + N.of_nat (length ops) <= 65536 ->
  match exec_all E ops w with
  | Done (w', xs) => exists ch', run_ops E ops w ch rs = Done (w', ch', rs ++ xs)
  | Fail e => run_ops E ops w ch rs = Fail e
  | Panic => run_ops E ops w ch rs = Panic
  end.
Proof.
  induction ops as [|o r IH]; intros w ch rs L; cbn [exec_all run_ops]; [exists ch; rewrite app_nil_r; reflexivity|]. cbn [length] in L.
  destruct (exec_op E w o) as [[w1 x]|e|]; [|reflexivity|reflexivity]. destruct (record_small ch x) as (ch' & -> & L'); [lia|].
  specialize (IH w1 ch' (rs ++ [x])). destruct (exec_all E r w1) as [[w2 xs]|e|].
  - destruct IH as [ch2 IH]; [lia|]. exists ch2. rewrite IH, <- app_assoc. reflexivity.
  - apply IH. lia.
  - apply IH. lia.
Qed.
Lemma exec_all_app E a : forall b w, exec_all E (a ++ b) w =
  match exec_all E a w with
  | Done (w1, xs) => match exec_all E b w1 with Done (w2, ys) => Done (w2, xs ++ ys) | Fail e => Fail e | Panic => Panic end
  | Fail e => Fail e
  | Panic => Panic
  end.
Proof.
  induction a as [|o r IH]; intros b w; cbn [exec_all app]; [destruct (exec_all E b w) as [[]| |]; reflexivity|].
  destruct (exec_op E w o) as [[w1 x]|e|]; [|reflexivity|reflexivity]. rewrite IH. destruct (exec_all E r w1) as [[w2 xs]|e|]; [|reflexivity|reflexivity].
  destruct (exec_all E b w2) as [[]| |]; reflexivity.
Qed.
Lemma exec_all_alike E : forall ops w1 w2, alike E w1 w2 -> rel (with_res (alike E)) (exec_all E ops w1) (exec_all E ops w2).
Proof.
  induction ops as [|o r IH]; intros w1 w2 A; cbn [exec_all]; [split; [exact A|reflexivity]|].
  pose proof (exec_alike E o w1 w2 A) as X. destruct (exec_op E w1 o) as [[a x]|e|], (exec_op E w2 o) as [[b y]|f|]; cbn in X; try contradiction; try exact X.
  destruct X as [X Y]. cbn in X, Y. subst y. specialize (IH a b X). destruct (exec_all E r a) as [[a' xs]|e|], (exec_all E r b) as [[b' ys]|f|]; cbn in *; try contradiction; try exact IH.
  destruct IH as [I J]. cbn in *. split; [exact I|]. cbn. congruence.
Qed.
Lemma invalidate_alike E ch w w' : env_ok E -> invalidate E ch w = Done w' -> alike E w w'.
Proof.
  intros EO. unfold invalidate. revert w. induction (ch_docs ch) as [|d r IH]; intros w H; cbn [fold_left] in H; [injection H as <-; apply alike_refl|].
  cbn [inv_step] in H. destruct (change_coll ch d) as [c|].
  2: { exfalso. clear -H. induction r as [|x r IH]; cbn [fold_left] in H; [discriminate|exact (IH H)]. }
  eapply alike_trans; [|apply IH, H]. split; [intros x; rewrite inv_views_docs; reflexivity|]. intros v I. destruct (inv_views_spec (ev_views E) c (snd (fst d)) EO w) as [A _]. rewrite (A v I).
  unfold lazy_in. destruct (bytes_eqb (vw_coll v) c && negb (is_eager (vd_policy (vw_def v)))) eqn:L; [|auto].
  apply andb_true_iff in L. destruct L as [_ L]. split; [intros X; rewrite X in L; discriminate|]. auto.
Qed.
Lemma apply_exec E p s ops : forallb (op_allowed p) ops = true -> colls_defined E ops = true -> N.of_nat (length ops) <= 65536 ->
  match exec_all E ops (db_work s) with
  | Done (w, rs) => exists s' ch, apply_transaction E p s ops = (s', Done rs) /\ invalidate E ch w = Done (db_work s')
  | Fail e => apply_transaction E p s ops = (s, Fail e)
  | Panic => apply_transaction E p s ops = (s, Panic)
  end.
Proof.
  intros P C L. pose proof (run_exec E ops (db_work s) (mk_changes [] []) [] L) as R. rewrite apply_allowed by assumption.
  destruct (exec_all E ops (db_work s)) as [[w rs]|e|]; [|rewrite R; reflexivity|rewrite R; reflexivity].
  destruct R as [ch R]. cbn [app] in R. rewrite R. destruct (invalidate_total E ch (run_ops_wf _ _ _ _ _ _ R) w) as [w' X]. rewrite X. eexists. exists ch. split; [reflexivity|exact X].
Qed.
(* what anyone can see of the documents and the views' entries *)
Definition same_data (E : env) (s1 s2 : dbstate) : Prop :=
  (forall c id, doc_at s1 c id = doc_at s2 c id) /\
  forall q v k ascending limit, In v (ev_views E) -> query q s1 v k ascending limit = query q s2 v k ascending limit.
Lemma alike_data E s1 s2 : alike E (db_work s1) (db_work s2) -> same_data E s1 s2.
Proof.
  intros [A B]. split; [intros c id; unfold doc_at; rewrite A; reflexivity|]. intros q v k asc lim I. destruct (B v I) as (_ & X & _). unfold query, entries_of. rewrite X. reflexivity.
Qed.

(* C19 *)
(* after a first transaction, a second does exactly what it would have done at the end of the
   first: the same results or the same error, the same documents and views; only the work of the
   first stays when the second fails *)
Theorem C19_one_by_one : forall E p s ops1 ops2 s1 rs1, env_ok E -> N.of_nat (length ops1 + length ops2) <= 65536 ->
  apply_transaction E p s ops1 = (s1, Done rs1) ->
  match apply_transaction E p s1 ops2 with
  | (s2, Done rs2) => exists s', apply_transaction E p s (ops1 ++ ops2) = (s', Done (rs1 ++ rs2)) /\ same_data E s' s2
  | (_, Fail e) => apply_transaction E p s (ops1 ++ ops2) = (s, Fail e)
  | (_, Panic) => apply_transaction E p s (ops1 ++ ops2) = (s, Panic)
  end.
Proof.
  intros E p s a b s1 rs1 EO L H. apply run_of_apply in H as R. destruct R as (P1 & C1 & _).
  assert (L1 : N.of_nat (length a) <= 65536) by lia. pose proof (apply_exec E p s a P1 C1 L1) as X. destruct (exec_all E a (db_work s)) as [[w1 xs]|e|] eqn:XA; [|congruence|congruence].
  destruct X as (s1' & ch & X & IV). rewrite H in X. injection X as <- <-. pose proof (invalidate_alike _ _ _ _ EO IV) as AL.
  destruct (forallb (op_allowed p) b) eqn:P2.
  2: { unfold apply_transaction. rewrite forallb_app, P1, P2. reflexivity. }
  destruct (colls_defined E b) eqn:C2.
  2: { unfold apply_transaction, apply_to_roots, colls_defined in *. rewrite !forallb_app, P1, P2, C1, C2. reflexivity. }
  assert (P : forallb (op_allowed p) (a ++ b) = true) by (rewrite forallb_app, P1, P2; reflexivity).
  assert (C : colls_defined E (a ++ b) = true) by (unfold colls_defined in *; rewrite forallb_app, C1, C2; reflexivity).
  assert (L2 : N.of_nat (length b) <= 65536) by lia. assert (L3 : N.of_nat (length (a ++ b)) <= 65536) by (rewrite app_length; lia).
  pose proof (apply_exec E p s1 b P2 C2 L2) as Y. pose proof (apply_exec E p s (a ++ b) P C L3) as Z. rewrite exec_all_app, XA in Z.
  pose proof (exec_all_alike E b w1 (db_work s1) AL) as W.
  destruct (exec_all E b w1) as [[w2 ys]|e|], (exec_all E b (db_work s1)) as [[w3 zs]|f|]; cbn in W; try contradiction.
  - destruct W as [W WE]. cbn in W, WE. subst zs. destruct Y as (s2 & ch2 & -> & IV2), Z as (s' & ch3 & Z & IV3). exists s'. split; [exact Z|]. apply alike_data.
    eapply alike_trans; [apply alike_sym, (invalidate_alike _ _ _ _ EO IV3)|]. eapply alike_trans; [exact W|]. exact (invalidate_alike _ _ _ _ EO IV2).
  - subst f. rewrite Y. exact Z.
  - rewrite Y. exact Z.
Qed.

Example C19_one_by_one_ex : exists s1 s2,
  apply_transaction ex_env everyone ex_s1 [mk_op [1] (Delete ex_h5)] = (s1, Done [RDeleted [1] [5]]) /\
  apply_transaction ex_env everyone s1 [mk_op [1] (Insert None [30])] = (s2, Done [RUpdated [1] (mk_header [7] (mk_rev 0 [9; 30]))]) /\
  snd (apply_transaction ex_env everyone ex_s1 [mk_op [1] (Delete ex_h5); mk_op [1] (Insert None [30])]) =
    Done [RDeleted [1] [5]; RUpdated [1] (mk_header [7] (mk_rev 0 [9; 30]))] /\
  apply_transaction ex_env everyone s1 [mk_op [1] (Delete ex_h5)] = (s1, Fail (DocumentNotFound [1] [5])) /\
  apply_transaction ex_env everyone ex_s1 [mk_op [1] (Delete ex_h5); mk_op [1] (Delete ex_h5)] = (ex_s1, Fail (DocumentNotFound [1] [5])).
Proof. eexists. eexists. split; [vm_compute; reflexivity|]. split; [vm_compute; reflexivity|]. split; [vm_compute; reflexivity|]. split; vm_compute; reflexivity. Qed.

(* ================= C106 ================= *)
Lemma view_error_ran E p s ops s' x : apply_transaction E p s ops = (s', Fail (ViewError x)) ->
  s' = s /\ forallb (op_allowed p) ops = true /\ colls_defined E ops = true.
Proof.
  intros H. split; [|split].
  - apply apply_cases in H. destruct H as [(rs & ? & ? & ? & X & _)|[-> _]]; [discriminate X|reflexivity].
  - destruct (forallb (op_allowed p) ops) eqn:P; [reflexivity|]. unfold apply_transaction in H. rewrite P in H. discriminate.
  - destruct (colls_defined E ops) eqn:C; [reflexivity|]. unfold apply_transaction, apply_to_roots in H. destruct (forallb (op_allowed p) ops); [|discriminate].
    rewrite C in H. discriminate.
Qed.
(* a unique key violation anywhere in a transaction: the operations before the failing one, run as
   a transaction of their own, make the state in which that operation alone is refused with the
   same error, and there the violated view, the document saved and the one in the way are those
   of the error *)
Theorem C106_unique_any : forall E p s ops s' c x, env_ok E -> reach E s -> N.of_nat (length ops) <= 65536 ->
  (forall v, In v (ev_views E) -> honest_reduce v) -> (forall v id, In v (ev_views E) -> is_eager (vd_policy (vw_def v)) = true -> ~ pending s v id) ->
  apply_transaction E p s ops = (s', Fail (ViewError (UniqueKeyViolation c x))) ->
  s' = s /\ exists pre o post s1 rs v k d new v1 v2,
    ops = pre ++ o :: post /\ apply_transaction E p s pre = (s1, Done rs) /\
    apply_transaction E p s1 [o] = (s1, Fail (ViewError (UniqueKeyViolation c x))) /\
    In v (ev_views E) /\ vw_coll v = op_coll o /\ vd_policy (vw_def v) = Unique /\
    doc_at s1 (op_coll o) (h_id x) = Some d /\ d_header d = x /\ emits v d k v1 /\
    d_header new = c /\ emits v new k v2 /\ h_id c <> h_id x.
Proof.
  intros E p s ops s' c x EO R L HON NP A. destruct (view_error_ran _ _ _ _ _ _ A) as (-> & P & C). split; [reflexivity|].
  apply (C19_first_error E p s ops _ P C) in A. destruct A as (pre & o & post & s1 & rs & -> & B & F).
  assert (L2 : N.of_nat (length pre + length [o]) <= 65536) by (rewrite app_length in L; cbn [length] in *; lia).
  pose proof (C19_one_by_one E p s pre [o] s1 rs EO L2 B) as S. destruct (apply_transaction E p s1 [o]) as [s2 [rs2|e|]] eqn:O.
  - destruct S as (z & Z & _). congruence.
  - assert (EQ : e = ViewError (UniqueKeyViolation c x)) by congruence. subst e. destruct (view_error_ran _ _ _ _ _ _ O) as (-> & _).
    assert (R1 : reach E s1). { change s1 with (fst (s1, Done rs : outcome (list opres) terr)). rewrite <- B. apply reach_tx, R. }
    assert (N1 : forall v id, In v (ev_views E) -> is_eager (vd_policy (vw_def v)) = true -> ~ pending s1 v id).
    { intros v id I G Q. apply (apply_eager_pending _ _ _ _ _ _ v EO (reach_ok _ _ EO R) B I G) in Q. exact (NP v id I G Q). }
    destruct (C106_unique E p s1 o s1 c x EO R1 HON N1 O) as (v & k & d & new & v1 & v2 & _ & X).
    exists pre, o, post, s1, rs, v, k, d, new, v1, v2. split; [reflexivity|]. split; [exact B|]. split; [exact O|exact X].
  - congruence.
Qed.
(* the second operation collides with the document the first inserted *)
Example C106_unique_any_ex :
  apply_transaction ex_env everyone ex_s1 [mk_op [1] (Insert (Some [7]) [40; 41]); mk_op [1] (Insert (Some [8]) [40; 42])] =
    (ex_s1, Fail (ViewError (UniqueKeyViolation (mk_header [8] (mk_rev 0 [9; 40; 42])) (mk_header [7] (mk_rev 0 [9; 40; 41]))))).
Proof. vm_compute. reflexivity. Qed.

Print Assumptions C19_one_by_one.
Print Assumptions C106_unique_any.
