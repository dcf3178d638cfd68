(* C95: transactions that overlap in time. *)
From Verif Require Import Base Key KeyPrefix DocId Tree View ViewMap Docs DocsProofs DocsSpec PropDocs ConcTx ConcTxSpec ConcTxProofs.
Local Open Scope N_scope.

(* For every interleaving there is one order of the transactions such that executing
   them one after the other in it gives every caller the result it got, leaves the
   same log, respects real time, and explains everything a reader of one tree sees:
   a tree has the contents it has after some prefix of the order, or after the order
   and one transaction whose commit is under way. *)
Theorem C95_serializable : forall E s0 tr s, crun E (cs_start s0) tr = Some s ->
  exists order final,
    serial E s0 order final /\
    NoDup (ids_of order) /\
    (forall r, In r (c_fin s) -> In r order) /\
    (forall i, In i (ids_of order) -> In i (ids_of (c_fin s)) \/ In i (map fst (c_run s))) /\
    (forall i j, over_before tr i j -> precedes order i j) /\
    c_log s = db_log final /\
    (c_run s = [] -> same_work (c_pub s) (db_work final)) /\
    (forall t, exists o d, serial E s0 o d /\ same_tree t (c_pub s) (db_work d) /\
       ((exists rest, order = o ++ rest) \/
        exists i x rs, In (i, x) (c_run s) /\ o = order ++ [(i, x_job x, Done rs)])).
Proof.
  intros E s0 tr s H. destruct (reached E s0 tr s H) as (o & D & V & F & P). exists o, D.
  repeat match goal with |- _ /\ _ => split end.
  - apply V.
  - apply V.
  - apply V.
  - intros i I. destruct (i_known _ _ _ _ _ V i I); auto.
  - exact P.
  - apply V.
  - intros X t. apply (i_free _ _ _ _ _ V). rewrite X. intros i x [].
  - intros t.
    assert (Q : (forall i x, In (i, x) (c_run s) -> ~ In t (x_locks x)) \/ exists i x, In (i, x) (c_run s) /\ In t (x_locks x)).
    { destruct (locked s t) eqn:L.
      - right. unfold locked in L. apply existsb_exists in L. destruct L as ([i x] & I & K). apply tmem_spec in K. eauto.
      - left. intros i x I K. unfold locked in L. assert (X : existsb (fun p => tmem t (x_locks (snd p))) (c_run s) = true); [|congruence].
        apply existsb_exists. exists (i, x). split; [exact I|apply tmem_spec, K]. }
    assert (ND : same_tree t (c_pub s) (db_work D) -> exists o0 d, serial E s0 o0 d /\ same_tree t (c_pub s) (db_work d) /\
       ((exists rest, o = o0 ++ rest) \/ exists i x rs, In (i, x) (c_run s) /\ o0 = o ++ [(i, x_job x, Done rs)])).
    { intros K. exists o, D. split; [apply V|]. split; [exact K|]. left. exists []. rewrite app_nil_r. reflexivity. }
    destruct Q as [Q|(i & x & I & T)]; [apply ND, (i_free _ _ _ _ _ V), Q|].
    assert (X := i_txn _ _ _ _ _ V i x I). unfold txn_inv in X. destruct (x_phase x) as [rest ch rs| |d todo lg rs|r] eqn:PH.
    + apply ND. apply X. exact T.
    + apply ND. apply X. exact T.
    + destruct (tmem t todo) eqn:TM; destruct lg.
      * apply tmem_spec in TM. destruct X as (_ & _ & _ & _ & o1 & o2 & D1 & EO & SO & K). exists o1, D1. split; [exact SO|].
        split; [apply K, TM|]. left. exists ((i, x_job x, Done rs) :: o2). exact EO.
      * apply tmem_spec in TM. destruct X as (_ & _ & _ & _ & K & _). apply ND, K; assumption.
      * assert (NT : ~ In t todo) by (intros K; apply tmem_spec in K; congruence).
        destruct X as (_ & _ & A & K & _). apply ND. eapply same_trans; [apply K; assumption|apply same_sym, A, T].
      * assert (NT : ~ In t todo) by (intros K; apply tmem_spec in K; congruence).
        destruct X as (HF & _ & _ & EF & _ & K). assert (AE := alone_effect E D (x_job x)).
        destruct (effect E (x_job x) (db_work D)) as [[[w1 d1] rs1]|f|]; cbn in EF; try contradiction. destruct EF as (A & -> & ->).
        exists (o ++ [(i, x_job x, Done rs)]), (mk_db w1 (db_log D ++ [(next_tx (db_log D), d)])). split.
        -- assert (SE := serial_snoc E s0 o D i (x_job x) (i_serial _ _ _ _ _ V)). rewrite AE in SE. exact SE.
        -- split; [|right; exists i, x, rs; auto]. cbn [db_work]. eapply same_trans; [apply K; assumption|apply same_sym, A, T].
    + apply ND. apply X. exact T.
Qed.

(* a transaction that is over and did not succeed left no trace: in any order that
   explains a run, it can be left out *)
Theorem C95_failed_leaves_nothing : forall E s0 o1 i j r o2 final,
  (forall rs, r <> Done rs) -> serial E s0 (o1 ++ (i, j, r) :: o2) final -> serial E s0 (o1 ++ o2) final.
Proof.
  intros E s0 o1 i j r o2 final NR H. apply serial_app in H. destruct H as (m & H1 & H2). apply serial_app. exists m. split; [exact H1|].
  cbn [serial] in H2. destruct H2 as [H2 H3]. rewrite alone_effect in H2, H3.
  destruct (effect E j (db_work m)) as [[[w d] rs]|e|]; cbn in *; [exfalso; eapply NR; symmetry; exact H2|exact H3|exact H3].
Qed.

(* when nothing is under way, the database is in a state that transactions executed
   one after the other reach, so that C19-C34 hold of it *)
Definition mapper_ok (E : env) (e : event) : Prop :=
  match e with Begin _ (JMap v sh ids) => In v (ev_views E) /\ permutes sh /\ sorted ids | _ => True end.
Definition job_ok (E : env) (j : job) : Prop :=
  match j with JMap v sh ids => In v (ev_views E) /\ permutes sh /\ sorted ids | _ => True end.
Lemma apply_everyone E s ops : apply_transaction E everyone s ops = apply_to_roots E s ops.
Proof.
  unfold apply_transaction. replace (forallb (op_allowed everyone) ops) with true; [reflexivity|].
  symmetry. apply forallb_forall. intros [c []] _; reflexivity.
Qed.
Lemma serial_reach E : forall o s s', reach E s -> (forall i j r, In (i, j, r) o -> job_ok E j) -> serial E s o s' -> reach E s'.
Proof.
  induction o as [|[[i j] r] o IH]; intros s s' R J H; cbn [serial] in H; [subst; exact R|]. destruct H as [_ H].
  refine (IH _ _ _ _ H); [|intros i1 j1 r1 I; apply (J i1 j1 r1); right; exact I].
  specialize (J i j r (or_introl eq_refl)). destruct j as [ops|v sh ids]; cbn [alone fst].
  - rewrite <- apply_everyone. apply reach_tx, R.
  - cbn in J. apply reach_map; tauto.
Qed.
(* every job in the system was begun *)
Lemma jobs_begun E s0 tr : forall s, crun E (cs_start s0) tr = Some s ->
  (forall i x, In (i, x) (c_run s) -> In (Begin i (x_job x)) tr) /\ (forall i j r, In (i, j, r) (c_fin s) -> In (Begin i j) tr).
Proof.
  induction tr as [|e tr IH] using rev_ind; intros s H.
  - cbn in H. inversion H; subst. split; intros; contradiction.
  - rewrite crun_app in H. destruct (crun E (cs_start s0) tr) as [m|]; [|discriminate]. cbn [crun] in H.
    destruct (cstep E m e) as [m'|] eqn:ST; [|discriminate]. inversion H; subst m'. clear H.
    destruct (IH m eq_refl) as [R F].
    assert (L : forall b, In b tr -> In b (tr ++ [e])) by (intros b I; apply in_or_app; left; exact I).
    assert (PU : forall i x x', get_txn i (c_run m) = Some x -> x_job x' = x_job x ->
               forall j y, In (j, y) (put_txn i x' (c_run m)) -> In (Begin j (x_job y)) (tr ++ [e])).
    { intros i x x' G EJ j y I. apply put_In in I. destruct I as [[-> ->]|[_ I]]; [rewrite EJ; apply L, R, get_txn_In, G|apply L, R, I]. }
    destruct e as [i j|i|i t|i|i]; cbn [cstep] in ST.
    + destruct (known_id m i); [discriminate|].
      assert (K : forall y, x_job y = j -> forall k z, In (k, z) (c_run m ++ [(i, y)]) -> In (Begin k (x_job z)) (tr ++ [Begin i j])).
      { intros y EY k z I. apply in_app_or in I. destruct I as [I|[I|[]]]; [apply L, R, I|]. inversion I; subst. apply in_or_app. right. left. reflexivity. }
      destruct (job_defined E j); [destruct (existsb _ _); [discriminate|]|]; inversion ST; subst; cbn [c_run c_fin]; (split; [apply K; reflexivity|intros k j' r I; apply L, (F _ _ _ I)]).
    + destruct (get_txn _ _) as [x|] eqn:G; [|discriminate]. destruct (work_step _ _) as [x'|] eqn:W; [|discriminate]. inversion ST; subst; cbn [c_run c_fin].
      split; [|intros k j' r I; apply L, (F _ _ _ I)]. refine (PU _ x _ G _). unfold work_step in W.
      destruct (x_phase x) as [[|o r] ch rs| |d todo lg rs|r]; try discriminate.
      * destruct (invalidate _ _ _); inversion W; reflexivity.
      * destruct (exec_op _ _ _) as [[w res]|e1|]; [destruct (record_result _ _)|inversion W|inversion W]; inversion W; reflexivity.
      * destruct (x_job x) eqn:EJ; [discriminate|]. destruct (map_chunk _ _ _ _ _); inversion W; reflexivity.
    + destruct (get_txn _ _) as [x|] eqn:G; [|discriminate]. destruct (x_phase x); try discriminate. destruct (tmem _ _); [|discriminate].
      inversion ST; subst; cbn [c_run c_fin]. split; [|intros k j' r I; apply L, (F _ _ _ I)]. refine (PU _ x _ G _). reflexivity.
    + destruct (get_txn _ _) as [x|] eqn:G; [|discriminate]. destruct (x_phase x) as [| |d todo lg rs|]; try discriminate. destruct lg; [discriminate|].
      inversion ST; subst; cbn [c_run c_fin]. split; [|intros k j' r I; apply L, (F _ _ _ I)]. refine (PU _ x _ G _). reflexivity.
    + destruct (get_txn _ _) as [x|] eqn:G; [|discriminate].
      assert (K : forall r k j' z, In (k, j', z) (c_fin m ++ [(i, x_job x, r)]) -> In (Begin k j') (tr ++ [End_ i])).
      { intros r k j' z I. apply in_app_or in I. destruct I as [I|[I|[]]]; [apply L, (F _ _ _ I)|]. inversion I; subst. apply L, R, get_txn_In, G. }
      destruct (x_phase x) as [| |d [|] [|] rs|r]; try discriminate; inversion ST; subst; cbn [c_run c_fin];
        (split; [intros k y I; apply drop_In in I; apply L, R; tauto|apply K]).
Qed.
Lemma in_fin_id (l : list (N * job * outcome (list opres) terr)) i : In i (ids_of l) -> exists j r, In (i, j, r) l.
Proof. intros I. apply in_map_iff in I. destruct I as ([[k j] r] & <- & I). exists j, r. exact I. Qed.

Theorem C95_at_rest : forall E s0 tr s, reach E s0 -> Forall (mapper_ok E) tr ->
  crun E (cs_start s0) tr = Some s -> c_run s = [] ->
  exists order final, reach E final /\ serial E s0 order final /\ Permutation.Permutation (c_fin s) order /\
    same_work (c_pub s) (db_work final) /\ c_log s = db_log final.
Proof.
  intros E s0 tr s R M H Q. destruct (reached E s0 tr s H) as (o & D & V & F & P).
  assert (FO : forall r, In r o -> In r (c_fin s)).
  { intros r I. assert (II : In (id_of r) (ids_of o)) by (apply in_map, I).
    destruct (i_known _ _ _ _ _ V _ II) as [K|K]; [rewrite Q in K; destruct K|].
    apply in_map_iff in K. destruct K as (r' & EI & K). replace r with r'; [exact K|].
    assert (K' := i_fin _ _ _ _ _ V _ K). assert (N1 := i_order _ _ _ _ _ V).
    clear - I K' EI N1. induction o as [|z o IH]; [destruct I|]. unfold ids_of in N1. cbn [map] in N1. inversion_clear N1 as [|? ? N2 N3].
    destruct I as [->|I], K' as [->|K']; auto.
    - exfalso. apply N2. rewrite <- EI. apply in_map, K'.
    - exfalso. apply N2. rewrite EI. apply in_map, I. }
  exists o, D. repeat match goal with |- _ /\ _ => split end.
  - refine (serial_reach E o s0 D R _ (i_serial _ _ _ _ _ V)). intros i j r I. apply FO in I.
    apply (proj2 (jobs_begun E s0 tr s H)) in I. rewrite Forall_forall in M. apply M in I. destruct j; [exact Logic.I|exact I].
  - apply V.
  - apply Permutation.NoDup_Permutation.
    + assert (ND : NoDup (ids_of (c_fin s))); [|apply NoDup_map_inv in ND; exact ND].
      clear - H. revert s H. induction tr as [|e tr IH] using rev_ind; intros s H.
      * cbn in H. inversion H. constructor.
      * destruct (reached E s0 (tr ++ [e]) s H) as (o' & D' & V' & _).
        rewrite crun_app in H. destruct (crun E (cs_start s0) tr) as [m|] eqn:RM; [|discriminate]. cbn [crun] in H.
        destruct (cstep E m e) as [m'|] eqn:ST; [|discriminate]. inversion H; subst m'. clear H. specialize (IH m eq_refl).
        destruct (reached E s0 tr m RM) as (o1 & D1 & V1 & _).
        destruct e as [i j|i|i t|i|i]; cbn [cstep] in ST.
        -- destruct (known_id m i); [discriminate|]. destruct (job_defined E j); [destruct (existsb _ _); [discriminate|]|]; inversion ST; subst; exact IH.
        -- destruct (get_txn _ _); [|discriminate]. destruct (work_step _ _); [|discriminate]. inversion ST; subst; exact IH.
        -- destruct (get_txn _ _) as [x|]; [|discriminate]. destruct (x_phase x); try discriminate. destruct (tmem _ _); [|discriminate]. inversion ST; subst; exact IH.
        -- destruct (get_txn _ _) as [x|]; [|discriminate]. destruct (x_phase x) as [| |d todo lg rs|]; try discriminate. destruct lg; [discriminate|]. inversion ST; subst; exact IH.
        -- destruct (get_txn _ _) as [x|] eqn:G; [|discriminate].
           assert (K : forall r, NoDup (ids_of (c_fin m ++ [(i, x_job x, r)]))).
           { intros r. unfold ids_of. rewrite map_app. apply NoDup_snoc_N; [exact IH|].
             apply (i_disj _ _ _ _ _ V1). apply in_map_iff. exists (i, x). split; [reflexivity|apply get_txn_In, G]. }
           destruct (x_phase x) as [| |d [|] [|] rs|r]; try discriminate; inversion ST; subst; apply K.
    + assert (N1 := i_order _ _ _ _ _ V). apply NoDup_map_inv in N1. exact N1.
    + intros r. split; [apply (i_fin _ _ _ _ _ V)|apply FO].
  - intros t. apply (i_free _ _ _ _ _ V). rewrite Q. intros i x [].
  - apply V.
Qed.

(* once its trees are locked no transaction waits for another one: it can be carried
   through whatever the others do (or do not) *)
Lemma filter_le {A} (f : A -> bool) l : (length (filter f l) <= length l)%nat.
Proof. induction l as [|a l IH]; cbn; [lia|]. destruct (f a); cbn; lia. Qed.
Definition own (i : N) (e : event) : Prop :=
  match e with Step k => k = i | Publish k _ => k = i | Log k => k = i | End_ k => k = i | Begin _ _ => False end.
Theorem C95_never_stuck : forall E s0 tr s i x, crun E (cs_start s0) tr = Some s -> In (i, x) (c_run s) ->
  exists evs s', Forall (own i) evs /\ crun E s evs = Some s' /\ exists r, In (i, x_job x, r) (c_fin s').
Proof.
  intros E s0 tr s i x H I.
  assert (PM : x_phase x = PMap -> exists v sh ids, x_job x = JMap v sh ids).
  { intros K. destruct (reached E s0 tr s H) as (o & D & V & _). assert (T := i_txn _ _ _ _ _ V i x I). unfold txn_inv in T. rewrite K in T. tauto. }
  assert (G : get_txn i (c_run s) = Some x).
  { destruct (reached E s0 tr s H) as (o & D & V & _). apply In_get_txn; [apply V|exact I]. }
  clear H I s0 tr.
  assert (FI : forall s x r, get_txn i (c_run s) = Some x -> x_phase x = PFailed r ->
            exists evs s', Forall (own i) evs /\ crun E s evs = Some s' /\ exists r, In (i, x_job x, r) (c_fin s')).
  { intros s1 x1 r G1 PH. exists [End_ i]. eexists. split; [constructor; [reflexivity|constructor]|]. cbn [crun cstep]. rewrite G1, PH.
    split; [reflexivity|]. exists r. cbn. apply in_or_app. right. left. reflexivity. }
  assert (LG : forall s x d rs lg, get_txn i (c_run s) = Some x -> x_phase x = PReady d [] lg rs ->
            exists evs s', Forall (own i) evs /\ crun E s evs = Some s' /\ exists r, In (i, x_job x, r) (c_fin s')).
  { assert (LT : forall s x d rs, get_txn i (c_run s) = Some x -> x_phase x = PReady d [] true rs ->
            exists evs s', Forall (own i) evs /\ crun E s evs = Some s' /\ exists r, In (i, x_job x, r) (c_fin s')).
    { intros s1 x1 d rs G1 PH. exists [End_ i]. eexists. split; [constructor; [reflexivity|constructor]|]. cbn [crun cstep]. rewrite G1, PH.
      split; [reflexivity|]. exists (Done rs). cbn. apply in_or_app. right. left. reflexivity. }
    intros s1 x1 d rs [|] G1 PH; [eapply LT; eassumption|].
    set (x2 := mk_txn (x_job x1) (x_locks x1) (x_work x1) (PReady d [] true rs)).
    set (s2 := mk_cs (c_pub s1) (c_log s1 ++ [(next_tx (c_log s1), d)]) (put_txn i x2 (c_run s1)) (c_fin s1)).
    destruct (LT s2 x2 d rs) as (evs & s' & F & R & K); [cbn; apply put_get, in_map_iff; exists (i, x1); split; [reflexivity|apply get_txn_In, G1]|reflexivity|].
    exists (Log i :: evs), s'. split; [constructor; [reflexivity|exact F]|]. split; [|exact K]. cbn [crun cstep]. rewrite G1, PH. exact R. }
  assert (RD : forall n s x d todo rs lg, (length todo <= n)%nat -> get_txn i (c_run s) = Some x -> x_phase x = PReady d todo lg rs ->
            exists evs s', Forall (own i) evs /\ crun E s evs = Some s' /\ exists r, In (i, x_job x, r) (c_fin s')).
  { induction n as [|n IH]; intros s1 x1 d todo rs lg LE G1 PH.
    - destruct todo; [|cbn in LE; lia]. eapply LG; eassumption.
    - destruct todo as [|t todo]; [eapply LG; eassumption|].
      set (todo' := filter (fun u => negb (tname_eqb t u)) (t :: todo)).
      set (x2 := mk_txn (x_job x1) (x_locks x1) (x_work x1) (PReady d todo' lg rs)).
      set (s2 := mk_cs (copy_tree t (x_work x1) (c_pub s1)) (c_log s1) (put_txn i x2 (c_run s1)) (c_fin s1)).
      destruct (IH s2 x2 d todo' rs lg) as (evs & s' & F & R & K).
      + unfold todo'. cbn [filter]. rewrite tname_eqb_refl. cbn [negb]. assert (X := filter_le (fun u => negb (tname_eqb t u)) todo). cbn in LE. lia.
      + cbn. apply put_get, in_map_iff. exists (i, x1). split; [reflexivity|apply get_txn_In, G1].
      + reflexivity.
      + exists (Publish i t :: evs), s'. split; [constructor; [reflexivity|exact F]|]. split; [|exact K]. cbn [crun cstep]. rewrite G1, PH.
        replace (tmem t (t :: todo)) with true; [exact R|]. symmetry. apply tmem_spec. left. reflexivity. }
  assert (STEP : forall s x x', get_txn i (c_run s) = Some x -> work_step E x = Some x' -> x_job x' = x_job x ->
     (forall s2, get_txn i (c_run s2) = Some x' -> exists evs s', Forall (own i) evs /\ crun E s2 evs = Some s' /\ exists r, In (i, x_job x', r) (c_fin s')) ->
     exists evs s', Forall (own i) evs /\ crun E s evs = Some s' /\ exists r, In (i, x_job x, r) (c_fin s')).
  { intros s1 x1 x2 G1 W EJ K. set (s2 := mk_cs (c_pub s1) (c_log s1) (put_txn i x2 (c_run s1)) (c_fin s1)).
    destruct (K s2) as (evs & s' & F & R & L); [cbn; apply put_get, in_map_iff; exists (i, x1); split; [reflexivity|apply get_txn_In, G1]|].
    exists (Step i :: evs), s'. split; [constructor; [reflexivity|exact F]|]. split; [cbn [crun cstep]; rewrite G1, W; exact R|]. rewrite <- EJ. exact L. }
  destruct x as [jb lk w ph]. cbn [x_phase x_job] in *. destruct ph as [rest ch rs| |d todo lg rs|r].
  - clear PM. revert w ch rs s G. induction rest as [|o rest IH]; intros w ch rs s G.
    + destruct (invalidate E ch w) as [w2|e|] eqn:IV.
      * eapply (STEP s _ (mk_txn jb lk w2 (PReady (Some ch) lk false rs)) G); [unfold work_step; cbn; rewrite IV; reflexivity|reflexivity|].
        intros s2 G2. eapply RD; [apply le_n|exact G2|reflexivity].
      * eapply (STEP s _ (mk_txn jb lk w (PFailed (Fail e))) G); [unfold work_step; cbn; rewrite IV; reflexivity|reflexivity|].
        intros s2 G2. eapply FI; [exact G2|reflexivity].
      * eapply (STEP s _ (mk_txn jb lk w (PFailed Panic)) G); [unfold work_step; cbn; rewrite IV; reflexivity|reflexivity|].
        intros s2 G2. eapply FI; [exact G2|reflexivity].
    + destruct (exec_op E w o) as [[w2 res]|e|] eqn:X; [destruct (record_result ch res) as [ch2|e|] eqn:Y| |].
      * eapply (STEP s _ (mk_txn jb lk w2 (PRun rest ch2 (rs ++ [res]))) G); [unfold work_step; cbn [x_phase x_work x_job x_locks]; rewrite X, Y; reflexivity|reflexivity|].
        intros s2 G2. apply (IH _ _ _ _ G2).
      * eapply (STEP s _ (mk_txn jb lk w (PFailed (Fail e))) G); [unfold work_step; cbn [x_phase x_work x_job x_locks]; rewrite X, Y; reflexivity|reflexivity|].
        intros s2 G2. eapply FI; [exact G2|reflexivity].
      * eapply (STEP s _ (mk_txn jb lk w (PFailed Panic)) G); [unfold work_step; cbn [x_phase x_work x_job x_locks]; rewrite X, Y; reflexivity|reflexivity|].
        intros s2 G2. eapply FI; [exact G2|reflexivity].
      * eapply (STEP s _ (mk_txn jb lk w (PFailed (Fail e))) G); [unfold work_step; cbn [x_phase x_work x_job x_locks]; rewrite X; reflexivity|reflexivity|].
        intros s2 G2. eapply FI; [exact G2|reflexivity].
      * eapply (STEP s _ (mk_txn jb lk w (PFailed Panic)) G); [unfold work_step; cbn [x_phase x_work x_job x_locks]; rewrite X; reflexivity|reflexivity|].
        intros s2 G2. eapply FI; [exact G2|reflexivity].
  - destruct (PM eq_refl) as (v & sh & ids & ->).
    destruct (map_chunk sh (vw_def v) (w_docs w (vw_coll v)) ids (w_views w (vw_name v))) as [vs|e|] eqn:X.
    + eapply (STEP s _ (mk_txn (JMap v sh ids) lk (set_view w (vw_name v) vs) (PReady None lk false [])) G); [unfold work_step; cbn [x_phase x_work x_job x_locks]; rewrite X; reflexivity|reflexivity|].
      intros s2 G2. eapply RD; [apply le_n|exact G2|reflexivity].
    + eapply (STEP s _ (mk_txn (JMap v sh ids) lk w (PFailed (Fail (ViewError e)))) G); [unfold work_step; cbn [x_phase x_work x_job x_locks]; rewrite X; reflexivity|reflexivity|].
      intros s2 G2. eapply FI; [exact G2|reflexivity].
    + eapply (STEP s _ (mk_txn (JMap v sh ids) lk w (PFailed Panic)) G); [unfold work_step; cbn [x_phase x_work x_job x_locks]; rewrite X; reflexivity|reflexivity|].
      intros s2 G2. eapply FI; [exact G2|reflexivity].
  - exact (RD _ s _ d todo rs lg (le_n _) G eq_refl).
  - exact (FI s _ r G eq_refl).
Qed.

(* When the log entry of a transaction becomes visible after its trees, whoever sees
   an entry sees its changes: every tree has the contents it has after the
   transactions of the log, or after these and one whose commit is under way. *)
Fixpoint trees_first (E : env) (s : cs) (tr : list event) : Prop :=
  match tr with
  | [] => True
  | e :: r => (forall i x d todo lg rs, e = Log i -> get_txn i (c_run s) = Some x -> x_phase x = PReady d todo lg rs -> todo = []) /\
              match cstep E s e with Some s' => trees_first E s' r | None => True end
  end.
Definition none_pending (s : cs) : Prop := forall i x d todo rs, In (i, x) (c_run s) -> x_phase x = PReady d todo true rs -> todo = [].
Lemma work_step_unlogged E x x' d todo rs : work_step E x = Some x' -> x_phase x' <> PReady d todo true rs.
Proof.
  unfold work_step. destruct (x_phase x) as [[|o r] ch rs'| |d' todo' lg rs'|r]; try discriminate.
  - destruct (invalidate _ _ _); intros H; inversion H; subst; cbn; discriminate.
  - destruct (exec_op _ _ _) as [[w res]|e1|]; [destruct (record_result _ _)| |]; intros H; inversion H; subst; cbn; discriminate.
  - destruct (x_job x) eqn:EJ; [discriminate|]. destruct (map_chunk _ _ _ _ _); intros H; inversion H; subst; cbn; discriminate.
Qed.
Lemma none_pending_run E : forall tr s s', none_pending s -> trees_first E s tr -> crun E s tr = Some s' -> none_pending s'.
Proof.
  induction tr as [|e tr IH]; intros s s' NP TF H; cbn [crun trees_first] in *; [inversion H; subst; exact NP|].
  destruct TF as [TF1 TF2]. destruct (cstep E s e) as [m|] eqn:ST; [|discriminate]. refine (IH m s' _ TF2 H). clear IH H TF2.
  destruct e as [i j|i|i t|i|i]; cbn [cstep] in ST.
  - destruct (known_id s i); [discriminate|].
    assert (K : forall x, (forall d todo rs, x_phase x <> PReady d todo true rs) -> none_pending (mk_cs (c_pub s) (c_log s) (c_run s ++ [(i, x)]) (c_fin s))).
    { intros x PX k y d todo rs I. cbn in I. apply in_app_or in I. destruct I as [I|[I|[]]]; [apply (NP k y d todo rs I)|]. inversion I; subst. intros Y. exfalso. eapply PX, Y. }
    destruct (job_defined E j); [destruct (existsb _ _); [discriminate|]|]; inversion ST; subst; apply K; intros d todo rs; cbn; [destruct j|]; discriminate.
  - destruct (get_txn _ _) as [x|] eqn:G; [|discriminate]. destruct (work_step _ _) as [x'|] eqn:W; [|discriminate]. inversion ST; subst.
    intros k y d todo rs I PH. cbn in I. apply put_In in I. destruct I as [[-> ->]|[_ I]]; [|eapply NP; eassumption].
    exfalso. eapply work_step_unlogged; eassumption.
  - destruct (get_txn _ _) as [x|] eqn:G; [|discriminate]. destruct (x_phase x) as [| |d0 todo0 lg0 rs0|] eqn:PX; try discriminate. destruct (tmem _ _); [|discriminate].
    inversion ST; subst. intros k y d todo rs I PH. cbn in I. apply put_In in I. destruct I as [[-> ->]|[_ I]]; [|eapply NP; eassumption].
    cbn in PH. inversion PH; subst. rewrite (NP _ _ _ _ _ (get_txn_In _ _ _ G) PX). reflexivity.
  - destruct (get_txn _ _) as [x|] eqn:G; [|discriminate]. destruct (x_phase x) as [| |d0 todo0 lg0 rs0|] eqn:PX; try discriminate. destruct lg0; [discriminate|].
    inversion ST; subst. intros k y d todo rs I PH. cbn in I. apply put_In in I. destruct I as [[-> ->]|[_ I]]; [|eapply NP; eassumption].
    cbn in PH. inversion PH; subst. eapply TF1; [reflexivity|exact G|exact PX].
  - destruct (get_txn _ _) as [x|] eqn:G; [|discriminate].
    destruct (x_phase x) as [| |d0 [|] [|] rs0|r]; try discriminate; inversion ST; subst; intros k y d todo rs I PH; cbn in I; apply drop_In in I; (eapply NP; [apply I|exact PH]).
Qed.
Theorem C95_trees_before_log : forall E s0 tr s, crun E (cs_start s0) tr = Some s -> trees_first E (cs_start s0) tr ->
  exists order d, serial E s0 order d /\ c_log s = db_log d /\
    forall t, same_tree t (c_pub s) (db_work d) \/
      exists i x, In (i, x) (c_run s) /\ In t (x_locks x) /\ ~ In i (ids_of order) /\
        same_tree t (c_pub s) (db_work (fst (alone E d (x_job x)))) /\ exists rs, snd (alone E d (x_job x)) = Done rs.
Proof.
  intros E s0 tr s H TF.
  assert (NP : none_pending s) by (refine (none_pending_run E tr (cs_start s0) s _ TF H); intros i x d todo rs []).
  destruct (reached E s0 tr s H) as (o & D & V & F & P). exists o, D. split; [apply V|]. split; [apply V|]. intros t.
  destruct (locked s t) eqn:L.
  - unfold locked in L. apply existsb_exists in L. destruct L as ([i x] & I & T). cbn [snd] in T. apply tmem_spec in T.
    assert (X := i_txn _ _ _ _ _ V i x I). unfold txn_inv in X. destruct (x_phase x) as [rest ch rs| |d todo lg rs|r] eqn:PH.
    + left. apply X, T.
    + left. apply X, T.
    + destruct lg.
      * left. assert (todo = []) as -> by (eapply NP; eassumption). destruct X as (_ & _ & A & K & _).
        eapply same_trans; [apply K; [exact T|intros []]|apply same_sym, A, T].
      * destruct X as (HF & NO & _ & EF & K1 & K2). destruct (tmem t todo) eqn:TM.
        -- apply tmem_spec in TM. left. apply K1; assumption.
        -- right. exists i, x. split; [exact I|]. split; [exact T|]. split; [exact NO|]. rewrite alone_effect.
           destruct (effect E (x_job x) (db_work D)) as [[[w1 d1] rs1]|f|]; cbn in EF; try contradiction. destruct EF as (A & -> & ->). cbn [fst snd db_work].
           split; [|eexists; reflexivity]. eapply same_trans; [apply K2; [exact T|]|apply same_sym, A, T]. intros Z. apply tmem_spec in Z. congruence.
    + left. apply X, T.
  - left. apply (i_free _ _ _ _ _ V). intros i x I K. assert (X : locked s t = true); [|congruence].
    unfold locked. apply existsb_exists. exists (i, x). split; [exact I|apply tmem_spec, K].
Qed.

(* ---- examples ---- *)
Definition ex_env2 : env := mk_env ex_hash (fun c => if bytes_eqb c [1] || bytes_eqb c [2] then Some (TU 1) else None) [ex_lazy].
Definition ex_a : job := JTx [mk_op [1] (Insert (Some [5]) [10]); mk_op [2] (Insert (Some [5]) [20])].
Definition ex_b : job := JTx [mk_op [1] (Insert (Some [5]) [11])].
Definition ex_c : job := JTx [mk_op [2] (Insert (Some [6]) [11])].
Definition ex_m : job := JMap ex_lazy (fun l => l) [[5]].
(* 1 and 3 overlap (3 fails to begin while 1 holds collection [2]), 2 waits for 1
   and then gets the conflict, the mapper follows *)
Definition ex_trace : list event :=
  [Begin 1 ex_b; Begin 3 ex_c; Step 3; Step 1; Step 1; Log 1; Step 3; Publish 1 (TInvalid [7]); Publish 3 (TDocs [2]); Log 3;
   Publish 1 (TDocs [1]); End_ 3; End_ 1; Begin 2 ex_b; Begin 4 (JTx [mk_op [3] (Delete ex_h5)]); Step 2; End_ 2; Begin 5 ex_m; Step 5; End_ 4;
   Publish 5 (TMap [7]); Publish 5 (TEntries [7]); Publish 5 (TInvalid [7]); Publish 5 (TDocs [1]); Log 5; End_ 5].
Example ex_trace_runs : exists s, crun ex_env2 (cs_start empty_db) ex_trace = Some s /\ c_run s = [] /\
  map (fun r => (id_of r, match snd r with Done rs => true | _ => false end)) (c_fin s) = [(3, true); (1, true); (2, false); (4, false); (5, true)] /\
  Forall (mapper_ok ex_env2) ex_trace /\ t_keys (vs_entries (w_views (c_pub s) [7])) = [[11]] /\ length (c_log s) = 3%nat.
Proof.
  remember (crun ex_env2 (cs_start empty_db) ex_trace) as r eqn:X. vm_compute in X. subst r. eexists. split; [reflexivity|].
  split; [reflexivity|]. split; [reflexivity|]. split; [|split; reflexivity].
  repeat constructor; cbn; auto. intros l. apply Permutation.Permutation_refl.
Qed.
(* a lock is waited for *)
Example ex_waits : crun ex_env2 (cs_start empty_db) [Begin 1 ex_a; Begin 2 ex_b] = None /\
  exists s, crun ex_env2 (cs_start empty_db) [Begin 1 ex_b; Begin 2 ex_c] = Some s.
Proof. split; [reflexivity|]. eexists. reflexivity. Qed.

(* Reading two trees is not atomic: while a transaction that inserts into two
   collections is being committed a reader can find one document and not the other,
   which no order of the transactions explains. *)
Theorem C95_two_reads_refuted : ~ forall E s0 tr s, crun E (cs_start s0) tr = Some s ->
  forall c1 c2, exists order d, serial E s0 order d /\ w_docs (c_pub s) c1 = w_docs (db_work d) c1 /\ w_docs (c_pub s) c2 = w_docs (db_work d) c2 /\
    forall i j r, In (i, j, r) order -> In (Begin i j) tr.
Proof.
  intros H. set (tr := [Begin 1 ex_a; Step 1; Step 1; Step 1; Log 1; Publish 1 (TDocs [1])]).
  specialize (H ex_env2 empty_db tr).
  remember (crun ex_env2 (cs_start empty_db) tr) as r eqn:X. vm_compute in X. subst r.
  specialize (H _ eq_refl [1] [2]). destruct H as (o & d & S1 & D1 & D2 & J).
  assert (D1' : w_docs (db_work d) [1] <> []) by (rewrite <- D1; vm_compute; discriminate).
  assert (D2' : w_docs (db_work d) [2] = []) by (rewrite <- D2; vm_compute; reflexivity).
  clear D1 D2. assert (JA : forall i j r, In (i, j, r) o -> j = ex_a).
  { intros i j r I. apply J in I. unfold tr in I. cbn [In] in I.
    repeat (destruct I as [I|I]; [try discriminate I; inversion I; reflexivity|]). destruct I. }
  clear J.
  assert (K : forall o s, serial ex_env2 s o d -> (forall i j r, In (i, j, r) o -> j = ex_a) ->
             (w_docs (db_work s) [2] <> [] -> False) -> (w_docs (db_work s) [1] = [] /\ w_docs (db_work s) [2] = [] /\ s = empty_db) -> False).
  { clear - D1' D2'. intros o s S1 JA _ (E1 & E2 & ->). destruct o as [|[[i j] r] o]; cbn [serial] in S1; [subst; apply D1'; reflexivity|].
    destruct S1 as [_ S1]. rewrite (JA i j r (or_introl eq_refl)) in S1.
    assert (X : t_get [5] (w_docs (db_work (fst (alone ex_env2 empty_db ex_a))) [2]) <> None) by (vm_compute; discriminate).
    assert (JB : forall i j r, In (i, j, r) o -> j = ex_a) by (intros i0 j0 r0 I; apply (JA i0 j0 r0); right; exact I).
    clear JA. remember (fst (alone ex_env2 empty_db ex_a)) as s eqn:ES.
    assert (FX : forall s, t_get [5] (w_docs (db_work s) [1]) <> None -> fst (alone ex_env2 s ex_a) = s).
    { intros s1 G. cbn [alone ex_a]. unfold apply_to_roots. cbn [colls_defined forallb op_coll ex_env2 ev_pk]. cbn [run_ops exec_op op_cmd op_coll]. unfold exec_insert.
      destruct (t_get [5] (w_docs (db_work s1) [1])); [reflexivity|contradiction]. }
    assert (Y : t_get [5] (w_docs (db_work s) [1]) <> None) by (subst s; vm_compute; discriminate).
    clear ES. induction o as [|[[i1 j1] r1] o IH]; cbn [serial] in S1.
    - subst d. rewrite D2' in X. apply X. reflexivity.
    - destruct S1 as [_ S1]. rewrite (JB i1 j1 r1 (or_introl eq_refl)), FX in S1; [|exact Y].
      apply IH; [exact S1|]. intros i0 j0 r0 I. apply (JB i0 j0 r0). right. exact I. }
  apply (K o empty_db S1 JA); [intros Z; apply Z; reflexivity|]. split; [reflexivity|]. split; reflexivity.
Qed.

(* If the log entry is visible before the trees, C34 would not hold: a mapper job that
   notes the last transaction (mapper.rs:75-78) and then reads the invalidated ids
   (113-117) can miss the documents of that very transaction; the view would then be
   recorded as up to date (mark_view_updated) and no query would map the document. *)
Theorem C95_log_first_stale : exists tr1 tr2 s1 s2 n,
  crun ex_env2 (cs_start empty_db) tr1 = Some s1 /\ crun ex_env2 s1 tr2 = Some s2 /\ c_run s2 = [] /\
  last (map fst (c_log s1)) 0 = n /\ vs_invalid (w_views (c_pub s1) [7]) = [] /\
  last (map fst (c_log s2)) 0 = n /\ vs_invalid (w_views (c_pub s2) [7]) <> [] /\
  t_get [5] (w_docs (c_pub s2) [1]) <> None /\ vs_entries (w_views (c_pub s2) [7]) = [].
Proof.
  exists [Begin 1 ex_b; Step 1; Step 1; Log 1], [Publish 1 (TDocs [1]); Publish 1 (TInvalid [7]); End_ 1].
  remember (crun ex_env2 (cs_start empty_db) [Begin 1 ex_b; Step 1; Step 1; Log 1]) as r eqn:X.
  destruct r as [s1|]; [|vm_compute in X; discriminate X].
  assert (Y : crun ex_env2 s1 [Publish 1 (TDocs [1]); Publish 1 (TInvalid [7]); End_ 1] =
              crun ex_env2 (cs_start empty_db) ([Begin 1 ex_b; Step 1; Step 1; Log 1] ++ [Publish 1 (TDocs [1]); Publish 1 (TInvalid [7]); End_ 1])).
  { rewrite crun_app, <- X. reflexivity. }
  vm_compute in X. injection X as ->. vm_compute in Y. eexists. eexists. exists 1. split; [reflexivity|]. split; [exact Y|]. clear Y.
  split; [reflexivity|]. split; [reflexivity|]. split; [reflexivity|]. split; [reflexivity|]. split; [vm_compute; discriminate|]. split; [vm_compute; discriminate|]. reflexivity.
Qed.
(* the same transaction with its trees published first *)
Fixpoint tfb (E : env) (s : cs) (tr : list event) : bool :=
  match tr with
  | [] => true
  | e :: r =>
      match e with
      | Log i => match get_txn i (c_run s) with
                 | Some x => match x_phase x with PReady _ (_ :: _) _ _ => false | _ => true end
                 | None => true
                 end
      | _ => true
      end && match cstep E s e with Some s' => tfb E s' r | None => true end
  end.
Lemma tfb_ok E : forall tr s, tfb E s tr = true -> trees_first E s tr.
Proof.
  induction tr as [|e tr IH]; intros s H; cbn [tfb trees_first] in *; [exact Logic.I|]. apply andb_true_iff in H. destruct H as [H1 H2]. split.
  - intros i x d todo lg rs -> G PH. rewrite G, PH in H1. destruct todo; [reflexivity|discriminate].
  - destruct (cstep E s e); [apply IH, H2|exact Logic.I].
Qed.
Example ex_trees_first :
  trees_first ex_env2 (cs_start empty_db) [Begin 1 ex_b; Step 1; Step 1; Publish 1 (TDocs [1]); Publish 1 (TInvalid [7]); Log 1; End_ 1] /\
  exists s, crun ex_env2 (cs_start empty_db) [Begin 1 ex_b; Step 1; Step 1; Publish 1 (TDocs [1]); Publish 1 (TInvalid [7]); Log 1; End_ 1] = Some s.
Proof.
  split; [apply tfb_ok; vm_compute; reflexivity|].
  remember (crun _ _ _) as r eqn:X. vm_compute in X. subst r. eexists. reflexivity.
Qed.

Print Assumptions C95_serializable.
Print Assumptions C95_failed_leaves_nothing.
Print Assumptions C95_at_rest.
Print Assumptions C95_never_stuck.
Print Assumptions C95_trees_before_log.
Print Assumptions C95_two_reads_refuted.
Print Assumptions C95_log_first_stale.
