(* C44: background jobs with equal keys are shared and every waiter gets exactly
   one result. *)
From Verif Require Import Base Jobs.
Local Open Scope N_scope.

(* ---------- specification ---------- *)
(* Who is waiting for what, and who has got what, from the observable events
   alone: a request waits for its key; when a job of key k returns r, every
   request waiting for k gets r, in order of the requests, and waits no more. *)
Definition task_eqb (a b : task) : bool := if task_dec a b then true else false.
Record view := View { waiting : list (handle * task); got : list (handle * result) }.
Definition observe (v : view) (o : obs) : view :=
  match o with
  | OReq k h => View (waiting v ++ [(h, k)]) (got v)
  | ODone (Some k) r =>
      View (filter (fun p => negb (task_eqb k (snd p))) (waiting v))
           (got v ++ map (fun p => (fst p, r)) (filter (fun p => task_eqb k (snd p)) (waiting v)))
  | _ => v
  end.
Definition observe_all (os : list obs) : view := fold_left observe os (View [] []).
(* no job has panicked *)
Definition no_panic (os : list obs) : Prop := forall k, ~ In (OLost k) os.
(* the jobs queued or running *)
Definition live (s : state) : list mjob := s_queue s ++ s_running s.
Definition is_req (o : obs) : bool := match o with OReq _ _ => true | _ => false end.

(* ---------- map facts ---------- *)
Lemma m_get_remove {K V} dec (j k : K) (m : list (K * V)) : m_get dec j (m_remove dec k m) = if dec j k then None else m_get dec j m.
Proof.
  induction m as [|[i v] r IH]; cbn [m_remove filter m_get fst]; [destruct (dec j k); reflexivity|].
  destruct (dec k i) as [->|N1]; cbn [m_get].
  - fold (m_remove dec i r). rewrite IH. destruct (dec j i); reflexivity.
  - fold (m_remove dec k r). rewrite IH. destruct (dec j i) as [->|]; [|reflexivity]. destruct (dec i k); [congruence|reflexivity].
Qed.
Lemma m_get_insert {K V} dec (j k : K) v (m : list (K * V)) : m_get dec j (m_insert dec k v m) = if dec j k then Some v else m_get dec j m.
Proof. unfold m_insert. cbn [m_get]. destruct (dec j k); [reflexivity|]. rewrite m_get_remove. destruct (dec j k); [contradiction|reflexivity]. Qed.

Lemma nth_split {A} (l : list A) i x : nth_error l i = Some x -> exists a b, l = a ++ x :: b /\ remove_nth i l = a ++ b.
Proof.
  revert i; induction l as [|y r IH]; intros [|i]; cbn; try discriminate.
  - intros [= ->]. exists [], r. split; reflexivity.
  - intros H. destruct (IH _ H) as (a & b & -> & E). exists (y :: a), b. rewrite E. split; reflexivity.
Qed.
Lemma task_eqb_spec a b : task_eqb a b = true <-> a = b.
Proof. unfold task_eqb. destruct (task_dec a b); split; congruence. Qed.
Lemma task_eqb_neq a b : task_eqb a b = false <-> a <> b.
Proof. unfold task_eqb. destruct (task_dec a b); split; congruence. Qed.

(* ---------- invariant ---------- *)
Definition all_jobs (s : state) : list mjob := s_queue s ++ s_running s ++ s_lost s.
Definition good_job (last : N) (j : mjob) : Prop :=
  1 <= mj_id j <= last /\ exists k, mj_key j = Some k /\ mj_type j = rtype_of k.
Definition for_key (k : task) (w : list (handle * task)) : list (handle * rtype) :=
  map (fun p => (fst p, rtype_of k)) (filter (fun p => task_eqb k (snd p)) w).
Record inv (s : state) (v : view) : Prop := {
  i_jobs : Forall (good_job (s_last s)) (all_jobs s);
  i_ids : NoDup (map mj_id (all_jobs s));
  i_keys : NoDup (map mj_key (all_jobs s));
  i_keyed : forall k id, m_get task_dec k (s_keyed s) = Some id <-> In (MJob id (rtype_of k) (Some k)) (all_jobs s);
  i_send : forall j k, In j (all_jobs s) -> mj_key j = Some k -> m_get N.eq_dec (mj_id j) (s_senders s) = Some (for_key k (waiting v));
  i_send' : forall id l, m_get N.eq_dec id (s_senders s) = Some l -> In id (map mj_id (all_jobs s));
  i_wait : forall h k, In (h, k) (waiting v) -> In (Some k) (map mj_key (all_jobs s));
  i_out : s_out s = got v;
  i_fresh : forall h, In h (map fst (waiting v) ++ map fst (got v)) -> (h < s_handles s)%nat;
  i_all : forall h, (h < s_handles s)%nat -> In h (map fst (waiting v) ++ map fst (got v));
  i_once : NoDup (map fst (waiting v) ++ map fst (got v))
}.
From Coq Require Import Permutation.
Lemma inv_perm s s' v : s_last s' = s_last s -> s_senders s' = s_senders s -> s_keyed s' = s_keyed s -> s_handles s' = s_handles s ->
  s_out s' = s_out s -> Permutation (all_jobs s) (all_jobs s') -> inv s v -> inv s' v.
Proof.
  intros E1 E2 E3 E4 E5 P H. destruct H. pose proof (Permutation_map mj_id P) as Pi. pose proof (Permutation_map mj_key P) as Pk.
  constructor; rewrite ?E1, ?E2, ?E3, ?E4, ?E5; try assumption.
  - eapply Permutation_Forall; eassumption.
  - eapply Permutation_NoDup; eassumption.
  - eapply Permutation_NoDup; eassumption.
  - intros k id. rewrite i_keyed0. split; apply Permutation_in; [exact P|apply Permutation_sym, P].
  - intros j k Hj. apply i_send0. eapply Permutation_in; [apply Permutation_sym, P|exact Hj].
  - intros id l Hl. eapply Permutation_in; [exact Pi|eauto].
  - intros h k Hw. eapply Permutation_in; [exact Pk|eauto].
Qed.
Lemma for_key_app k w1 w2 : for_key k (w1 ++ w2) = for_key k w1 ++ for_key k w2.
Proof. unfold for_key. rewrite filter_app, map_app. reflexivity. Qed.
Lemma good_key_in s v j k : inv s v -> In j (all_jobs s) -> mj_key j = Some k -> j = MJob (mj_id j) (rtype_of k) (Some k).
Proof.
  intros H I E. pose proof (proj1 (Forall_forall _ _) (i_jobs _ _ H) _ I) as (_ & k' & E' & T).
  destruct j as [id ty key]; cbn in *. congruence.
Qed.
Lemma NoDup_map_inj {A B} (f : A -> B) l x y : NoDup (map f l) -> In x l -> In y l -> f x = f y -> x = y.
Proof.
  induction l as [|a r IH]; cbn; [tauto|]. intros N [->|Hx] [->|Hy] E; [reflexivity| | |]; inversion N; subst.
  - exfalso. apply H1. rewrite E. apply in_map, Hy.
  - exfalso. apply H1. rewrite <- E. apply in_map, Hx.
  - apply IH; assumption.
Qed.
Lemma In_key s k : In (Some k) (map mj_key (all_jobs s)) -> exists j, In j (all_jobs s) /\ mj_key j = Some k.
Proof. rewrite in_map_iff. intros (j & E & I). exists j. tauto. Qed.

Lemma inv_request s v k s' h : inv s v -> s_last s + 1 < u64_mod -> lookup_or_enqueue k s = (s', h) ->
  inv s' (observe v (OReq k h)) /\ h = s_handles s /\ s_last s' <= s_last s + 1.
Proof.
  intros H B. unfold lookup_or_enqueue.
  assert (F : forall x, In x (map fst (waiting v ++ [(s_handles s, k)]) ++ map fst (got v)) <-> x = s_handles s \/ In x (map fst (waiting v) ++ map fst (got v))).
  { intros x. rewrite map_app, !in_app_iff. cbn. intuition congruence. }
  assert (ND : NoDup (map fst (waiting v ++ [(s_handles s, k)]) ++ map fst (got v))).
  { rewrite map_app. cbn [map fst]. rewrite <- app_assoc. cbn [app]. eapply Permutation_NoDup; [apply Permutation_middle|].
    constructor; [|apply (i_once _ _ H)]. intros X. apply (i_fresh _ _ H) in X. lia. }
  destruct (m_get task_dec k (s_keyed s)) as [id|] eqn:G.
  - unfold create_new_task_handle. intros [= <- <-]. split; [|split; [reflexivity|cbn; lia]].
    pose proof (proj1 (i_keyed _ _ H k id) G) as J.
    pose proof (i_send _ _ H _ k J eq_refl) as SJ. cbn in SJ. rewrite SJ.
    destruct H. constructor; unfold all_jobs in *; cbn [observe waiting got s_last s_senders s_keyed s_queue s_running s_lost s_handles s_out] in *; try assumption.
    + intros j k' Hj E. rewrite m_get_insert. rewrite for_key_app. destruct (N.eq_dec (mj_id j) id) as [E'|N'].
      * assert (j = MJob id (rtype_of k) (Some k)) by (apply (NoDup_map_inj mj_id _ _ _ i_ids0 Hj J); exact E'). subst j. cbn in E. injection E as <-.
        unfold for_key at 2. cbn. unfold task_eqb. destruct (task_dec k k); [reflexivity|congruence].
      * rewrite (i_send0 _ _ Hj E). unfold for_key at 3. cbn. unfold task_eqb. destruct (task_dec k' k) as [->|]; cbn; [|rewrite app_nil_r; reflexivity].
        exfalso. apply N'. assert (j = MJob id (rtype_of k) (Some k)) by (apply (NoDup_map_inj mj_key _ _ _ i_keys0 Hj J); exact E). subst j. reflexivity.
    + intros i l. rewrite m_get_insert. destruct (N.eq_dec i id) as [->|]; [intros _|apply i_send'0].
      change id with (mj_id (MJob id (rtype_of k) (Some k))). apply in_map, J.
    + intros x k' I. apply in_app_iff in I as [I|[[= <- <-]|[]]]; [eapply i_wait0, I|].
      change (Some k) with (mj_key (MJob id (rtype_of k) (Some k))). apply in_map, J.
    + intros x X. apply F in X as [->|X]; [lia|]. apply i_fresh0 in X. lia.
    + intros x X. apply F. destruct (Nat.eq_dec x (s_handles s)) as [->|]; [left; reflexivity|]. right. apply i_all0. lia.
  - unfold enqueue, create_new_task_handle. cbn [s_senders s_handles s_last s_keyed s_queue s_running s_lost s_out].
    rewrite N.mod_small by exact B. intros [= <- <-]. split; [|split; [reflexivity|cbn; lia]].
    set (id := s_last s + 1) in *. set (J := MJob id (rtype_of k) (Some k)).
    assert (G' : m_get N.eq_dec id (s_senders s) = None).
    { destruct (m_get N.eq_dec id (s_senders s)) eqn:E; [|reflexivity]. apply (i_send' _ _ H) in E. apply in_map_iff in E as (j & E & I).
      pose proof (proj1 (Forall_forall _ _) (i_jobs _ _ H) _ I) as (L & _). unfold id in E. lia. }
    assert (NK : ~ In (Some k) (map mj_key (all_jobs s))).
    { intros X. apply In_key in X as (j & I & E). rewrite (good_key_in _ _ _ _ H I E) in I. apply (i_keyed _ _ H) in I. congruence. }
    assert (NI : ~ In id (map mj_id (all_jobs s))).
    { intros X. apply in_map_iff in X as (j & E & I).
      pose proof (proj1 (Forall_forall _ _) (i_jobs _ _ H) _ I) as (L & _). unfold id in E. lia. }
    rewrite G'.
    match goal with |- inv ?t _ => assert (P : Permutation (J :: all_jobs s) (all_jobs t)) end.
    { unfold all_jobs. cbn. rewrite <- app_assoc. cbn. apply Permutation_middle. }
    destruct H.
    constructor; cbn [observe waiting got s_last s_senders s_keyed s_handles s_out app] in *; try assumption.
    + eapply Permutation_Forall; [exact P|]. constructor.
      * split; [cbn; unfold id; lia|]. exists k. split; reflexivity.
      * eapply Forall_impl; [|exact i_jobs0]. intros j (L & X). split; [unfold id; lia|exact X].
    + eapply Permutation_NoDup; [apply Permutation_map, P|]. cbn. constructor; assumption.
    + eapply Permutation_NoDup; [apply Permutation_map, P|]. cbn. constructor; assumption.
    + intros k' id'. rewrite m_get_insert. split.
      * destruct (task_dec k' k) as [->|N'].
        -- intros [= <-]. eapply Permutation_in; [exact P|]. left. reflexivity.
        -- intros E. apply i_keyed0 in E. eapply Permutation_in; [exact P|]. right. exact E.
      * intros I. apply (Permutation_in _ (Permutation_sym P)) in I. destruct I as [E|I].
        -- injection E as <- T <-. destruct (task_dec k k); congruence.
        -- destruct (task_dec k' k) as [->|N']; [|apply i_keyed0, I]. exfalso. apply NK. change (Some k) with (mj_key (MJob id' (rtype_of k) (Some k))). apply in_map, I.
    + intros j k' I E. apply (Permutation_in _ (Permutation_sym P)) in I. rewrite m_get_insert, for_key_app. destruct I as [<-|I].
      * cbn in E. injection E as <-. cbn [mj_id J]. destruct (N.eq_dec id id) as [_|]; [|congruence].
        unfold for_key at 2. cbn. unfold task_eqb. destruct (task_dec k k); [|congruence]. cbn.
        replace (for_key k (waiting v)) with (@nil (handle * rtype)); [reflexivity|].
        unfold for_key. destruct (filter (fun p => task_eqb k (snd p)) (waiting v)) as [|[x kx] r] eqn:E; [reflexivity|].
        exfalso. assert (X : In (x, kx) (filter (fun p => task_eqb k (snd p)) (waiting v))) by (rewrite E; left; reflexivity).
        apply filter_In in X as (X & T). apply task_eqb_spec in T. cbn in T. subst kx. apply NK. eapply i_wait0, X.
      * destruct (N.eq_dec (mj_id j) id) as [E'|N']; [exfalso; apply NI; rewrite <- E'; apply in_map, I|].
        rewrite (i_send0 _ _ I E). unfold for_key at 3. cbn. unfold task_eqb. destruct (task_dec k' k) as [->|]; cbn; [|rewrite app_nil_r; reflexivity].
        exfalso. apply NK. rewrite <- E. apply in_map, I.
    + intros i l. rewrite m_get_insert. intros E. eapply Permutation_in; [apply Permutation_map, P|]. cbn. destruct (N.eq_dec i id) as [->|]; [left; reflexivity|].
      right. eapply i_send'0, E.
    + intros x k' I. eapply Permutation_in; [apply Permutation_map, P|]. cbn. apply in_app_iff in I as [I|[[= <- <-]|[]]]; [right; eapply i_wait0, I|left; reflexivity].
    + intros x X. apply F in X as [->|X]; [lia|]. apply i_fresh0 in X. lia.
    + intros x X. apply F. destruct (Nat.eq_dec x (s_handles s)) as [->|]; [left; reflexivity|]. right. apply i_all0. lia.
Qed.

Lemma filter_split_perm {A} (f : A -> bool) l : Permutation (filter f l ++ filter (fun x => negb (f x)) l) l.
Proof.
  induction l as [|x r IH]; cbn; [constructor|]. destruct (f x); cbn; [constructor; exact IH|].
  eapply perm_trans; [apply Permutation_sym, Permutation_middle|]. constructor. exact IH.
Qed.
Lemma inv_finish s v i r j : inv s v -> nth_error (s_running s) i = Some j ->
  exists s' k, mj_key j = Some k /\
    job_completed (mj_id j) (mj_type j) (mj_key j) r
      (St (s_last s) (s_senders s) (s_keyed s) (s_queue s) (remove_nth i (s_running s)) (s_lost s) (s_handles s) (s_out s)) = Some s' /\
    inv s' (observe v (ODone (Some k) r)) /\ s_last s' = s_last s.
Proof.
  intros H N. destruct (nth_split _ _ _ N) as (a & b & ER & EN).
  assert (P : Permutation (j :: s_queue s ++ remove_nth i (s_running s) ++ s_lost s) (all_jobs s)).
  { unfold all_jobs. rewrite EN, ER, <- !app_assoc. cbn. rewrite (app_assoc (s_queue s) a (b ++ s_lost s)), (app_assoc (s_queue s) a (j :: b ++ s_lost s)). apply Permutation_middle. }
  assert (I : In j (all_jobs s)) by (eapply Permutation_in; [exact P|left; reflexivity]).
  pose proof (proj1 (Forall_forall _ _) (i_jobs _ _ H) _ I) as (_ & k & EK & ET).
  unfold job_completed. cbn [s_last s_senders s_keyed s_queue s_running s_lost s_handles s_out].
  rewrite (i_send _ _ H _ _ I EK).
  assert (FB : forallb (fun p => if rtype_dec (mj_type j) (snd p) then true else false) (for_key k (waiting v)) = true).
  { apply forallb_forall. intros p Hp. unfold for_key in Hp. apply in_map_iff in Hp as (q & <- & _). cbn. rewrite ET. destruct (rtype_dec (rtype_of k) (rtype_of k)); congruence. }
  rewrite FB, EK. eexists _, k. split; [reflexivity|]. split; [reflexivity|]. split; [|reflexivity].
  set (R := s_queue s ++ remove_nth i (s_running s) ++ s_lost s) in *.
  pose proof (i_ids _ _ H) as NI. apply (Permutation_NoDup (Permutation_map mj_id (Permutation_sym P))) in NI. cbn in NI. inversion NI as [|? ? NI1 NI2]; subst.
  pose proof (i_keys _ _ H) as NK. apply (Permutation_NoDup (Permutation_map mj_key (Permutation_sym P))) in NK. cbn in NK. inversion NK as [|? ? NK1 NK2]; subst.
  pose proof (i_jobs _ _ H) as FJ. apply (Permutation_Forall (Permutation_sym P)) in FJ. inversion FJ as [|? ? _ FJ2]; subst.
  assert (IR : forall x, In x R -> In x (all_jobs s)) by (intros x X; eapply Permutation_in; [exact P|right; exact X]).
  assert (KR : forall x kx, In x R -> mj_key x = Some kx -> kx <> k) by (intros x kx X E ->; apply NK1; rewrite EK, <- E; apply in_map, X).
  assert (PW : Permutation (map fst (filter (fun p => negb (task_eqb k (snd p))) (waiting v)) ++ map fst (got v ++ map (fun p => (fst p, r)) (filter (fun p => task_eqb k (snd p)) (waiting v)))) (map fst (waiting v) ++ map fst (got v))).
  { rewrite map_app, map_map. cbn. rewrite app_assoc.
    eapply perm_trans; [apply Permutation_app_comm|]. rewrite app_assoc. apply Permutation_app_tail.
    rewrite <- map_app. apply Permutation_map. apply filter_split_perm. }
  assert (GE : job_completed 0 RUnit None r s = job_completed 0 RUnit None r s) by reflexivity. clear GE.
  destruct H.
  constructor; unfold all_jobs; cbn [observe waiting got s_last s_senders s_keyed s_queue s_running s_lost s_handles s_out]; fold R; try assumption.
  - intros k' id. rewrite m_get_remove. split.
    + destruct (task_dec k' k) as [->|N']; [discriminate|]. intros E. apply i_keyed0 in E. apply (Permutation_in _ (Permutation_sym P)) in E as [E|E]; [|exact E].
      exfalso. rewrite E in EK. cbn in EK. congruence.
    + intros X. destruct (task_dec k' k) as [->|N']; [exfalso; exact (KR _ _ X eq_refl eq_refl)|]. apply i_keyed0, IR, X.
  - intros x kx X E. rewrite m_get_remove. destruct (N.eq_dec (mj_id x) (mj_id j)) as [E'|N'].
    + exfalso. apply NI1. rewrite <- E'. apply in_map, X.
    + rewrite (i_send0 _ _ (IR _ X) E). f_equal. unfold for_key. f_equal. pose proof (KR _ _ X E) as NE.
      clear - NE. induction (waiting v) as [|p w IH]; [reflexivity|]. cbn. destruct (task_eqb k (snd p)) eqn:E1; cbn.
      * apply task_eqb_spec in E1. destruct (task_eqb kx (snd p)) eqn:E2; [apply task_eqb_spec in E2; congruence|exact IH].
      * destruct (task_eqb kx (snd p)); cbn; congruence.
  - intros id l. rewrite m_get_remove. destruct (N.eq_dec id (mj_id j)) as [->|N']; [discriminate|]. intros E. apply i_send'0 in E.
    apply (Permutation_in _ (Permutation_map mj_id (Permutation_sym P))) in E. destruct E as [E|E]; [congruence|exact E].
  - intros h kx X. apply filter_In in X as (X & T). apply i_wait0 in X. apply (Permutation_in _ (Permutation_map mj_key (Permutation_sym P))) in X.
    destruct X as [X|X]; [|exact X]. exfalso. assert (kx = k) by congruence. subst. cbn in T. unfold task_eqb in T. destruct (task_dec k k); [discriminate|congruence].
  - rewrite i_out0. f_equal. unfold for_key. rewrite map_map. reflexivity.
  - intros h X. apply i_fresh0. eapply Permutation_in; [exact PW|exact X].
  - intros h X. eapply Permutation_in; [apply Permutation_sym, PW|]. apply i_all0, X.
  - eapply Permutation_NoDup; [apply Permutation_sym, PW|exact i_once0].
Qed.

Lemma inv_step s v e s' o : inv s v -> (match e with Request _ => s_last s + 1 < u64_mod | _ => True end) -> step s e = Some (s', o) ->
  inv s' (observe v o) /\ s_last s' <= s_last s + (if is_req o then 1 else 0).
Proof.
  intros H B. destruct e as [k| |i r|i]; cbn [step].
  - destruct (lookup_or_enqueue k s) as [s1 h] eqn:E. intros [= <- <-]. cbn [is_req]. destruct (inv_request _ _ _ _ _ H B E) as (X & _ & Y). split; assumption.
  - destruct (s_queue s) as [|j q] eqn:Q; [discriminate|]. intros [= <- <-]. split; [|cbn; lia]. cbn [observe].
    apply (inv_perm s); try reflexivity; [|exact H]. unfold all_jobs. rewrite Q. cbn. rewrite <- (app_assoc (s_running s)). cbn.
    rewrite (app_assoc q), (app_assoc q). apply Permutation_middle.
  - destruct (nth_error (s_running s) i) as [j|] eqn:N; [|discriminate].
    destruct (inv_finish _ _ _ r _ H N) as (s1 & k & EK & E & I & L). rewrite E. intros [= <- <-]. rewrite EK. split; [exact I|cbn; lia].
  - destruct (nth_error (s_running s) i) as [j|] eqn:N; [|discriminate]. intros [= <- <-]. split; [|cbn; lia]. cbn [observe].
    apply (inv_perm s); try reflexivity; [|exact H].
    destruct (nth_split _ _ _ N) as (a & b & ER & EN). unfold all_jobs. cbn. rewrite EN, ER, <- !app_assoc. apply Permutation_app_head.
    apply Permutation_app_head. cbn. apply Permutation_middle.
Qed.
Lemma inv_init : inv init (View [] []).
Proof. constructor; cbn; try tauto; try constructor; try discriminate; try lia. Qed.
Fixpoint requests (es : list event) : N := match es with [] => 0 | Request _ :: r => 1 + requests r | _ :: r => requests r end.
Lemma step_req s e s' o : step s e = Some (s', o) -> is_req o = match e with Request _ => true | _ => false end.
Proof.
  destruct e; cbn; try (destruct (lookup_or_enqueue k s); intros [= <- <-]; reflexivity);
  repeat match goal with |- context [match ?x with _ => _ end] => destruct x end; intros; try discriminate; injection H as <- <-; reflexivity.
Qed.
Lemma inv_run es : forall s v s' os, inv s v -> s_last s + requests es < u64_mod -> run s es = Some (s', os) -> inv s' (fold_left observe os v).
Proof.
  induction es as [|e r IH]; intros s v s' os H B; cbn [run].
  - intros [= <- <-]. exact H.
  - destruct (step s e) as [[s1 o]|] eqn:E; [|discriminate]. destruct (run s1 r) as [[s2 os']|] eqn:R; [|discriminate]. intros [= <- <-]. cbn [fold_left].
    pose proof (step_req _ _ _ _ E) as Q.
    assert (X : match e with Request _ => s_last s + 1 < u64_mod | _ => True end) by (destruct e; cbn [requests] in B; try exact I; lia).
    destruct (inv_step _ _ _ _ _ H X E) as (H' & L). eapply IH; [exact H'| |exact R]. rewrite Q in L. destruct e; cbn [requests] in B; lia.
Qed.
Lemma run_length es : forall s s' os, run s es = Some (s', os) -> length os = length es.
Proof.
  induction es as [|e r IH]; intros s s' os; cbn [run]; [intros [= <- <-]; reflexivity|].
  destruct (step s e) as [[s1 o]|]; [|discriminate]. destruct (run s1 r) as [[s2 os']|] eqn:R; [|discriminate]. intros [= <- <-]. cbn. f_equal. eapply IH, R.
Qed.
Lemma inv_reached es s os : requests es < u64_mod -> run init es = Some (s, os) -> inv s (observe_all os).
Proof. intros B R. eapply inv_run; [apply inv_init|exact B|exact R]. Qed.

(* ---------- theorems ---------- *)
(* In every execution with fewer than 2^64 requests, what has been sent to the
   handles is exactly what the specification says: each gets the result of the
   first job of its key to return after the request, all in the order asked. *)
Theorem C44_results es s os : requests es < u64_mod -> run init es = Some (s, os) -> s_out s = got (observe_all os).
Proof. intros B R. apply (i_out _ _ (inv_reached _ _ _ B R)). Qed.

(* Every handle handed out has exactly one of: one result, or is still waiting. *)
Theorem C44_exactly_one es s os : requests es < u64_mod -> run init es = Some (s, os) ->
  NoDup (map fst (waiting (observe_all os)) ++ map fst (s_out s)) /\
  (forall h, (exists k, In (OReq k h) os) <-> In h (map fst (waiting (observe_all os)) ++ map fst (s_out s))).
Proof.
  intros B R. rewrite (C44_results _ _ _ B R). split; [apply (i_once _ _ (inv_reached _ _ _ B R))|]. intros h.
  unfold observe_all. assert (G : forall os v, (exists k, In (OReq k h) os) \/ In h (map fst (waiting v) ++ map fst (got v)) <->
    In h (map fst (waiting (fold_left observe os v)) ++ map fst (got (fold_left observe os v)))).
  { clear. induction os as [|o r IH]; intros v; cbn [fold_left]; [split; [intros [[k []]|X]; exact X|intros X; right; exact X]|]. rewrite <- IH. clear IH.
    assert (X : In h (map fst (waiting (observe v o)) ++ map fst (got (observe v o))) <-> (exists k, o = OReq k h) \/ In h (map fst (waiting v) ++ map fst (got v))).
    { destruct o as [k x|k|[k|] r'|k]; cbn [observe waiting got].
      - rewrite map_app, !in_app_iff. cbn. split; [|intros [[k' [= -> ->]]|]; tauto]. intros [[A|[->|[]]]|A]; [tauto|left; eexists; reflexivity|tauto].
      - split; [tauto|intros [[? ?]|]; [discriminate|tauto]].
      - rewrite map_app, map_map, !in_app_iff. cbn. split.
        + intros [A|[A|A]]; try tauto; right; left; apply in_map_iff in A as (p & <- & A); apply filter_In in A as (A & _); apply in_map, A.
        + intros [[? ?]|[A|A]]; [discriminate| |tauto]. apply in_map_iff in A as (p & <- & A). destruct (task_eqb k (snd p)) eqn:E.
          * right. right. apply in_map_iff. exists p. split; [reflexivity|]. apply filter_In. split; assumption.
          * left. apply in_map_iff. exists p. split; [reflexivity|]. apply filter_In. rewrite E. split; [assumption|reflexivity].
      - split; [tauto|intros [[? ?]|]; [discriminate|tauto]].
      - split; [tauto|intros [[? ?]|]; [discriminate|tauto]]. }
    rewrite X. split.
    - intros [[k [->|A]]|A]; [right; left; exists k; reflexivity|left; exists k; exact A|tauto].
    - intros [[k A]|[[k ->]|A]]; [left; exists k; right; exact A|left; exists k; left; reflexivity|tauto]. }
  rewrite <- G. cbn. tauto.
Qed.

(* At most one job of a key is queued or running at any time. *)
Theorem C44_one_job es s os : requests es < u64_mod -> run init es = Some (s, os) ->
  forall i j ji jj, nth_error (live s) i = Some ji -> nth_error (live s) j = Some jj -> mj_key ji = mj_key jj -> i = j.
Proof.
  intros B R i j ji jj Hi Hj E. pose proof (i_keys _ _ (inv_reached _ _ _ B R)) as N. unfold all_jobs in N. rewrite app_assoc, map_app in N.
  assert (N' : NoDup (map mj_key (live s))).
  { clear -N. revert N. unfold live. generalize (map mj_key (s_queue s ++ s_running s)) (map mj_key (s_lost s)).
    intros a b. induction a as [|x a IH]; intros N; constructor; inversion N; subst; [|apply IH; assumption]. intros X. apply H1. apply in_app_iff. tauto. }
  eapply (proj1 (NoDup_nth_error _) N').
  - apply nth_error_Some. rewrite nth_error_map, Hi. discriminate.
  - rewrite !nth_error_map, Hi, Hj. cbn. congruence.
Qed.

(* As long as no job has panicked, whoever waits for a key waits for a job of
   this key that is queued or running (so none is forgotten; when all jobs have
   finished, everybody has an answer), and a key nobody waits for has no job: it
   is available again. *)
Theorem C44_progress es s os : requests es < u64_mod -> run init es = Some (s, os) -> no_panic os ->
  (forall h k, In (h, k) (waiting (observe_all os)) -> exists j, In j (live s) /\ mj_key j = Some k) /\
  (live s = [] -> waiting (observe_all os) = []) /\
  (forall j k, In j (live s) -> mj_key j = Some k -> exists h, In (h, k) (waiting (observe_all os))).
Proof.
  intros B R NP. pose proof (inv_reached _ _ _ B R) as H.
  assert (L : s_lost s = []).
  { assert (G : forall es s0 s os, run s0 es = Some (s, os) -> no_panic os -> s_lost s0 = [] -> s_lost s = []).
    { clear. induction es as [|e r IH]; intros s0 s os; cbn [run]; [intros [= <- <-]; tauto|].
      destruct (step s0 e) as [[s1 o]|] eqn:E; [|discriminate]. destruct (run s1 r) as [[s2 os']|] eqn:R; [|discriminate]. intros [= <- <-] NP E0.
      eapply IH; [exact R|intros k X; apply (NP k); right; exact X|].
      assert (NO : forall k, o <> OLost k) by (intros k ->; apply (NP k); left; reflexivity).
      destruct e as [k| |i rr|i]; cbn [step] in E.
      - unfold lookup_or_enqueue in E. destruct (m_get task_dec k (s_keyed s0)); injection E as <- <-; exact E0.
      - destruct (s_queue s0); [discriminate|]. injection E as <- <-. exact E0.
      - destruct (nth_error (s_running s0) i); [|discriminate]. destruct (job_completed _ _ _ _ _) as [s'|] eqn:J; [|injection E as <- <-; exfalso; eapply NO; reflexivity].
        injection E as <- <-. unfold job_completed in J. cbn in J. destruct (m_get _ _ _); [|injection J as <-; exact E0].
        destruct (forallb _ _); [|discriminate]. injection J as <-. exact E0.
      - destruct (nth_error (s_running s0) i); [|discriminate]. injection E as <- <-. exfalso; eapply NO; reflexivity. }
    eapply G; [exact R|exact NP|reflexivity]. }
  assert (AL : all_jobs s = live s) by (unfold all_jobs, live; rewrite L, app_nil_r; reflexivity).
  assert (W : forall h k, In (h, k) (waiting (observe_all os)) -> exists j, In j (live s) /\ mj_key j = Some k).
  { intros h k X. apply (i_wait _ _ H) in X. apply In_key in X. rewrite AL in X. exact X. }
  split; [exact W|]. split.
  - intros E. destruct (waiting (observe_all os)) as [|[h k] w]; [reflexivity|]. destruct (W h k) as (j & X & _); [left; reflexivity|]. rewrite E in X. destruct X.
  - (* every live job has been requested since it was queued, and only its return ends the waiting *)
    assert (G : forall es s0 v s os, inv s0 v -> s_last s0 + requests es < u64_mod -> run s0 es = Some (s, os) ->
      (forall j k, In j (all_jobs s0) -> mj_key j = Some k -> exists h, In (h, k) (waiting v)) ->
      forall j k, In j (all_jobs s) -> mj_key j = Some k -> exists h, In (h, k) (waiting (fold_left observe os v))).
    { clear. induction es as [|e r IH]; intros s0 v s os H B; cbn [run]; [intros [= <- <-]; tauto|].
      destruct (step s0 e) as [[s1 o]|] eqn:E; [|discriminate]. destruct (run s1 r) as [[s2 os']|] eqn:R; [|discriminate]. intros [= <- <-] F. cbn [fold_left].
      pose proof (step_req _ _ _ _ E) as Q.
      assert (X : match e with Request _ => s_last s0 + 1 < u64_mod | _ => True end) by (destruct e; cbn [requests] in B; try exact I; lia).
      destruct (inv_step _ _ _ _ _ H X E) as (H' & L). eapply IH; [exact H'| |exact R|].
      { rewrite Q in L. destruct e; cbn [requests] in B; lia. }
      clear IH R. intros j k I EK. destruct e as [k'| |i rr|i]; cbn [step] in E.
      - unfold lookup_or_enqueue in E. destruct (m_get task_dec k' (s_keyed s0)) as [id|] eqn:G.
        + injection E as <- <-. cbn [observe waiting]. destruct (F j k I EK) as (h & W). exists h. apply in_app_iff. tauto.
        + unfold enqueue, create_new_task_handle in E. cbn in E. injection E as <- <-. cbn [observe waiting]. unfold all_jobs in I. cbn in I.
          rewrite !in_app_iff in I. cbn in I. destruct I as [[I|[I|[]]]|I].
          * destruct (F j k) as (h & W); [unfold all_jobs; rewrite !in_app_iff; tauto|exact EK|]. exists h. apply in_app_iff. tauto.
          * subst j. cbn in EK. injection EK as <-. eexists. apply in_app_iff. right. left. reflexivity.
          * destruct (F j k) as (h & W); [unfold all_jobs; rewrite !in_app_iff; tauto|exact EK|]. exists h. apply in_app_iff. tauto.
      - destruct (s_queue s0) as [|j0 q] eqn:Q0; [discriminate|]. injection E as <- <-. cbn [observe]. apply (F j k); [|exact EK].
        unfold all_jobs in I |- *. rewrite Q0. cbn in I |- *. rewrite !in_app_iff in I. rewrite !in_app_iff. cbn in I. tauto.
      - destruct (nth_error (s_running s0) i) as [j0|] eqn:N; [|discriminate].
        destruct (inv_finish _ _ _ rr _ H N) as (s' & k0 & EK0 & E' & I' & _). rewrite E' in E. injection E as <- <-. rewrite EK0. cbn [observe waiting].
        destruct (nth_split _ _ _ N) as (a & b & ER & EN).
        assert (Ij : In j (all_jobs s0) /\ k <> k0).
        { assert (AJ : all_jobs s' = s_queue s0 ++ remove_nth i (s_running s0) ++ s_lost s0).
          { unfold job_completed in E'. cbn in E'. destruct (m_get _ _ _); [|injection E' as <-; reflexivity].
            destruct (forallb _ _); [|discriminate]. injection E' as <-. reflexivity. }
          rewrite AJ, EN in I. split.
          - unfold all_jobs. rewrite ER. rewrite !in_app_iff in I. rewrite !in_app_iff. cbn. tauto.
          - intros ->. pose proof (i_keys _ _ H) as NK. unfold all_jobs in NK. rewrite ER in NK. rewrite <- app_assoc in NK. cbn in NK. rewrite app_assoc, map_app in NK. cbn in NK.
            apply NoDup_remove_2 in NK. apply NK. rewrite <- map_app, EK0, <- EK. apply in_map. rewrite !in_app_iff in I. rewrite !in_app_iff. tauto. }
        destruct Ij as (Ij & NE). destruct (F j k Ij EK) as (h & W). exists h. apply filter_In. split; [exact W|]. cbn.
        destruct (task_eqb k0 k) eqn:E; [apply task_eqb_spec in E; congruence|reflexivity].
      - destruct (nth_error (s_running s0) i) as [j0|] eqn:N; [|discriminate]. injection E as <- <-. cbn [observe].
        destruct (nth_split _ _ _ N) as (a & b & ER & EN). apply (F j k); [|exact EK]. unfold all_jobs in I |- *. cbn in I. rewrite EN in I. rewrite ER.
        rewrite !in_app_iff in I. rewrite !in_app_iff. cbn in I |- *. tauto. }
      intros j k I E. eapply G with (es := es) (s0 := init) (v := View [] []); [apply inv_init|exact B|exact R|cbn; tauto| |exact E]. rewrite AL. exact I.
Qed.

(* The result is delivered to a waiter whatever the types: the downcast in
   job_completed never fails, so no job that returns is lost. *)
Theorem C44_no_lost_result es s os i r : requests es < u64_mod -> run init es = Some (s, os) -> (i < length (s_running s))%nat ->
  exists s' k, step s (Finish i r) = Some (s', ODone (Some k) r).
Proof.
  intros B R L. apply nth_error_Some in L. destruct (nth_error (s_running s) i) as [j|] eqn:N; [|congruence].
  destruct (inv_finish _ _ _ r _ (inv_reached _ _ _ B R) N) as (s' & k & EK & E & _). exists s', k. cbn [step]. rewrite N, E, EK. reflexivity.
Qed.

(* A concrete execution: two requests for one view share a job; a third, made
   after it returned, starts another; another key runs meanwhile. *)
Definition ex_map : task := ViewMap [100] [99] [118].
Example C44_ex : exists s os, run init [Request ex_map; Start; Request (ExpirationLoader [100]); Request ex_map; Start; Finish 0 (Done 7); Request ex_map; Start; Finish 0 (Failed 3); Finish 0 (Done 9)] = Some (s, os) /\
  s_out s = [(0%nat, Done 7); (2%nat, Done 7); (1%nat, Failed 3); (3%nat, Done 9)] /\ live s = [] /\ no_panic os.
Proof.
  let r := eval vm_compute in (run init [Request ex_map; Start; Request (ExpirationLoader [100]); Request ex_map; Start; Finish 0 (Done 7); Request ex_map; Start; Finish 0 (Failed 3); Finish 0 (Done 9)]) in
  match r with Some (?a, ?b) => exists a, b end.
  split; [vm_compute; reflexivity|]. split; [reflexivity|]. split; [reflexivity|]. intros k X. cbn in X.
  repeat (destruct X as [X|X]; [discriminate|]). exact X.
Qed.

(* After a job panics (for example the user's map function does), its key is
   never released: whatever happens later, no job with this key runs again and
   nobody who waits for it, then or later, ever gets a result. *)
Lemma lost_forever es : forall s v s' os k, inv s v -> s_last s + requests es < u64_mod -> In (Some k) (map mj_key (s_lost s)) -> run s es = Some (s', os) ->
  In (Some k) (map mj_key (s_lost s')) /\ forall r, ~ In (ODone (Some k) r) os.
Proof.
  induction es as [|e r IH]; intros s v s' os k H B IL; cbn [run]; [intros [= <- <-]; split; [exact IL|intros r []]|].
  destruct (step s e) as [[s1 o]|] eqn:E; [|discriminate]. destruct (run s1 r) as [[s2 os']|] eqn:R; [|discriminate]. intros [= <- <-].
  pose proof (step_req _ _ _ _ E) as Q.
  assert (X : match e with Request _ => s_last s + 1 < u64_mod | _ => True end) by (destruct e; cbn [requests] in B; try exact I; lia).
  destruct (inv_step _ _ _ _ _ H X E) as (H' & L).
  assert (B' : s_last s1 + requests r < u64_mod) by (rewrite Q in L; destruct e; cbn [requests] in B; lia).
  assert (S : In (Some k) (map mj_key (s_lost s1)) /\ forall rr, o <> ODone (Some k) rr).
  { destruct e as [k'| |i rr|i]; cbn [step] in E.
    - unfold lookup_or_enqueue in E. destruct (m_get task_dec k' (s_keyed s)); injection E as <- <-; (split; [exact IL|discriminate]).
    - destruct (s_queue s); [discriminate|]. injection E as <- <-. split; [exact IL|discriminate].
    - destruct (nth_error (s_running s) i) as [j|] eqn:N; [|discriminate].
      destruct (inv_finish _ _ _ rr _ H N) as (s1' & k0 & EK & E' & _ & _). rewrite E' in E. injection E as <- <-. rewrite EK. split.
      + unfold job_completed in E'. cbn in E'. destruct (m_get _ _ _); [|injection E' as <-; exact IL].
        destruct (forallb _ _); [|discriminate]. injection E' as <-. exact IL.
      + intros r0 [= -> ->]. pose proof (i_keys _ _ H) as NK. unfold all_jobs in NK. destruct (nth_split _ _ _ N) as (a & b & ER & _). rewrite ER in NK.
        rewrite <- app_assoc in NK. cbn in NK. rewrite app_assoc, map_app in NK. cbn in NK. apply NoDup_remove_2 in NK. apply NK. rewrite EK.
        rewrite !map_app, !in_app_iff. right. right. exact IL.
    - destruct (nth_error (s_running s) i) as [j|] eqn:N; [|discriminate]. injection E as <- <-. split; [right; exact IL|discriminate]. }
  destruct S as (S1 & S2). destruct (IH _ _ _ _ _ H' B' S1 R) as (S3 & S4). split; [exact S3|]. intros rr [->|X']; [exact (S2 rr eq_refl)|exact (S4 rr X')].
Qed.
Theorem C44_panic_refuted es s os i k : requests es < u64_mod -> run init es = Some (s, os) ->
  forall s1, step s (Crash i) = Some (s1, OLost (Some k)) ->
  forall es' s' os', requests es + requests es' < u64_mod -> run s1 es' = Some (s', os') ->
  forall h, In (OReq k h) os' -> ~ In h (map fst (s_out s')).
Proof.
  intros B R s1 C es' s' os' B2 R2 h IH.
  assert (SL : s_last s <= requests es).
  { assert (G : forall es s0 v s os, inv s0 v -> s_last s0 + requests es < u64_mod -> run s0 es = Some (s, os) -> s_last s <= s_last s0 + requests es).
    { clear. induction es as [|e r IH]; intros s0 v s os H B; cbn [run]; [intros [= <- <-]; cbn; lia|].
      destruct (step s0 e) as [[s1 o]|] eqn:E; [|discriminate]. destruct (run s1 r) as [[s2 os']|] eqn:R; [|discriminate]. intros [= <- <-].
      pose proof (step_req _ _ _ _ E) as Q.
      assert (X : match e with Request _ => s_last s0 + 1 < u64_mod | _ => True end) by (destruct e; cbn [requests] in B; try exact I; lia).
      destruct (inv_step _ _ _ _ _ H X E) as (H' & L). rewrite Q in L.
      assert (B' : s_last s1 + requests r < u64_mod) by (destruct e; cbn [requests] in B; lia).
      specialize (IH _ _ _ _ H' B' R). destruct e; cbn [requests] in *; lia. }
    specialize (G _ _ _ _ _ inv_init B R). cbn in G. lia. }
  pose proof (inv_reached _ _ _ B R) as H. destruct (inv_step _ _ (Crash i) _ _ H I C) as (H1 & L1). cbn [is_req] in L1. assert (B3 : s_last s1 + requests es' < u64_mod) by lia.
  assert (IL : In (Some k) (map mj_key (s_lost s1))).
  { cbn [step] in C. destruct (nth_error (s_running s) i) as [j|]; [|discriminate]. injection C as <- E. left. exact E. }
  destruct (lost_forever _ _ _ _ _ _ H1 B3 IL R2) as (_ & ND).
  pose proof (inv_run _ _ _ _ _ H1 B3 R2) as H2. cbn [observe] in H2.
  (* the handle keeps waiting: only a return of key k could remove it *)
  assert (G : forall os v, (forall r, ~ In (ODone (Some k) r) os) -> In (h, k) (waiting v) \/ In (OReq k h) os -> In (h, k) (waiting (fold_left observe os v))).
  { clear. induction os as [|o r IH]; intros v ND X; cbn [fold_left]; [destruct X as [X|[]]; exact X|]. apply IH.
    - intros rr X'. apply (ND rr). right. exact X'.
    - destruct X as [X|[->|X]]; [left|left; cbn; apply in_app_iff; right; left; reflexivity|right; exact X].
      destruct o as [k' x|k'|[k'|] r'|k']; cbn [observe waiting]; try exact X; [apply in_app_iff; left; exact X|].
      apply filter_In. split; [exact X|]. cbn. destruct (task_eqb k' k) eqn:E; [|reflexivity]. apply task_eqb_spec in E. subst. exfalso. eapply ND. left. reflexivity. }
  specialize (G os' (observe_all os) ND (or_intror IH)). rewrite (i_out _ _ H2). intros X.
  pose proof (i_once _ _ H2) as N. apply (in_map fst) in G. cbn in G. clear - N G X. revert N G. generalize (map fst (waiting (fold_left observe os' (observe_all os)))).
  induction l as [|x l IH]; intros N [].
  - subst. cbn in N. inversion N; subst. apply H1. apply in_app_iff. tauto.
  - cbn in N. inversion N; subst. apply IH; assumption.
Qed.
Example C44_panic_ex : exists s os s1, run init [Request ex_map; Start] = Some (s, os) /\ step s (Crash 0) = Some (s1, OLost (Some ex_map)) /\
  exists s' os', run s1 [Request ex_map] = Some (s', os') /\ In (OReq ex_map 1%nat) os' /\ live s' = [].
Proof.
  let r := eval vm_compute in (run init [Request ex_map; Start]) in match r with Some (?a, ?b) =>
    let r1 := eval vm_compute in (step a (Crash 0)) in match r1 with Some (?c, _) =>
      let r2 := eval vm_compute in (run c [Request ex_map]) in match r2 with Some (?d, ?e) =>
      exists a, b, c; (split; [vm_compute; reflexivity|]); (split; [vm_compute; reflexivity|]); exists d, e end end end.
  split; [vm_compute; reflexivity|]. split; [left; reflexivity|reflexivity].
Qed.
Print Assumptions C44_results.
Print Assumptions C44_exactly_one.
Print Assumptions C44_one_job.
Print Assumptions C44_progress.
Print Assumptions C44_no_lost_result.
Print Assumptions C44_panic_refuted.
