(* C89: the background worker of the key-value store acts in time and sleeps
   otherwise. *)
From Coq Require Import List NArith Bool Lia ZifyBool Arith.
From Verif Require Import Base Tree Kv KvSpec KvProofs KvSim KvDisk PropKvDisk KvWorker KvWorkerProofs.
Import ListNotations.
Local Open Scope N_scope.

(* ---------- histories ---------- *)
(* every clock reading is a clock reading (nanoseconds below a second, seconds below
   the largest u64), none goes back, and the system clock is always [off] ahead of
   the monotonic clock; expirations given by users have at most 1_000_000_000
   nanoseconds, as every Timestamp made by the API *)
Fixpoint clocked (off c : N) (es : list wevent) : Prop :=
  match es with [] => True | e :: r => wev_ok off c e /\ clocked off (clock_after off e) r end.
Fixpoint end_clock (off c : N) (es : list wevent) : N := match es with [] => c | e :: r => end_clock off (clock_after off e) r end.
Definition stored_norm (d : tree entry) : Prop := t_wf d /\ forall k e, t_get k d = Some e -> onorm (e_exp e).
(* a database opened on stored data at now0, and any history after that: operations,
   the writer thread, its failures, shutting down, the expiration loader, the worker *)
Inductive history (off : N) : N -> wst -> Prop :=
| History p now0 d es rs w : pol_ok p -> stored_norm d -> clocked off (ts_dur now0) es -> wrun (w_open p now0 d) es = Some (rs, w) ->
    history off (end_clock off (ts_dur now0) es) w.

Lemma winv_open off p now d : pol_ok p -> stored_norm d -> winv off (ts_dur now) (w_open p now d).
Proof.
  intros P (W & D). constructor; cbn.
  - constructor; [apply kinv_open, W| |exact P|cbn; lia]. split; [intros k; exact I|]. split; [|intros k x []]. intros k e. unfold kv_get. cbn. apply D.
  - intros t _ _ [(k & x & G & _)|H]; [discriminate|]. unfold needs_commit, should_commit, until_commit in H. cbn in H. discriminate.
  - exact I.
  - exact I.
Qed.
Lemma wrun_inv off es : forall c w, winv off c w -> clocked off c es -> exists rs w', wrun w es = Some (rs, w') /\ winv off (end_clock off c es) w'.
Proof.
  induction es as [|e r IH]; intros c w Iv Cl; cbn [wrun end_clock]; [do 2 eexists; split; [reflexivity|exact Iv]|]. destruct Cl as [Ok Cl].
  pose proof (winv_step off c w e Iv Ok) as St. destruct (wstep w e) as [| |o w1]; [destruct St| |].
  - apply IH; [|exact Cl]. apply (winv_later off c); [apply clock_le, Ok|exact Iv].
  - destruct (IH _ _ St Cl) as (rs & w' & -> & Iv'). do 2 eexists. split; [reflexivity|exact Iv'].
Qed.
Lemma history_inv off c w : history off c w -> winv off c w.
Proof.
  intros H. destruct H as [p now0 d es rs w P D Cl R]. destruct (wrun_inv off es _ _ (winv_open off p now0 d P D) Cl) as (rs' & w' & E & Iv). rewrite R in E. injection E as <- <-. exact Iv.
Qed.

(* nothing in such a history panics *)
Theorem C89_no_panic : forall off p now0 d es, pol_ok p -> stored_norm d -> clocked off (ts_dur now0) es -> wrun (w_open p now0 d) es <> None.
Proof. intros off p now0 d es P D Cl. destruct (wrun_inv off es _ _ (winv_open off p now0 d P D) Cl) as (rs & w' & -> & _). discriminate. Qed.

(* ---------- one turn ---------- *)
(* a threshold of the policy is met by n unwritten changes, [el] after the last commit *)
Definition rule_met (p : policy) (n el : N) : Prop :=
  n <> 0 /\ match p with PImmediate => True | PLazy rules => exists r, In r rules /\ r_changes r <= n /\ r_dur r <= el end.
Lemma rule_met_spec p n el : pol_ok p -> (should_commit p n el = true <-> rule_met p n el).
Proof.
  unfold rule_met. intros [->|[rules ->]].
  - rewrite C42_immediate. tauto.
  - rewrite C42_should_commit. unfold lazy_policy. split; intros (A & r & I & B); (split; [exact A|]); exists r; (split; [|exact B]); [apply (proj2 (sort_In rules r)), I|apply (proj1 (sort_In rules r)), I].
Qed.
Lemma set_length {V} k (v : V) t : (length t <= length (t_set k v t))%nat.
Proof. induction t as [|[j x] r IH]; cbn; [lia|]. repeat match goal with |- context [match ?b with _ => _ end] => destruct b end; cbn; lia. Qed.
Lemma expired_length now : forall o x d o' x' d', remove_expired now o x d = Some (o', x', d') -> (length d <= length d')%nat.
Proof.
  induction o as [|k r IH]; cbn; intros x d o' x' d'; [intros [= _ _ <-]; lia|]. destruct (t_get k x) as [t|]; [|discriminate].
  destruct (ts_leb t now); [|intros [= _ _ <-]; lia]. intros H. apply IH in H. pose proof (set_length k (None : option entry) d). lia.
Qed.
Lemma needs_grows s s1 t now c : xinv c s -> kv_expire now s = Some s1 -> needs_commit s t = true -> needs_commit s1 t = true.
Proof.
  intros X E. unfold kv_expire in E. destruct (remove_expired now (k_order s) (k_exp s) (k_dirty s)) as [[[o x] d]|] eqn:R; [|discriminate]. injection E as <-.
  apply expired_length in R. unfold needs_commit. cbn. destruct (k_pers s); [auto|]. intros H. apply (rule_met_spec _ _ _ (x_pol _ _ X)) in H. apply (rule_met_spec _ _ _ (x_pol _ _ X)).
  destruct H as [A B]. split; [lia|]. destruct (k_pol s) as [|rules]; [exact I|]. destruct B as (r & I & C & D). exists r. split; [exact I|]. lia.
Qed.

(* what the worker's pass leaves *)
Definition done_at (t : ts) (s s' : kst) : Prop :=
  (forall k, kv_get s' k = if due (k_exp s) t k then None else kv_get s k) /\ ~ wdue s' t /\
  (needs_commit s t = true -> exists b, k_thread s' = Some (b, false) /\ k_dirty s' = [] /\ k_disk s' = k_disk s /\ k_pers s = None).
Lemma pass_ok off c w t mono : winv off c w -> w_phase w = WWork -> good t -> c <= ts_dur t -> ts_dur t = off + mono ->
  exists w', wstep w (WKv (ETick t) t) = WOk None w' /\ done_at t (w_kv w) (w_kv w') /\ winv off (ts_dur t) w' /\ w_phase w' = WTop /\ ~ target_le (w_target w') t.
Proof.
  intros Iv P G L Off. pose proof (i_x _ _ _ Iv) as X. cbn [wstep]. rewrite P. cbn [step liftp]. unfold bg_round.
  destruct (expire_x c (w_kv w) t X) as (s1 & E & X1 & KD & ND & Gt & Pe & Dk & Th). rewrite E. cbn [liftp].
  destruct (commit_x c s1 t X1 L) as (Xc & Cf & Ce & Cg & Cp).
  assert (X3 : xinv (ts_dur t) (if needs_commit s1 t then snd (commit_dirty s1 t) else s1)) by (apply (maybe_commit_x c); [exact X1|exact L]).
  destruct (winv_retarget off c w WTop _ _ t I L G X3 X3 ltac:(auto)) as (w' & -> & W & Kw & Pw & Nt).
  assert (Dn : done_at t (w_kv w) (if needs_commit s1 t then snd (commit_dirty s1 t) else s1)).
  { split; [|split].
    - intros k. destruct (needs_commit s1 t); [rewrite Cg|]; apply Gt.
    - intros [D|D].
      + apply ND. destruct (needs_commit s1 t); [|exact D]. destruct D as (k & x & A & B). exists k, x. rewrite Ce in A. auto.
      + destruct (needs_commit s1 t) eqn:Nc; [|congruence]. destruct (commit_dirty s1 t) as [[] s2] eqn:Cd; cbn [fst snd] in *.
        * rewrite needs_pers in D by (apply Cp; reflexivity). discriminate.
        * unfold commit_dirty, stage in Cd. unfold needs_commit, should_commit, until_commit in Nc. destruct (k_dirty s1); [|destruct (k_pers s1); discriminate]. destruct (k_pers s1); [discriminate|cbn in Nc; discriminate].
    - intros Nc. rewrite (needs_grows _ _ t t c X E Nc). pose proof (needs_grows _ _ t t c X E Nc) as Nc1. unfold commit_dirty, stage. unfold needs_commit, should_commit, until_commit in Nc1.
      destruct (k_dirty s1) as [|q r] eqn:Dd; [destruct (k_pers s1); discriminate|]. destruct (k_pers s1) eqn:P1; [discriminate|]. cbn. eexists. split; [reflexivity|]. split; [reflexivity|]. split; [exact Dk|congruence]. }
  exists w'. split; [reflexivity|]. rewrite Kw. split; [exact Dn|]. split; [exact W|]. split; [exact Pw|]. apply Nt. apply Dn.
Qed.

Definition asleep (w : wst) (t : ts) (mono : N) : Prop :=
  match w_phase w with
  | WNever v => w_ver w = v
  | WSleep v from d => w_ver w = v /\ mono < from + d
  | _ => False
  end.
Lemma asleep_not_due off c w t mono : winv off c w -> good t -> c <= ts_dur t -> ts_dur t = off + mono -> asleep w t mono -> ~ wdue (w_kv w) t.
Proof.
  intros Iv G L Off A D. pose proof (i_target _ _ _ Iv t G L D) as T. pose proof (i_phase _ _ _ Iv) as Ph. unfold asleep in A. unfold phase_ok in Ph.
  destruct (w_phase w) as [|v|v from d|]; [destruct A| | |destruct A].
  - destruct Ph as [_ Ph]. rewrite (Ph A) in T. exact T.
  - destruct Ph as [_ Ph]. destruct (Ph (proj1 A)) as (x & rem & Tx & Dx & Ld). rewrite Tx in T. pose proof (i_norm _ _ _ Iv) as Nx. rewrite Tx in Nx. cbn in T. rewrite (leb_dur x t Nx G) in T. lia.
Qed.
Lemma asleep_disabled w t mono : asleep w t mono -> wstep w (WWake mono) = WDisabled /\ (forall t' m, wstep w (WRead t' m) = WDisabled) /\ (forall t' m, wstep w (WKv (ETick t') m) = WDisabled).
Proof.
  unfold asleep. intros A. cbn [wstep]. destruct (w_phase w) as [|v|v from d|]; [destruct A| | |destruct A].
  - subst v. rewrite N.eqb_refl. auto.
  - destruct A as [A1 A2]. subst v. assert (E : mono <? from + d = true) by lia. rewrite N.eqb_refl, E. auto.
Qed.
Lemma asleep_stays w t mono : asleep w t mono -> wrun w (turn t mono) = Some ([], w).
Proof. intros A. destruct (asleep_disabled w t mono A) as (A1 & A2 & A3). unfold turn. cbn [wrun]. rewrite A1, A2, A3. reflexivity. Qed.
Lemma not_due_done t s : ~ wdue s t -> done_at t s s.
Proof.
  intros H. split; [|split; [exact H|intros N; exfalso; apply H; right; exact N]]. intros k. destruct (due (k_exp s) t k) eqn:D; [|reflexivity]. exfalso. apply H. left.
  unfold due in D. destruct (t_get k (k_exp s)) as [x|] eqn:G; [|discriminate]. exists k, x. auto.
Qed.
(* reading at the top of the loop *)
Lemma read_ok off c w t mono : winv off c w -> w_phase w = WTop -> good t -> c <= ts_dur t -> ts_dur t = off + mono ->
  exists w', wstep w (WRead t mono) = WOk None w' /\ w_kv w' = w_kv w /\ w_target w' = w_target w /\ winv off (ts_dur t) w' /\ w_phase w' <> WTop /\
  (target_le (w_target w) t -> ~ asleep w' t mono) /\ (~ target_le (w_target w) t -> asleep w' t mono) /\
  (forall v, w_phase w' = WNever v -> w_ver w' = v).
Proof.
  intros Iv P G L Off. pose proof (winv_step off c w (WRead t mono) Iv (conj G (conj L Off))) as St. cbn [wstep clock_after] in *. rewrite P in *.
  eexists. split; [reflexivity|]. split; [reflexivity|]. split; [reflexivity|]. split; [exact St|]. unfold asleep. cbn. pose proof (i_norm _ _ _ Iv) as Nx. unfold ts_sub.
  destruct (w_target w) as [|x|]; cbn [target_le].
  - split; [discriminate|]. split; [auto|]. split; [intros H; apply H, I|discriminate].
  - rewrite (leb_dur x t Nx G). destruct (ts_dur t <=? ts_dur x) eqn:E.
    + split; [discriminate|]. split; [intros D [_ B]; lia|]. split; [intros H; split; [reflexivity|unfold day; lia]|discriminate].
    + split; [discriminate|]. split; [auto|]. split; [intros H; lia|discriminate].
  - split; [discriminate|]. split; [intros []|]. split; [reflexivity|intros v [= <-]; reflexivity].
Qed.

Lemma turn_ok off c w t mono : winv off c w -> good t -> c <= ts_dur t -> ts_dur t = off + mono ->
  exists w', wrun w (turn t mono) = Some ([], w') /\ done_at t (w_kv w) (w_kv w') /\ winv off (ts_dur t) w' /\
  (asleep w' t mono \/ w_phase w' = WTop /\ ~ target_le (w_target w') t).
Proof.
  intros Iv G L Off.
  (* from WWork *)
  assert (FW : forall w0, winv off (ts_dur t) w0 -> w_phase w0 = WWork -> exists w', wstep w0 (WKv (ETick t) t) = WOk None w' /\ done_at t (w_kv w0) (w_kv w') /\ winv off (ts_dur t) w' /\ (asleep w' t mono \/ w_phase w' = WTop /\ ~ target_le (w_target w') t)).
  { intros w0 I0 P0. destruct (pass_ok off _ w0 t mono I0 P0 G (N.le_refl _) Off) as (w' & A & B & C & D & E). exists w'. split; [exact A|]. split; [exact B|]. split; [exact C|]. right. split; [exact D|exact E]. }
  assert (Iv' : winv off (ts_dur t) w) by (apply (winv_later off c); assumption).
  (* from the top of the loop: read, maybe wake, maybe pass *)
  assert (FT : forall w0, winv off (ts_dur t) w0 -> w_phase w0 = WTop -> exists w', wrun w0 [WRead t mono; WWake mono; WKv (ETick t) t] = Some ([], w') /\ done_at t (w_kv w0) (w_kv w') /\ winv off (ts_dur t) w' /\ (asleep w' t mono \/ w_phase w' = WTop /\ ~ target_le (w_target w') t)).
  { intros w0 I0 P0. destruct (read_ok off _ w0 t mono I0 P0 G (N.le_refl _) Off) as (w1 & R & K1 & T1 & I1 & NT & SL & AS & NV). cbn [wrun]. rewrite R.
    destruct (w_phase w1) as [|v|v from d|] eqn:P1; [congruence| | |].
    - specialize (NV v eq_refl). assert (A : asleep w1 t mono) by (unfold asleep; rewrite P1; exact NV). destruct (asleep_disabled w1 t mono A) as (D1 & D2 & D3). rewrite D1, D3.
      exists w1. split; [reflexivity|]. split; [rewrite <- K1; apply not_due_done; exact (asleep_not_due off _ w1 t mono I1 G (N.le_refl _) Off A)|]. auto.
    - destruct ((w_ver w1 =? v) && (mono <? from + d)) eqn:E.
      + assert (A : asleep w1 t mono) by (unfold asleep; rewrite P1; lia). destruct (asleep_disabled w1 t mono A) as (D1 & D2 & D3). rewrite D1, D3. exists w1. split; [reflexivity|].
        split; [rewrite <- K1; apply not_due_done; exact (asleep_not_due off _ w1 t mono I1 G (N.le_refl _) Off A)|]. auto.
      + assert (Wk : wstep w1 (WWake mono) = WOk None (at_phase WWork w1)) by (cbn [wstep]; rewrite P1, E; reflexivity).
        pose proof (winv_step off _ w1 (WWake mono) I1 ltac:(cbn; lia)) as St. cbn [clock_after] in St. rewrite Wk in *. rewrite <- Off in St.
        destruct (FW (at_phase WWork w1) St eq_refl) as (w' & A & B & C & D). rewrite A. exists w'. split; [reflexivity|]. split; [rewrite <- K1; exact B|]. auto.
    - assert (Wk : wstep w1 (WWake mono) = WDisabled) by (cbn [wstep]; rewrite P1; reflexivity). rewrite Wk. destruct (FW w1 I1 P1) as (w' & A & B & C & D). rewrite A. exists w'. split; [reflexivity|]. split; [rewrite <- K1; exact B|]. auto. }
  unfold turn. destruct (w_phase w) as [|v|v from d|] eqn:P.
  - destruct (FT w Iv' P) as (w' & A & B & C & D). exists w'. split; [|auto]. rewrite <- A. assert (Wk : wstep w (WWake mono) = WDisabled) by (cbn [wstep]; rewrite P; reflexivity). change (wrun w [WWake mono; WRead t mono; WWake mono; WKv (ETick t) t]) with (match wstep w (WWake mono) with WPanic => None | WDisabled => wrun w [WRead t mono; WWake mono; WKv (ETick t) t] | WOk o w' => match wrun w' [WRead t mono; WWake mono; WKv (ETick t) t] with Some (rs, w'') => Some (match o with Some x => x :: rs | None => rs end, w'') | None => None end end). rewrite Wk. reflexivity.
  - destruct (N.eq_dec (w_ver w) v) as [E|E].
    + assert (A : asleep w t mono) by (unfold asleep; rewrite P; exact E). exists w. split; [exact (asleep_stays w t mono A)|]. split; [apply not_due_done; exact (asleep_not_due off _ w t mono Iv G L Off A)|]. auto.
    + pose proof (winv_step off _ w (WWake mono) Iv ltac:(cbn; lia)) as St. cbn [clock_after] in St. assert (Wk : wstep w (WWake mono) = WOk None (at_phase WTop w)).
      { cbn [wstep]. rewrite P. apply N.eqb_neq in E. rewrite E. reflexivity. }
      rewrite Wk, <- Off in St. destruct (FT _ St eq_refl) as (w' & A & B & C & D). exists w'. split; [|auto]. change (wrun w [WWake mono; WRead t mono; WWake mono; WKv (ETick t) t]) with (match wstep w (WWake mono) with WPanic => None | WDisabled => wrun w [WRead t mono; WWake mono; WKv (ETick t) t] | WOk o w' => match wrun w' [WRead t mono; WWake mono; WKv (ETick t) t] with Some (rs, w'') => Some (match o with Some x => x :: rs | None => rs end, w'') | None => None end end). rewrite Wk, A. reflexivity.
  - destruct ((w_ver w =? v) && (mono <? from + d)) eqn:E.
    + assert (A : asleep w t mono) by (unfold asleep; rewrite P; lia). exists w. split; [exact (asleep_stays w t mono A)|]. split; [apply not_due_done; exact (asleep_not_due off _ w t mono Iv G L Off A)|]. auto.
    + pose proof (winv_step off _ w (WWake mono) Iv ltac:(cbn; lia)) as St. cbn [clock_after] in St. assert (Wk : wstep w (WWake mono) = WOk None (at_phase WWork w)) by (cbn [wstep]; rewrite P, E; reflexivity).
      rewrite Wk, <- Off in St. destruct (FW _ St eq_refl) as (w' & A & B & C & D). exists w'. split; [|auto]. assert (Q1 : wstep (at_phase WWork w) (WRead t mono) = WDisabled) by reflexivity. assert (Q2 : wstep (at_phase WWork w) (WWake mono) = WDisabled) by reflexivity. cbn [wrun]. rewrite Wk, Q1, Q2, A. reflexivity.
  - destruct (FW w Iv' P) as (w' & A & B & C & D). exists w'. split; [|auto].
    assert (Q1 : wstep w (WRead t mono) = WDisabled) by (cbn [wstep]; rewrite P; reflexivity). assert (Q2 : wstep w (WWake mono) = WDisabled) by (cbn [wstep]; rewrite P; reflexivity). cbn [wrun]. rewrite Q2, Q1, A. reflexivity.
Qed.

(* ---------- theorems ---------- *)
(* Whatever happened before: when the worker gets a turn at a time t, afterwards no
   expiration the store knows of is overdue, and unless a writer is at work no
   threshold of the persistence policy is met. (In particular it is never asleep
   then: nothing wakes it late.) *)
Theorem C89_in_time : forall off c w t mono, history off c w -> good t -> c <= ts_dur t -> ts_dur t = off + mono ->
  exists w', wrun w (turn t mono) = Some ([], w') /\
  (forall k x, t_get k (k_exp (w_kv w')) = Some x -> ts_leb x t = false) /\
  (k_pers (w_kv w') = None -> ~ rule_met (k_pol (w_kv w')) (N.of_nat (length (k_dirty (w_kv w')))) (ts_dur t - ts_dur (k_last (w_kv w')))).
Proof.
  intros off c w t mono H G L Off. apply history_inv in H. destruct (turn_ok off c w t mono H G L Off) as (w' & R & (_ & ND & _) & Iv & _). exists w'. split; [exact R|]. split.
  - intros k x Gx. destruct (ts_leb x t) eqn:E; [|reflexivity]. exfalso. apply ND. left. exists k, x. auto.
  - intros P M. apply ND. right. unfold needs_commit. rewrite P. unfold ts_sub. pose proof (x_last _ _ (i_x _ _ _ Iv)) as La.
    destruct (ts_dur (k_last (w_kv w')) <=? ts_dur t) eqn:E; [|lia]. apply rule_met_spec; [apply (i_x _ _ _ Iv)|exact M].
Qed.
(* .. and what can be read is what could be read before without the expired keys,
   if the store knows the expirations of its entries (C89_known: always, in a new
   database) *)
Theorem C89_expired_gone : forall off c w t mono, history off c w -> good t -> c <= ts_dur t -> ts_dur t = off + mono -> synced (w_kv w) ->
  exists w', wrun w (turn t mono) = Some ([], w') /\ forall k, abs (w_kv w') k = purge t (abs (w_kv w)) k.
Proof.
  intros off c w t mono H G L Off Sy. apply history_inv in H. destruct (turn_ok off c w t mono H G L Off) as (w' & R & (Gt & _) & _). exists w'. split; [exact R|].
  intros k. rewrite (due_purge _ _ _ Sy). unfold abs. rewrite Gt. destruct (due (k_exp (w_kv w)) t k); reflexivity.
Qed.
(* a turn at a time when a threshold is met starts a writer, and what it writes is
   everything that can be read *)
Theorem C89_written : forall off c w t mono, history off c w -> good t -> c <= ts_dur t -> ts_dur t = off + mono -> synced (w_kv w) ->
  k_pers (w_kv w) = None -> rule_met (k_pol (w_kv w)) (N.of_nat (length (k_dirty (w_kv w)))) (ts_dur t - ts_dur (k_last (w_kv w))) ->
  exists w' s, wrun w (turn t mono) = Some ([], w') /\ thread_write (w_kv w') = Some s /\ forall k, disk_map (k_disk s) k = purge t (abs (w_kv w)) k.
Proof.
  intros off c w t mono H G L Off Sy P M. destruct (C89_expired_gone off c w t mono H G L Off Sy) as (w0 & R0 & A). apply history_inv in H.
  destruct (turn_ok off c w t mono H G L Off) as (w' & R & (_ & _ & Wr) & Iv & _). rewrite R in R0. injection R0 as <-.
  assert (Nc : needs_commit (w_kv w) t = true).
  { unfold needs_commit. rewrite P. unfold ts_sub. pose proof (x_last _ _ (i_x _ _ _ H)) as La. destruct (ts_dur (k_last (w_kv w)) <=? ts_dur t) eqn:E; [|lia]. apply rule_met_spec; [apply (i_x _ _ _ H)|exact M]. }
  destruct (Wr Nc) as (b & Th & Dd & Dk & _). destruct (thread_write (w_kv w')) as [s|] eqn:W; [|unfold thread_write in W; rewrite Th in W; discriminate].
  exists w', s. split; [exact R|]. split; [exact W|]. intros k. rewrite <- A. destruct (write_view _ _ (x_kinv _ _ (i_x _ _ _ Iv)) W) as (K' & G' & _).
  unfold abs, disk_map. rewrite <- G'. f_equal. unfold thread_write in W. rewrite Th in W. injection W as <-. unfold kv_get. cbn. rewrite Dd. cbn.
  destruct K' as (_ & _ & _ & _ & T). unfold thread_ok in T. cbn in T. destruct T as [Pe Q]. rewrite Pe. destruct (t_get k b) as [e|] eqn:Gb; [exact (Q eq_refl k e Gb)|reflexivity].
Qed.
(* two turns at the same time bring the worker to sleep: it never spins *)
Theorem C89_sleeps : forall off c w t mono, history off c w -> good t -> c <= ts_dur t -> ts_dur t = off + mono ->
  exists w1 w2, wrun w (turn t mono) = Some ([], w1) /\ wrun w1 (turn t mono) = Some ([], w2) /\
  wstep w2 (WWake mono) = WDisabled /\ (forall t' m, wstep w2 (WRead t' m) = WDisabled) /\ (forall t' m, wstep w2 (WKv (ETick t') m) = WDisabled).
Proof.
  intros off c w t mono H G L Off. apply history_inv in H. destruct (turn_ok off c w t mono H G L Off) as (w1 & R1 & _ & Iv & [A|[P T]]).
  - exists w1, w1. split; [exact R1|]. split; [exact (asleep_stays w1 t mono A)|exact (asleep_disabled w1 t mono A)].
  - destruct (read_ok off _ w1 t mono Iv P G (N.le_refl _) Off) as (w2 & R & K1 & T1 & I1 & NT & SL & AS & NV). specialize (AS T). pose proof (asleep_disabled w2 t mono AS) as D. destruct D as (D1 & D2 & D3).
    exists w1, w2. split; [exact R1|]. split; [|auto]. unfold turn. assert (Q : wstep w1 (WWake mono) = WDisabled) by (cbn [wstep]; rewrite P; reflexivity). cbn [wrun]. rewrite Q, R, D1, D3. reflexivity.
Qed.

(* ---------- the store under the worker ---------- *)
Definition kv_events (es : list wevent) : list event := flat_map (fun e => match e with WKv k _ => [k] | _ => [] end) es.
Definition is_tick (e : event) : bool := match e with ETick _ => true | _ => false end.
Lemma retarget_kv s now w w' : retarget s now w = Some w' -> w_kv w' = w_kv w.
Proof.
  unfold retarget. destruct (first_expiration s) as [ke|]; [|discriminate]. cbv zeta. intros [= <-]. destruct (_ || _); [reflexivity|].
  destruct (commit_target s now), ke; unfold t_update; destruct (target_eqb _ _); reflexivity.
Qed.
(* the store goes through a history of Kv.v: the same operations, writer and loader
   events in the same order with the same results, and some rounds of the worker;
   C35 to C43 hold of it *)
Theorem C89_same_store : forall es w rs w', wrun w es = Some (rs, w') ->
  exists ks, run (w_kv w) ks = Some (rs, w_kv w') /\ filter (fun e => negb (is_tick e)) ks = filter (fun e => negb (is_tick e)) (kv_events es) /\ incl ks (kv_events es).
Proof.
  induction es as [|e r IH]; intros w rs w' H; cbn [wrun] in H; [injection H as <- <-; exists []; split; [reflexivity|]; split; [reflexivity|intros x []]|].
  destruct e as [k now|now mono|mono].
  - assert (St : match wstep w (WKv k now) with WPanic => True | WDisabled => step (w_kv w) k = SDisabled \/ is_tick k = true | WOk o w1 => step (w_kv w) k = SOk o (w_kv w1) end).
    { assert (RL : forall o s1 s w0, w_kv w0 = s -> match wlift o (retarget s1 now w0) with WPanic => True | WDisabled => step (w_kv w) k = SDisabled \/ is_tick k = true | WOk o' w1 => SOk o s = SOk o' (w_kv w1) end).
      { intros o s1 s w0 E. destruct (retarget s1 now w0) as [w1|] eqn:R; cbn; [|exact I]. rewrite (retarget_kv _ _ _ _ R), E. reflexivity. }
      cbn [wstep]. destruct k as [ns key cm t|t| | | |t|l|]; try (destruct (step (w_kv w) _) as [| |o s]; [exact I|left; reflexivity|]).
      - destruct o as [[o|er]|]; [apply RL; reflexivity|reflexivity|reflexivity].
      - destruct (w_phase w); try (right; reflexivity). destruct (step (w_kv w) (ETick t)) as [| |o s]; [exact I|left; reflexivity|]. apply RL. reflexivity.
      - reflexivity.
      - reflexivity.
      - apply RL. reflexivity.
      - reflexivity.
      - reflexivity.
      - destruct (k_load (w_kv w)) as [|[k x] l]; [reflexivity|]. destruct (changed_first _ _ _); [apply RL; reflexivity|reflexivity]. }
    change (kv_events (WKv k now :: r)) with (k :: kv_events r). destruct (wstep w (WKv k now)) as [| |o w1]; [discriminate| |].
    + destruct (IH _ _ _ H) as (ks & R & F & In'). destruct St as [St|Ti].
      * exists (k :: ks). cbn [run]. rewrite St. split; [exact R|]. split; [cbn; rewrite F; reflexivity|]. intros x [<-|Hx]; [left; reflexivity|right; exact (In' _ Hx)].
      * exists ks. split; [exact R|]. split; [cbn; rewrite Ti; exact F|]. intros x Hx. right. exact (In' _ Hx).
    + destruct (wrun w1 r) as [[rs1 w2]|] eqn:W; [|discriminate]. injection H as <- <-. destruct (IH _ _ _ W) as (ks & R & F & In'). exists (k :: ks). cbn [run]. rewrite St, R.
      split; [reflexivity|]. split; [cbn; rewrite F; reflexivity|]. intros x [<-|Hx]; [left; reflexivity|right; exact (In' _ Hx)].
  - assert (St : match wstep w (WRead now mono) with WPanic => False | WDisabled => True | WOk o w1 => o = None /\ w_kv w1 = w_kv w end) by (cbn [wstep]; destruct (w_phase w); try exact I; split; reflexivity).
    change (kv_events (WRead now mono :: r)) with (kv_events r). destruct (wstep w (WRead now mono)) as [| |o w1]; [destruct St| |].
    + exact (IH _ _ _ H).
    + destruct St as [-> K]. destruct (wrun w1 r) as [[rs1 w2]|] eqn:W; [|discriminate]. injection H as <- <-. rewrite <- K. exact (IH _ _ _ W).
  - assert (St : match wstep w (WWake mono) with WPanic => False | WDisabled => True | WOk o w1 => o = None /\ w_kv w1 = w_kv w end).
    { cbn [wstep]. destruct (w_phase w); try exact I; [destruct (_ =? _)|destruct (_ && _)]; try exact I; split; reflexivity. }
    change (kv_events (WWake mono :: r)) with (kv_events r). destruct (wstep w (WWake mono)) as [| |o w1]; [destruct St| |].
    + exact (IH _ _ _ H).
    + destruct St as [-> K]. destruct (wrun w1 r) as [[rs1 w2]|] eqn:W; [|discriminate]. injection H as <- <-. rewrite <- K. exact (IH _ _ _ W).
Qed.

(* in a database that was empty when it was opened, without loader, the store knows
   the expirations of all its entries *)
Theorem C89_known : forall p now0 es rs w, Forall no_loader (kv_events es) -> Forall event_ok (kv_events es) -> wrun (w_open p now0 []) es = Some (rs, w) -> synced (w_kv w).
Proof.
  intros p now0 es rs w NL OK R. destruct (C89_same_store _ _ _ _ R) as (ks & Rk & _ & In'). cbn [w_kv w_open] in Rk.
  assert (NL' : Forall no_loader ks) by (rewrite Forall_forall in *; auto). assert (OK' : Forall event_ok ks) by (rewrite Forall_forall in *; auto). clear - Rk NL' OK'.
  assert (R0 : exists m, rel (kv_open p now0 []) m).
  { exists (fun _ => None). split; [apply kinv_open, wf_nil|]. split; [intros k; reflexivity|]. split; [intros k; reflexivity|intros k; exact I]. }
  destruct R0 as (m & R0). revert m R0 rs Rk. generalize (kv_open p now0 []). induction ks as [|e r IH]; intros s m R0 rs Rk; cbn [run] in Rk; [injection Rk as _ <-; apply R0|].
  inversion NL'; subst. inversion OK'; subst. pose proof (step_sim s m e R0 ltac:(assumption) ltac:(assumption)) as St. destruct (step s e) as [| |o s'] eqn:E; [discriminate| |].
  - exact (IH ltac:(assumption) ltac:(assumption) s m R0 rs Rk).
  - destruct (run s' r) as [[rs1 s2]|] eqn:Q; [|discriminate]. injection Rk as _ Es. rewrite <- Es in *. exact (IH ltac:(assumption) ltac:(assumption) s' _ (proj2 St) rs1 Q).
Qed.

(* ---------- when the system clock is set ---------- *)
(* no matter what the clocks do: a worker that sleeps with a deadline wakes up after
   at most a day of the monotonic clock *)
Theorem C89_within_a_day : forall p now0 d es rs w v from dur mono, wrun (w_open p now0 d) es = Some (rs, w) -> w_phase w = WSleep v from dur -> from + 86400 * 1000000000 <= mono ->
  wstep w (WWake mono) = WOk None (at_phase WWork w).
Proof.
  intros p now0 d es rs w v from dur mono R P L.
  assert (D : forall es w0 rs w1, (forall v f u, w_phase w0 = WSleep v f u -> u <= day) -> wrun w0 es = Some (rs, w1) -> forall v f u, w_phase w1 = WSleep v f u -> u <= day).
  { clear. induction es as [|e r IH]; intros w0 rs w1 H0 R; cbn [wrun] in R; [injection R as _ <-; exact H0|].
    assert (St : match wstep w0 e with WOk _ w2 => forall v f u, w_phase w2 = WSleep v f u -> u <= day | _ => True end).
    { assert (RP : forall o s1 now w2, (forall v f u, w_phase w2 = WSleep v f u -> u <= day) -> match wlift o (retarget s1 now w2) with WOk _ w3 => forall v f u, w_phase w3 = WSleep v f u -> u <= day | _ => True end).
      { intros o s1 now w2 H2. unfold retarget. destruct (first_expiration s1) as [ke|]; cbn; [|exact I]. destruct (_ || _); [exact H2|].
        destruct (commit_target s1 now), ke; unfold t_update; destruct (target_eqb _ _); exact H2. }
      destruct e as [k now|now mono|mono]; cbn [wstep].
      - destruct k as [ns key cm t|t| | | |t|l|]; try (destruct (step (w_kv w0) _) as [| |o s]; [exact I|exact I|]).
        + destruct o as [[o|er]|]; [apply RP; exact H0|exact H0|exact H0].
        + destruct (w_phase w0) eqn:P0; try exact I. destruct (step (w_kv w0) (ETick t)) as [| |o s]; [exact I|exact I|]. apply RP. discriminate.
        + exact H0.
        + exact H0.
        + apply RP. exact H0.
        + exact H0.
        + exact H0.
        + destruct (k_load (w_kv w0)) as [|[k x] l]; [exact H0|]. destruct (changed_first _ _ _); [apply RP; exact H0|exact H0].
      - destruct (w_phase w0); try exact I. cbn. intros v f u. destruct (w_target w0); try discriminate. destruct (ts_sub t now); [|discriminate]. intros [= _ _ <-]. lia.
      - destruct (w_phase w0); try exact I; [destruct (_ =? _)|destruct (_ && _)]; try exact I; cbn; discriminate. }
    destruct (wstep w0 e) as [| |o w2]; [discriminate|exact (IH _ _ _ H0 R)|]. destruct (wrun w2 r) as [[rs1 w3]|] eqn:W; [|discriminate]. injection R as _ <-. exact (IH _ _ _ St W). }
  assert (D0 : forall v f u, w_phase (w_open p now0 d) = WSleep v f u -> u <= day) by (intros v0 f u Q; discriminate Q).
  pose proof (D _ _ _ _ D0 R v from dur P) as B. cbn [wstep]. rewrite P. unfold day in B. destruct ((w_ver w =? v) && (mono <? from + dur)) eqn:E; [lia|reflexivity].
Qed.
(* .. but it does not notice a system clock that is set forward while it sleeps: a key
   that expires at 100 s is set at 10 s, the worker goes to sleep, and at 200 s by the
   system clock, one second later by the monotonic clock, it sleeps on and the
   expired key is still in the store *)
Definition jump_key : command := CSet (SetCmd (VBytes [7]) (Some (Ts 100 0)) false None false).
Definition jump_es : list wevent := [WKv (EOp None [1] jump_key (Ts 10 0)) (Ts 10 0); WRead (Ts 10 0) 1000000000].
Theorem C89_clock_jump_refuted : exists rs w k e, wrun (w_open (lazy_policy [Rule 1000 0]) (Ts 9 0) []) jump_es = Some (rs, w) /\
  kv_get (w_kv w) k = Some e /\ e_exp e = Some (Ts 100 0) /\ wrun w (turn (Ts 200 0) 2000000000) = Some ([], w).
Proof.
  remember (wrun (w_open (lazy_policy [Rule 1000 0]) (Ts 9 0) []) jump_es) as r eqn:E. vm_compute in E. subst r. do 4 eexists. split; [reflexivity|].
  split; [instantiate (2 := [0; 1]); vm_compute; reflexivity|]. split; [reflexivity|vm_compute; reflexivity].
Qed.

(* ---------- examples ---------- *)
(* the same history with clocks in step (one second at the start of the monotonic
   clock is nine seconds of the system clock): at 99 s the worker sleeps, at 100 s it
   removes the key *)
Example C89_example : exists w, wrun (w_open (lazy_policy [Rule 1000 0]) (Ts 9 0) []) jump_es = Some ([KOk (OStatus Inserted)], w) /\
  pol_ok (lazy_policy [Rule 1000 0]) /\ stored_norm [] /\ clocked 9000000000 (ts_dur (Ts 9 0)) jump_es /\ good (Ts 100 0) /\ ts_dur (Ts 100 0) = 9000000000 + 91000000000 /\
  wrun w (turn (Ts 99 0) 90000000000) = Some ([], w) /\
  option_map (fun q => kv_get (w_kv (snd q)) [0; 1]) (wrun w (turn (Ts 100 0) 91000000000)) = Some None /\ kv_get (w_kv w) [0; 1] <> None.
Proof.
  remember (wrun (w_open (lazy_policy [Rule 1000 0]) (Ts 9 0) []) jump_es) as r eqn:E. vm_compute in E. subst r. eexists. split; [reflexivity|].
  split; [right; eexists; reflexivity|]. split; [split; [exact wf_nil|discriminate]|].
  split; [cbn; unfold good, tnorm, u64_max, ts_dur; cbn; repeat split; lia|]. split; [split; reflexivity|]. split; [reflexivity|].
  split; [vm_compute; reflexivity|]. split; [vm_compute; reflexivity|vm_compute; discriminate].
Qed.
(* a threshold: one change, five seconds after the last commit *)
Definition thr_es : list wevent := [WKv (EOp None [1] (CSet (SetCmd (VBytes [7]) None false None false)) (Ts 10 0)) (Ts 10 0); WRead (Ts 10 0) 10000000000].
Example C89_threshold_example : exists w, wrun (w_open (lazy_policy [Rule 1 5000000000]) (Ts 9 0) []) thr_es = Some ([KOk (OStatus Inserted)], w) /\
  clocked 0 (ts_dur (Ts 9 0)) thr_es /\ k_pers (w_kv w) = None /\ rule_met (k_pol (w_kv w)) (N.of_nat (length (k_dirty (w_kv w)))) (ts_dur (Ts 14 0) - ts_dur (k_last (w_kv w))) /\
  wrun w (turn (Ts 13 999999999) 13999999999) = Some ([], w) /\ option_map (fun q => k_thread (w_kv (snd q))) (wrun w (turn (Ts 14 0) 14000000000)) <> Some None.
Proof.
  remember (wrun (w_open (lazy_policy [Rule 1 5000000000]) (Ts 9 0) []) thr_es) as r eqn:E. vm_compute in E. subst r. eexists. split; [reflexivity|].
  split; [cbn; unfold good, tnorm, u64_max, ts_dur; cbn; repeat split; lia|]. split; [reflexivity|].
  split; [split; [vm_compute; discriminate|]; exists (Rule 1 5000000000); split; [left; reflexivity|split; vm_compute; discriminate]|].
  split; [vm_compute; reflexivity|vm_compute; discriminate].
Qed.

Print Assumptions C89_no_panic.
Print Assumptions C89_in_time.
Print Assumptions C89_expired_gone.
Print Assumptions C89_written.
Print Assumptions C89_sleeps.
Print Assumptions C89_same_store.
Print Assumptions C89_known.
Print Assumptions C89_within_a_day.
Print Assumptions C89_clock_jump_refuted.
