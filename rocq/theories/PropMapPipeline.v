(* C88: the mapping pipeline. *)
From Coq Require Import List Arith Bool Lia Permutation ZifyBool.
From Verif Require Import Base MapPipeline MapPipelineProofs.
From Verif Require DocsSpec Tree View ViewProofs ViewMap.
Import ListNotations.
Local Open Scope nat_scope.

Section More.
Context {D R A : Type}.
Variable cs : list (list D).
Variable f : D -> option R.
Variable save : nat -> A -> list R -> option A.
Variable p : nat.
Variable a0 : A.
Notation chunk := (chunk cs).
Notation n := (n cs).
Notation step := (step cs f save p).
Notation steps := (steps cs f save p).
Notation headers := (headers cs).
Notation sent := (sent cs).
Notation inv := (inv cs f save p a0).
Notation saved := (saved cs f save a0).
Notation mapped := (mapped cs f).
Notation fails := (fails f).

Lemma headers_n s : inv s -> headers (s_g s) <= n.
Proof. intros I0. pose proof (v_g _ _ _ _ _ _ I0) as G. destruct (s_g s); cbn in *; lia. Qed.
Lemma sent_le g k : inv_g cs f p g (MWait (R := R) 0) \/ (exists m : @mapper R, inv_g cs f p g m) -> sent g k <= length (chunk k).
Proof.
  intros H. assert (X : exists m : @mapper R, inv_g cs f p g m) by (destruct H as [H|H]; [eexists; exact H|exact H]). destruct X as (m & X).
  destruct g as [j|j i| |j|j]; cbn in *; try lia; destruct (Nat.eqb_spec k j) as [->|]; lia.
Qed.

(* ----- every schedule ends ----- *)
Definition gcost (l : list (list D)) : nat := list_sum (map (fun c => length c + 2) l).
Definition mcost (l : list (list D)) : nat := list_sum (map (fun c => length c + p + 4) l).
Lemma gcost_cons c l : gcost (c :: l) = length c + 2 + gcost l.
Proof. reflexivity. Qed.
Lemma mcost_cons c l : mcost (c :: l) = length c + p + 4 + mcost l.
Proof. reflexivity. Qed.
Definition mu_g (g : gen) : nat :=
  match g with
  | GHead k => gcost (skipn k cs) + 1
  | GDoc k i => gcost (skipn (Datatypes.S k) cs) + 2 + (length (chunk k) - i)
  | _ => 0
  end.
Definition mu_m (m : @mapper R) : nat :=
  match m with
  | MWait k => mcost (skipn k cs) + 1
  | MWork k t ws => mcost (skipn (Datatypes.S k) cs) + 4 + (length (chunk k) - t) + length (filter running ws)
  | MSend k _ => mcost (skipn (Datatypes.S k) cs) + 3
  | _ => 0
  end.
Definition mu (s : @st R A) : nat := mu_g (s_g s) + mu_m (s_m s) + length (s_q s) + match s_s s with SWait _ _ => 1 | _ => 0 end.

Lemma skipn_chunk k : k < n -> skipn k cs = chunk k :: skipn (Datatypes.S k) cs.
Proof.
  unfold MapPipeline.n, MapPipeline.chunk. revert k. induction cs as [|c l IH]; intros [|k] H; cbn in *; try lia; [reflexivity|]. rewrite IH by lia. reflexivity.
Qed.
Lemma rep_running x : length (filter running (repeat (@WRun R []) x)) = x.
Proof. induction x as [|x IH]; [reflexivity|cbn; rewrite IH; reflexivity]. Qed.
Lemma step_mu s s' : inv s -> step s s' -> mu s' < mu s.
Proof.
  intros I0 St0. pose proof (headers_n _ I0) as HN. pose proof (v_order _ _ _ _ _ _ I0) as O. pose proof (v_g _ _ _ _ _ _ I0) as G. pose proof (v_m _ _ _ _ _ _ I0) as M.
  assert (SL : forall k, sent (s_g s) k <= length (chunk k)) by (intros k; apply sent_le; right; eexists; exact G).
  destruct St0 as [k m q s Hk Hr|k i m q s Hi Hd|k i m q s Hi Hd|k m q s|m q s|k m q s|k g q s Hk|k g q s Hk Hg|k t ws1 r ws2 d x g q s Ht Hn Hf|k t ws1 r ws2 d g q s Ht Hn Hf|k t ws1 r ws2 g q s Ht Hc|k t ws g q s Er Ef|k t ws g q s Er Ef|k r g q s Hq|k a r q a' g m Hl Hs|k a r q g m Hl Hs|k a r q g m Hl|k a g m Hm];
    unfold mu; cbn [s_g s_m s_q s_s mu_g mu_m length].
  - rewrite (skipn_chunk k Hk). rewrite gcost_cons. lia.
  - lia.
  - lia.
  - lia.
  - lia.
  - lia.
  - cbn [s_g] in HN. rewrite (skipn_chunk k) by lia. rewrite mcost_cons, rep_running. lia.
  - lia.
  - specialize (SL k). cbn [s_g] in SL. rewrite !filter_app_len. cbn [filter running length]. lia.
  - specialize (SL k). cbn [s_g] in SL. rewrite !filter_app_len. cbn [filter running length]. lia.
  - rewrite !filter_app_len. cbn [filter running length]. lia.
  - lia.
  - lia.
  - rewrite app_length. cbn [length]. lia.
  - lia.
  - lia.
  - lia.
  - lia.
Qed.

(* ----- some thread can move ----- *)
Definition late_map : Prop := forall k d, In d (chunk k) -> f d = None -> n <= k + 2.
Definition late_save : Prop := forall k a r, saved k a -> mapped k r -> save k a r = None -> n <= k + 2.

Lemma doc_moves k i m q s : inv (St (GDoc k i) m q s) -> exists s', step (St (GDoc k i) m q s) s'.
Proof.
  intros I0. pose proof (v_g _ _ _ _ _ _ I0) as G. cbn in G. destruct (Nat.eq_dec i (length (chunk k))) as [->|Ni]; [eexists; apply g_next|].
  destruct (dropped m k) eqn:Dr; eexists; [eapply g_unwrap|eapply g_doc]; try exact Dr; unfold MapPipeline.chunk in *; lia.
Qed.
Lemma mapper_moves g m q s : inv (St g m q s) -> (forall k r, m = MSend k r -> q = []) -> m_ended m = false -> exists s', step (St g m q s) s'.
Proof.
  intros I0 Hs Me. pose proof (v_order _ _ _ _ _ _ I0) as O. pose proof (v_g _ _ _ _ _ _ I0) as G. pose proof (v_m _ _ _ _ _ _ I0) as M. pose proof (headers_n _ I0) as HN. cbn [s_g s_m] in *.
  assert (SL : forall k, sent g k <= length (chunk k)) by (intros k; apply sent_le; right; eexists; exact G).
  destruct m as [k|k t ws|k r|k|k]; cbn in Me; try discriminate.
  - cbn in O. destruct (Nat.ltb_spec k (headers g)) as [H|H]; [eexists; apply m_recv; exact H|]. destruct (g_ended g) eqn:Ge; [eexists; apply m_end; [exact H|exact Ge]|].
    destruct g as [j|j i| |j|j]; try discriminate.
    + cbn in *. destruct (Nat.eq_dec j n) as [->|Nj]; [eexists; apply g_end|]. eexists. apply g_head; cbn; lia.
    + apply doc_moves. exact I0.
  - destruct (existsb running ws) eqn:Er.
    + apply existsb_exists in Er. destruct Er as (w & Hw & Rw). destruct w as [r|r|]; try discriminate. apply in_split in Hw. destruct Hw as (ws1 & ws2 & ->).
      destruct (Nat.ltb_spec t (sent g k)) as [H|H].
      * specialize (SL k). destruct (nth_error (chunk k) t) as [d|] eqn:Nd; [|apply nth_error_None in Nd; lia].
        destruct (f d) as [x|] eqn:Fd; eexists; [eapply m_take|eapply m_fail]; eassumption.
      * destruct (closed g k) eqn:Cl; [eexists; apply m_stop; assumption|]. destruct g as [j|j i| |j|j]; try discriminate. apply doc_moves. exact I0.
    + destruct (existsb failed ws) eqn:Ef; eexists; [apply m_give_up|apply m_join]; assumption.
  - rewrite (Hs k r eq_refl) in *. eexists. apply m_send. cbn. lia.
Qed.
Lemma progress s : 0 < p -> late_map -> late_save -> inv s -> returned s = false -> exists s', step s s'.
Proof.
  intros Hp LM LS I0 Nr. destruct s as [g m q s]. pose proof (v_order _ _ _ _ _ _ I0) as O. pose proof (v_g _ _ _ _ _ _ I0) as G. pose proof (v_m _ _ _ _ _ _ I0) as M. pose proof (v_q _ _ _ _ _ _ I0) as Q. pose proof (v_s _ _ _ _ _ _ I0) as SV. pose proof (headers_n _ I0) as HN.
  unfold returned in Nr. cbn [s_g s_m s_q s_s] in *.
  (* the mapper has ended: the generator can end *)
  assert (GE : m_ended m = true -> g_ended g = false -> exists s', step (St g m q s) s').
  { intros Me Ge. destruct g as [j|j i| |j|j]; try discriminate; [|apply doc_moves; exact I0].
    cbn in *. destruct (Nat.eq_dec j n) as [->|Nj]; [eexists; apply g_end|]. destruct m as [k|k t ws|k r|k|k]; try discriminate; cbn in *.
    - destruct M as (_ & X). discriminate.
    - destruct M as ((d & Hd & Fd) & _). specialize (LM k d Hd Fd). eexists. apply g_head; cbn; lia. }
  destruct s as [k a|k a|k|k].
  - cbn [inv_s] in SV. destruct SV as (S1 & S2 & S3). destruct q as [|r q].
    + destruct (m_ended m) eqn:Me; [eexists; apply s_end; exact Me|]. apply mapper_moves; [exact I0|reflexivity|exact Me].
    + assert (LR : length r <= length (chunk k)).
      { destruct (S3 r (or_introl eq_refl)) as [(rs & M1 & M2)|(_ & ->)]; [|cbn; lia]. apply Permutation_length in M2. apply (f_equal (@length _)) in M1. rewrite !map_length in M1. lia. }
      destruct (Nat.eq_dec (length r) (length (chunk k))) as [El|Nl]; [|eexists; eapply s_unwrap; lia].
      destruct (save k a r) as [a'|] eqn:Sv; eexists; [eapply s_save|eapply s_fail]; eassumption.
  - cbn in SV, Nr. destruct SV as (_ & _ & -> & Me). rewrite Me in Nr. apply GE; [exact Me|]. destruct (g_ended g); [discriminate|reflexivity].
  - cbn in SV, Nr. destruct SV as (S1 & a & r & S2 & S3 & S4). specialize (LS _ _ _ S2 S3 S4). destruct (m_ended m) eqn:Me.
    + apply GE; [reflexivity|]. destruct (g_ended g); [discriminate|reflexivity].
    + apply mapper_moves; [exact I0| |exact Me]. intros j r' ->. cbn in *. destruct q as [|y q]; [reflexivity|]. cbn in *. lia.
  - cbn in SV, Nr. destruct SV as (-> & S1). destruct (m_ended m) eqn:Me; [cbn in Nr; discriminate|].
    apply mapper_moves; [exact I0| |exact Me]. intros j r' ->. cbn in *. destruct q as [|y q]; [reflexivity|]. cbn in *. lia.
Qed.

Lemma saved_prefix k a : saved k a -> forall j, j < k -> exists b r b', saved j b /\ mapped j r /\ save j b r = Some b'.
Proof.
  intros H. induction H as [|k a r a' H IH M S]; intros j Hj; [lia|]. destruct (Nat.eq_dec j k) as [->|Nj]; [exists a, r, a'; split; [exact H|split; assumption]|apply IH; lia].
Qed.
Lemma mapped_none k d : In d (chunk k) -> f d = None -> forall rs, map f (chunk k) = map Some rs -> False.
Proof.
  intros Hd Fd rs E. apply (in_map f) in Hd. rewrite E, Fd in Hd. apply in_map_iff in Hd. destruct Hd as (x & X & _). discriminate.
Qed.
End More.

(* ================= C88 ================= *)
(* [saved cs f save a0 k a]: starting from a0, batches 0..k-1 were saved in order,
   each once, with the results of all its documents in some order. *)

(* Whatever the schedule: when map() answers Ok, all batches were saved. *)
Theorem C88_result : forall D R A (cs : list (list D)) (f : D -> option R) (save : nat -> A -> list R -> option A) p a0 s a,
  0 < p -> steps cs f save p (init a0) s -> returned s = true -> answer s = Done a -> saved cs f save a0 (length cs) a.
Proof.
  intros D R A cs f save p a0 s a Hp St0 Re An. pose proof (inv_steps cs f save p a0 Hp s St0) as I0. pose proof (v_m _ _ _ _ _ _ I0) as M. pose proof (v_s _ _ _ _ _ _ I0) as S.
  destruct s as [g m q s]. unfold answer in An. cbn in *. destruct g; try discriminate; destruct s; try discriminate. destruct m; try discriminate. injection An as ->. cbn in *. destruct M as (-> & _). destruct S as (S & -> & _). exact S.
Qed.
(* Also while it runs, what was saved is a prefix of the batches. *)
Theorem C88_saved_in_order : forall D R A (cs : list (list D)) (f : D -> option R) (save : nat -> A -> list R -> option A) p a0 s k a,
  0 < p -> steps cs f save p (init a0) s -> s_s s = SWait k a -> saved cs f save a0 k a /\ k <= length cs.
Proof.
  intros D R A cs f save p a0 s k a Hp St0 E. pose proof (inv_steps cs f save p a0 Hp s St0) as I0. pose proof (v_s _ _ _ _ _ _ I0) as S. pose proof (v_order _ _ _ _ _ _ I0) as O. pose proof (headers_n _ _ _ _ _ _ I0) as HN. rewrite E in S. cbn in S. destruct S as (S & L & _). split; [exact S|].
  unfold n in HN. destruct (s_m s); cbn in *; lia.
Qed.
(* No schedule goes on forever. *)
Theorem C88_ends : forall D R A (cs : list (list D)) (f : D -> option R) (save : nat -> A -> list R -> option A) p a0 (sched : nat -> st),
  0 < p -> sched 0 = init a0 -> ~ (forall i, step cs f save p (sched i) (sched (Datatypes.S i))).
Proof.
  intros D R A cs f save p a0 sched Hp E0 H.
  assert (ST : forall i, steps cs f save p (init a0) (sched i)).
  { induction i as [|i IH]; [rewrite E0; constructor|]. econstructor; [exact IH|apply H]. }
  assert (MU : forall i, mu cs p (sched i) + i <= mu cs p (sched 0)).
  { induction i as [|i IH]; [lia|]. pose proof (step_mu cs f save p a0 _ _ (inv_steps cs f save p a0 Hp _ (ST i)) (H i)). lia. }
  specialize (MU (Datatypes.S (mu cs p (sched 0)))). lia.
Qed.
(* It ends by returning, and never stops before, if a failure can occur only in the
   last two batches: whatever happened so far, some thread can go on. *)
Theorem C88_no_hang : forall D R A (cs : list (list D)) (f : D -> option R) (save : nat -> A -> list R -> option A) p a0 s,
  0 < p ->
  (forall k d, In d (nth k cs []) -> f d = None -> length cs <= k + 2) ->
  (forall k a r, saved cs f save a0 k a -> mapped cs f k r -> save k a r = None -> length cs <= k + 2) ->
  steps cs f save p (init a0) s -> returned s = false -> exists s', step cs f save p s s'.
Proof. intros D R A cs f save p a0 s Hp LM LS St0 Nr. exact (progress cs f save p a0 s Hp LM LS (inv_steps cs f save p a0 Hp s St0) Nr). Qed.
(* Without failures (and I/O errors) the answer is Ok. *)
Theorem C88_success : forall D R A (cs : list (list D)) (f : D -> option R) (save : nat -> A -> list R -> option A) p a0 s,
  0 < p -> (forall k d, In d (nth k cs []) -> f d <> None) -> (forall k a r, saved cs f save a0 k a -> mapped cs f k r -> save k a r <> None) ->
  steps cs f save p (init a0) s -> returned s = true -> (forall k, s_g s <> GErr k) -> exists a, answer s = Done a /\ saved cs f save a0 (length cs) a.
Proof.
  intros D R A cs f save p a0 s Hp FM FS St0 Re NG. pose proof (inv_steps cs f save p a0 Hp s St0) as I0. pose proof (v_m _ _ _ _ _ _ I0) as M. pose proof (v_s _ _ _ _ _ _ I0) as S. pose proof (v_g _ _ _ _ _ _ I0) as G.
  destruct s as [g m q s]. unfold returned in Re. cbn in *.
  destruct g as [k|k i| |k|k]; try discriminate; [|exfalso; apply (NG k); reflexivity|].
  - destruct m as [k|k t ws|k r|k|k]; try discriminate.
    + destruct s as [j a|j a|j|j]; try discriminate.
      * exists a. cbn in *. split; [reflexivity|]. destruct M as (-> & _). destruct S as (S & -> & _). exact S.
      * exfalso. cbn in S. destruct S as (_ & a & r & S1 & S2 & S3). exact (FS _ _ _ S1 S2 S3).
      * exfalso. cbn in S. destruct S as (X & _). discriminate.
    + exfalso. cbn in M. destruct M as ((d & Hd & Fd) & _). exact (FM _ _ Hd Fd).
  - exfalso. cbn in G. destruct G as (_ & -> & _). cbn in M. destruct M as ((d & Hd & Fd) & _). exact (FM _ _ Hd Fd).
Qed.
(* A panic comes only from an I/O error or from a batch in which every worker met a
   failing document. *)
Theorem C88_no_panic : forall D R A (cs : list (list D)) (f : D -> option R) (save : nat -> A -> list R -> option A) p a0 s,
  0 < p -> steps cs f save p (init a0) s -> answer s = Panic ->
  (exists k, s_g s = GErr k) \/ (exists k, p <= length (filter (fun d => match f d with None => true | Some _ => false end) (nth k cs []))).
Proof.
  intros D R A cs f save p a0 s Hp St0 An. pose proof (inv_steps cs f save p a0 Hp s St0) as I0. pose proof (v_s _ _ _ _ _ _ I0) as S. pose proof (v_g _ _ _ _ _ _ I0) as G.
  destruct s as [g m q s]. unfold answer in An. cbn in *. destruct g as [k|k i| |k|k].
  - destruct s; try discriminate. cbn in S. destruct S as (X & _). discriminate.
  - destruct s; try discriminate. cbn in S. destruct S as (X & _). discriminate.
  - destruct s; try discriminate. + destruct m; discriminate. + cbn in S. destruct S as (X & _). discriminate.
  - left. exists k. reflexivity.
  - right. exists k. cbn in G. apply G.
Qed.

(* A document whose map fails, with at least two more batches behind its own: no
   schedule returns, however long one waits (unless an I/O error or a panic ends the
   generator), so the job, its callers and the transaction's locks are stuck. *)
Theorem C88_map_error_hangs : forall D R A (cs : list (list D)) (f : D -> option R) (save : nat -> A -> list R -> option A) p a0 s k d,
  In d (nth k cs []) -> f d = None -> k + 2 < length cs ->
  (forall j, length (filter (fun d => match f d with None => true | Some _ => false end) (nth j cs [])) < p) ->
  steps cs f save p (init a0) s -> (forall j, s_g s <> GErr j) -> returned s = false.
Proof.
  intros D R A cs f save p a0 s k d Hd Fd Hk Few St0 NG. assert (Hp : 0 < p) by (specialize (Few k); lia). destruct (returned s) eqn:Re; [exfalso|reflexivity].
  pose proof (inv_steps cs f save p a0 Hp s St0) as I0. pose proof (v_m _ _ _ _ _ _ I0) as M. pose proof (v_g _ _ _ _ _ _ I0) as G. pose proof (v_order _ _ _ _ _ _ I0) as O. pose proof (v_ok _ _ _ _ _ _ I0) as K.
  assert (FR : forall j, j < sentm (s_m s) -> j <> k).
  { intros j Hj ->. destruct (K k Hj) as [(rs & E)|E]; [exact (mapped_none cs f k d Hd Fd rs E)|exact (NG k E)]. }
  destruct s as [g m q s]. unfold returned in Re. cbn [s_g s_m s_q s_s] in *. unfold n in *.
  destruct g as [j|j i| |j|j]; try discriminate.
  - cbn in O. unfold n in O. destruct m as [i|i t ws|i r|i|i]; try discriminate; cbn in *.
    + destruct M as (-> & _). apply (FR k); [unfold n; lia|reflexivity].
    + assert (~ k < i) by (intros X; apply (FR k X); reflexivity). lia.
  - exact (NG j eq_refl).
  - cbn in G. destruct G as (_ & _ & G). specialize (Few j). unfold MapPipelineProofs.fails, chunk in G. lia.
Qed.
(* The same for an error of reduce (or of the stored entries) while saving batch k. *)
Theorem C88_save_error_hangs : forall D R A (cs : list (list D)) (f : D -> option R) (save : nat -> A -> list R -> option A) p a0 s k,
  0 < p -> (forall j d, In d (nth j cs []) -> f d <> None) ->
  (forall a r, saved cs f save a0 k a -> mapped cs f k r -> save k a r = None) -> k + 2 < length cs ->
  steps cs f save p (init a0) s -> (forall j, s_g s <> GErr j) -> returned s = false.
Proof.
  intros D R A cs f save p a0 s k Hp FM Sk Hk St0 NG. destruct (returned s) eqn:Re; [exfalso|reflexivity].
  pose proof (inv_steps cs f save p a0 Hp s St0) as I0. pose proof (v_m _ _ _ _ _ _ I0) as M. pose proof (v_g _ _ _ _ _ _ I0) as G. pose proof (v_q _ _ _ _ _ _ I0) as Q. pose proof (v_s _ _ _ _ _ _ I0) as S.
  destruct s as [g m q s]. unfold returned in Re. cbn [s_g s_m s_q s_s] in *.
  assert (SP : forall j a, saved cs f save a0 j a -> j <= k).
  { intros j a Sa. destruct (Nat.le_gt_cases j k) as [X|X]; [exact X|]. destruct (saved_prefix _ _ _ _ _ _ Sa k X) as (b & r & b' & S1 & S2 & S3). rewrite (Sk _ _ S1 S2) in S3. discriminate. }
  destruct g as [j|j i| |j|j]; try discriminate.
  - destruct m as [i|i t ws|i r|i|i]; try discriminate; cbn in *.
    + destruct M as (-> & _). unfold n in *. destruct s as [j a|j a|j|j]; cbn in *; try discriminate.
      * destruct S as (S & -> & _). specialize (SP _ _ S). lia.
      * destruct S as (S1 & a & r & S2 & _). specialize (SP _ _ S2). lia.
      * destruct S as (X & _). discriminate.
    + destruct M as ((d & Hd & Fd) & _). exact (FM _ _ Hd Fd).
  - exact (NG j eq_refl).
  - cbn in G. destruct G as (_ & -> & _). cbn in M. destruct M as ((d & Hd & Fd) & _). exact (FM _ _ Hd Fd).
Qed.

(* ---------- the pipeline of a view ---------- *)
(* The pipeline of DocumentRequest::map with the functions of View.v: batches of
   1024 ids with their documents, the view's map function, and save_mappings. *)
Definition view_batches (docs : Tree.tree View.doc) (ids : list bytes) := map (View.load_docs docs) (View.chunks View.batch_size ids).
Definition view_save (vd : View.vdef) (k : nat) (vs : View.vstate) (rs : list View.mapped) : option View.vstate :=
  match View.apply_batch vd vs rs with Done v => Some v | _ => None end.

Lemma shuffle_of {B} (r rs : list B) : Permutation r rs -> exists sh : list B -> list B, ViewMap.permutes sh /\ sh rs = r.
Proof.
  intros P. destruct rs as [|d rs'] eqn:Ers.
  - apply Permutation_sym, Permutation_nil in P. subst r. exists (fun l => l). split; [intros l; apply Permutation_refl|reflexivity].
  - rewrite <- Ers in *. clear Ers rs'. apply Permutation_sym in P. apply (Permutation_nth rs r d) in P. cbv zeta in P. destruct P as (L & g & B1 & B2 & N).
    exists (fun l => if length l =? length rs then map (fun i => nth (g i) l d) (seq 0 (length rs)) else l). split.
    + intros l. destruct (Nat.eqb_spec (length l) (length rs)) as [E|E]; [|apply Permutation_refl]. apply Permutation_sym, (Permutation_nth _ _ d). cbv zeta. rewrite map_length, seq_length.
      split; [congruence|]. exists g. rewrite E. split; [exact B1|]. split; [exact B2|]. intros x Hx.
      rewrite (nth_indep _ d (nth (g 0) l d)) by (rewrite map_length, seq_length; exact Hx). rewrite (map_nth (fun i => nth (g i) l d)). rewrite seq_nth by exact Hx. reflexivity.
    + rewrite Nat.eqb_refl. apply (nth_ext _ _ d d); [rewrite map_length, seq_length; congruence|]. rewrite map_length, seq_length. intros x Hx.
      rewrite (nth_indep _ d (nth (g 0) rs d)) by (rewrite map_length, seq_length; exact Hx). rewrite (map_nth (fun i => nth (g i) rs d)). rewrite seq_nth by exact Hx. symmetry. apply N, Hx.
Qed.
Lemma map_docs_all vd ps : forall rs, map (View.map_doc vd) ps = map Some rs -> View.map_docs vd ps = Some rs.
Proof.
  induction ps as [|q r IH]; intros [|x rs]; cbn; try discriminate; [reflexivity|]. intros [= E1 E2]. rewrite E1, (IH _ E2). reflexivity.
Qed.
Lemma nth_view docs bs k : k < length bs -> nth k (map (View.load_docs docs) bs) [] = View.load_docs docs (nth k bs []).
Proof. intros H. rewrite (nth_indep _ [] (View.load_docs docs [])) by (rewrite map_length; exact H). apply map_nth. Qed.

Lemma saved_view vd docs bs vs : ViewMap.docs_ok docs -> Forall Tree.sorted bs -> NoDup (concat bs) -> ViewProofs.vs_ok vd vs -> forall k vs',
  saved (map (View.load_docs docs) bs) (View.map_doc vd) (view_save vd) vs k vs' -> k <= length bs ->
  ViewProofs.vs_ok vd vs' /\ View.vs_invalid vs' = View.vs_invalid vs /\ (forall id, In id (concat (firstn k bs)) -> ViewMap.fresh vd docs vs' id) /\
  (forall id key, ~ In id (concat (firstn k bs)) -> ViewProofs.find_map id (ViewProofs.at_key (View.vs_entries vs') key) = ViewProofs.find_map id (ViewProofs.at_key (View.vs_entries vs) key)).
Proof.
  intros DO SB ND OK k vs' H. induction H as [|k a r a' H IH (rs & M1 & M2) Sv]; intros Lk.
  - cbn. split; [exact OK|]. split; [reflexivity|]. split; [intros id []|reflexivity].
  - destruct (IH ltac:(lia)) as (OK1 & I1 & F1 & O1). unfold chunk in M1. rewrite nth_view in M1 by lia. destruct (shuffle_of r rs M2) as (sh & Psh & Esh).
    unfold view_save in Sv. destruct (View.apply_batch vd a r) as [v| |] eqn:Ab; try discriminate. injection Sv as ->.
    assert (MB : View.map_batch sh vd docs (nth k bs []) a = Done a') by (unfold View.map_batch; rewrite (map_docs_all _ _ _ M1), Esh; exact Ab).
    assert (Sk : Tree.sorted (nth k bs [])) by (rewrite Forall_forall in SB; apply SB, nth_In; lia).
    destruct (ViewMap.map_batch_spec _ _ _ _ _ _ Psh OK1 DO Sk MB) as (OK2 & I2 & F2 & O2).
    assert (FS : concat (firstn (Datatypes.S k) bs) = concat (firstn k bs) ++ nth k bs []).
    { rewrite (firstn_snoc bs k (nth k bs [])) by (apply nth_error_nth'; lia). rewrite concat_app. cbn. rewrite app_nil_r. reflexivity. }
    rewrite FS. split; [exact OK2|]. split; [congruence|]. split.
    + intros id Hid. apply in_app_or in Hid. destruct Hid as [Hid|Hid]; [|apply F2, Hid]. eapply ViewMap.fresh_same; [|apply F1, Hid]. intros key. apply O2. intros X.
      rewrite <- (firstn_skipn (Datatypes.S k) bs), concat_app, FS in ND. clear - ND Hid X. revert ND Hid. induction (concat (firstn k bs)) as [|y l IHl]; intros ND Hid; [destruct Hid|].
      cbn in ND. inversion ND as [|? ? N1 N2]; subst. destruct Hid as [->|Hid]; [apply N1; apply in_or_app; left; apply in_or_app; right; exact X|exact (IHl N2 Hid)].
    + intros id key Hid. rewrite O2, O1; [reflexivity| |]; intros X; apply Hid; apply in_or_app; auto.
Qed.
(* Whatever the schedule, when mapping the documents ids of a view answers Ok, the
   view's entries for these documents are exactly what the map function says about
   the stored documents, and nothing else has changed. *)
Theorem C88_view : forall vd docs ids vs p s vs', 0 < p -> ViewMap.docs_ok docs -> Tree.sorted ids -> ViewProofs.vs_ok vd vs ->
  steps (view_batches docs ids) (View.map_doc vd) (view_save vd) p (init vs) s -> returned s = true -> answer s = Done vs' ->
  ViewProofs.vs_ok vd vs' /\ View.vs_invalid vs' = View.vs_invalid vs /\ (forall id, In id ids -> ViewMap.fresh vd docs vs' id) /\
  (forall id key, ~ In id ids -> ViewProofs.find_map id (ViewProofs.at_key (View.vs_entries vs') key) = ViewProofs.find_map id (ViewProofs.at_key (View.vs_entries vs) key)).
Proof.
  intros vd docs ids vs p s vs' Hp DO SI OK St0 Re An. pose proof (C88_result _ _ _ _ _ _ _ _ _ _ Hp St0 Re An) as Sv. unfold view_batches in Sv. rewrite map_length in Sv.
  assert (C : concat (View.chunks View.batch_size ids) = ids) by (apply ViewMap.chunks_concat; unfold View.batch_size; lia).
  pose proof (saved_view vd docs (View.chunks View.batch_size ids) vs DO (ViewMap.chunks_sorted _ _ SI) ltac:(rewrite C; apply Tree.sorted_NoDup, SI) OK _ _ Sv ltac:(lia)) as X.
  rewrite firstn_all, C in X. exact X.
Qed.

(* ---------- examples ---------- *)
(* documents are numbers, 0 does not map; saving collects *)
Definition ex_f (d : nat) : option nat := match d with O => None | _ => Some d end.
Definition ex_save (k : nat) (a : list nat) (r : list nat) : option (list nat) := Some (a ++ r).
Lemma steps_trans {D R A} (cs : list (list D)) (f : D -> option R) (save : nat -> A -> list R -> option A) p s1 s2 s3 : steps cs f save p s1 s2 -> steps cs f save p s2 s3 -> steps cs f save p s1 s3.
Proof. intros H1 H2. induction H2; [exact H1|]. econstructor; [apply IHsteps, H1|eassumption]. Qed.
Ltac go tac := eapply steps_trans; [eapply st_step; [apply st_refl|tac]|cbn].
(* a batch of two documents, two workers, the second worker's result first *)
Example C88_example : exists s, steps [[1; 2]] ex_f ex_save 2 (init []) s /\ returned s = true /\ answer s = Done [2; 1] /\
  (forall k d, In d (nth k [[1; 2]] []) -> ex_f d <> None).
Proof.
  eexists. split.
  - unfold init. go ltac:(apply g_head; cbn; lia). go ltac:(apply g_doc; [cbn; lia|reflexivity]). go ltac:(apply m_recv; cbn; lia). cbn.
    go ltac:(eapply (m_take _ _ _ _ 0 0 [WRun []] [] [] 1 1); [cbn; lia|reflexivity|reflexivity]). go ltac:(apply g_doc; [cbn; lia|reflexivity]).
    go ltac:(eapply (m_take _ _ _ _ 0 1 [] [] [WRun [1]] 2 2); [cbn; lia|reflexivity|reflexivity]).
    go ltac:(apply (g_next [[1; 2]] ex_f ex_save 2 0)). go ltac:(eapply (m_stop _ _ _ _ 0 2 [] [2] [WRun [1]]); [cbn; lia|reflexivity]). go ltac:(eapply (m_stop _ _ _ _ 0 2 [WEnd [2]] [1] []); [cbn; lia|reflexivity]).
    go ltac:(apply m_join; reflexivity). go ltac:(apply m_send; cbn; lia). go ltac:(eapply (s_save _ _ _ _ 0 [] [2; 1] []); reflexivity). go ltac:(apply (g_end [[1; 2]] ex_f ex_save 2)). go ltac:(apply m_end; cbn; [lia|reflexivity]). go ltac:(apply s_end; reflexivity). apply st_refl.
  - split; [reflexivity|]. split; [reflexivity|]. intros [|[|k]] d; cbn; [|intros []..]. intros [<-|[<-|[]]]; discriminate.
Qed.
(* the hypotheses of the hang: three batches, one bad document in the first, two
   workers *)
Example C88_hang_example : In 0 (nth 0 [[0; 1]; [2]; [3]] []) /\ ex_f 0 = None /\ 0 + 2 < length [[0; 1]; [2]; [3]] /\
  (forall j, length (filter (fun d => match ex_f d with None => true | Some _ => false end) (nth j [[0; 1]; [2]; [3]] [])) < 2).
Proof. split; [left; reflexivity|]. split; [reflexivity|]. split; [cbn; lia|]. intros [|[|[|[|j]]]]; cbn; lia. Qed.
(* .. and the stuck state itself: the generator wants to send the third header, the
   mapper and the saver have ended *)
Definition stuck : @st nat (list nat) := St (GHead 2) (MErr 0) [] (SDone 0 []).
Theorem C88_always_returns_refuted : exists s, steps [[0; 1]; [2]; [3]] ex_f ex_save 2 (init []) s /\ returned s = false /\ (forall s', ~ step [[0; 1]; [2]; [3]] ex_f ex_save 2 s s').
Proof.
  exists stuck. split; [|split; [reflexivity|]].
  - unfold init, stuck. go ltac:(apply g_head; cbn; lia). go ltac:(apply g_doc; [cbn; lia|reflexivity]). go ltac:(apply g_doc; [cbn; lia|reflexivity]). go ltac:(apply (g_next [[0; 1]; [2]; [3]] ex_f ex_save 2 0)). go ltac:(apply m_recv; cbn; lia). cbn.
    go ltac:(eapply (m_fail _ _ _ _ 0 0 [] [] [WRun []] 0); [cbn; lia|reflexivity|reflexivity]). go ltac:(eapply (m_take _ _ _ _ 0 1 [WErr] [] [] 1 1); [cbn; lia|reflexivity|reflexivity]).
    go ltac:(eapply (m_stop _ _ _ _ 0 2 [WErr] [1] []); [cbn; lia|reflexivity]). go ltac:(apply m_give_up; reflexivity). go ltac:(apply s_end; reflexivity).
    go ltac:(apply g_head; cbn; lia). go ltac:(apply g_doc; [cbn; lia|reflexivity]). go ltac:(apply (g_next [[0; 1]; [2]; [3]] ex_f ex_save 2 1)). apply st_refl.
  - intros s' H. unfold stuck in H. inversion H; subst; cbn in *; lia.
Qed.
(* one worker: its first failure drops the batch's receiver while the generator is
   still sending documents, and its unwrap panics *)
Theorem C88_map_error_panic_refuted : exists s, steps [[0; 1]] ex_f ex_save 1 (init []) s /\ returned s = true /\ answer s = Panic.
Proof.
  eexists. split.
  - unfold init. go ltac:(apply g_head; cbn; lia). go ltac:(apply g_doc; [cbn; lia|reflexivity]). go ltac:(apply m_recv; cbn; lia). cbn.
    go ltac:(eapply (m_fail _ _ _ _ 0 0 [] [] [] 0); [cbn; lia|reflexivity|reflexivity]). go ltac:(apply m_give_up; reflexivity). go ltac:(apply s_end; reflexivity). go ltac:(apply g_unwrap; [cbn; lia|reflexivity]). apply st_refl.
  - split; reflexivity.
Qed.
(* an I/O error of the generator reaches the caller as a panic of the saver *)
Theorem C88_io_error_panic_refuted : exists s, steps [[1]] ex_f ex_save 1 (init []) s /\ returned s = true /\ s_g s = GErr 0 /\ answer s = Panic.
Proof.
  eexists. split.
  - unfold init. go ltac:(apply g_head; cbn; lia). go ltac:(apply (g_io _ _ _ _ 0)). go ltac:(apply m_recv; cbn; lia). cbn. go ltac:(eapply (m_stop _ _ _ _ 0 0 [] [] []); [cbn; lia|reflexivity]).
    go ltac:(apply m_join; reflexivity). go ltac:(apply m_send; cbn; lia). go ltac:(eapply s_unwrap; cbn; lia). go ltac:(apply m_end; cbn; [lia|reflexivity]). apply st_refl.
  - split; [reflexivity|]. split; reflexivity.
Qed.
(* parallelization 0: no worker takes any document, and the saver panics *)
Theorem C88_zero_workers_refuted : exists s, steps [[1]] ex_f ex_save 0 (init []) s /\ returned s = true /\ s_g s = GDone /\ answer s = Panic.
Proof.
  eexists. split.
  - unfold init. go ltac:(apply g_head; cbn; lia). go ltac:(apply g_doc; [cbn; lia|reflexivity]). go ltac:(apply (g_next [[1]] ex_f ex_save 0 0)). go ltac:(apply m_recv; cbn; lia). cbn.
    go ltac:(apply m_join; reflexivity). go ltac:(apply m_send; cbn; lia). go ltac:(eapply s_unwrap; cbn; lia). go ltac:(apply (g_end [[1]] ex_f ex_save 0)). go ltac:(apply m_end; cbn; [lia|reflexivity]). apply st_refl.
  - split; [reflexivity|]. split; reflexivity.
Qed.

(* a stored document mapped into the empty trees of a view, one worker *)
Definition ex_doc : View.doc := View.mk_doc (View.mk_header [1%N] (View.mk_rev 0%N [])) [7%N].
Definition ex_vd : View.vdef := View.mk_vdef View.Lazy (fun d => Some [(View.d_contents d, [])]) (fun _ => Fail View.ReduceUnimplemented) (fun _ => Fail View.ReduceUnimplemented).
Definition ex_mapped : View.mapped := ([1%N], [View.mk_em [7%N] (View.d_header ex_doc) []]).
Definition ex_vs : View.vstate := View.mk_vs [([7%N], View.mk_entry [View.mk_map (View.d_header ex_doc) []] [])] [([1%N], [[7%N]])] [].
Example C88_view_example : ViewMap.docs_ok [([1%N], ex_doc)] /\ Tree.sorted [[1%N]] /\ ViewProofs.vs_ok ex_vd View.empty_vs /\
  steps (view_batches [([1%N], ex_doc)] [[1%N]]) (View.map_doc ex_vd) (view_save ex_vd) 1 (init View.empty_vs) (St GDone (MDone 1) [] (SDone 1 ex_vs)).
Proof.
  split; [split; [exact I|]|].
  { intros id d. unfold Tree.t_get. destruct (bytes_eqb id [1%N]) eqn:E; [|discriminate]. apply bytes_eqb_spec in E. subst id. intros [= <-]. reflexivity. }
  split; [exact I|]. split; [apply DocsSpec.vs_ok_empty|].
  change (view_batches [([1%N], ex_doc)] [[1%N]]) with [[([1%N], Some ex_doc)]]. set (cs := [[([1%N], Some ex_doc)]]).
  assert (M : View.map_doc ex_vd ([1%N], Some ex_doc) = Some ex_mapped) by reflexivity.
  assert (A : view_save ex_vd 0 View.empty_vs [ex_mapped] = Some ex_vs) by (vm_compute; reflexivity).
  unfold init. eapply st_step; [|apply (s_end cs _ _ _ 1); reflexivity]. eapply st_step; [|apply (m_end cs _ _ _ 1); [cbn; lia|reflexivity]]. eapply st_step; [|apply (g_end cs)].
  eapply st_step; [|apply (s_save cs _ _ _ 0 View.empty_vs [ex_mapped] [] ex_vs); [reflexivity|exact A]]. eapply st_step; [|apply (m_send cs _ _ _ 0 [ex_mapped] _ []); cbn; lia].
  eapply st_step; [|apply (m_join cs _ _ _ 0 1 [WEnd [ex_mapped]]); reflexivity]. eapply st_step; [|apply (m_stop cs _ _ _ 0 1 [] [ex_mapped] []); [cbn; lia|reflexivity]].
  eapply st_step; [|apply (m_take cs _ _ _ 0 0 [] [] [] ([1%N], Some ex_doc) ex_mapped); [cbn; lia|reflexivity|exact M]]. eapply st_step; [|apply (m_recv cs (View.map_doc ex_vd) (view_save ex_vd) 1 0); cbn; lia].
  eapply st_step; [|apply (g_next cs _ _ _ 0)]. eapply st_step; [|apply (g_doc cs _ _ _ 0 0); [cbn; lia|reflexivity]]. eapply st_step; [|apply g_head; cbn; lia]. apply st_refl.
Qed.

Print Assumptions C88_result.
Print Assumptions C88_saved_in_order.
Print Assumptions C88_ends.
Print Assumptions C88_no_hang.
Print Assumptions C88_success.
Print Assumptions C88_no_panic.
Print Assumptions C88_map_error_hangs.
Print Assumptions C88_save_error_hangs.
Print Assumptions C88_view.
Print Assumptions C88_always_returns_refuted.
Print Assumptions C88_map_error_panic_refuted.
Print Assumptions C88_io_error_panic_refuted.
Print Assumptions C88_zero_workers_refuted.
