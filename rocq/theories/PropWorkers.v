(* C82: compaction and the pool of workers. *)
From Verif Require Import Base Names Jobs PropJobs Workers.
From Coq Require Import Lia Arith Permutation.
Local Open Scope nat_scope.

(* ---------- specification ---------- *)
(* the objects a database stores (C17): its key-values, and for every collection its documents,
   the versions of its views, and for every view three trees *)
Definition stores (S : schema) (o : object) : Prop :=
  match o with
  | KeyValues => True
  | Documents c | ViewVersions c => In c (sc_colls S)
  | ViewEntries v | ViewDocumentMap v | ViewInvalidated v => exists c, In c (sc_colls S) /\ In v (sc_views S c)
  end.
Definition stores_in (S : schema) (c : qname) (o : object) : Prop :=
  match o with
  | KeyValues => False
  | Documents d | ViewVersions d => d = c
  | ViewEntries v | ViewDocumentMap v | ViewInvalidated v => In v (sc_views S c)
  end.
(* the job that compacts the tree of one object *)
Definition tree_job (db : bytes) (o : object) : task :=
  Compaction db (match o with KeyValues => TKeyValue | Documents _ => VersionedTree (tree_name o) | _ => UnversionedTree (tree_name o) end).
(* encoded names are unique (C16), so a schema has one collection of a name *)
Definition names_unique (S : schema) : Prop := forall c d, In c (sc_colls S) -> In d (sc_colls S) -> q_encoded c = q_encoded d -> c = d.
(* nothing of this job in a stretch of the history *)
Definition quiet (k : task) (os : list obs) : Prop := (~ In (ORun (Some k)) os) /\ forall r, ~ In (ODone (Some k) r) os.
Definition reqs (os : list obs) : N := N.of_nat (length (filter is_req os)).
Definition composite (k : option task) : bool :=
  match k with Some (Compaction _ (TCollection _)) | Some (Compaction _ TDatabase) => true | _ => false end.
(* the compactions of a collection or a database that are queued or running *)
Definition compactions (s : wstate) : nat := length (filter (fun j => composite (mj_key j)) (live (w_jobs s))).
(* a worker's own steps: no new calls and no panics *)
Definition internal (e : wevent) : bool := match e with WRequest _ | WCrash _ => false | _ => true end.

(* ---------- lists ---------- *)
Lemma Forall2_nth {A B} (R : A -> B -> Prop) l m : Forall2 R l m -> forall i x, nth_error l i = Some x -> exists y, nth_error m i = Some y /\ R x y.
Proof. induction 1; intros [|i] z; cbn; try discriminate; eauto. intros [= <-]. eauto. Qed.
Lemma Forall2_nth' {A B} (R : A -> B -> Prop) l m : Forall2 R l m -> forall i y, nth_error m i = Some y -> exists x, nth_error l i = Some x /\ R x y.
Proof. induction 1; intros [|i] z; cbn; try discriminate; eauto. intros [= <-]. eauto. Qed.
Lemma Forall2_remove {A B} (R : A -> B -> Prop) l m : Forall2 R l m -> forall i, Forall2 R (remove_nth i l) (remove_nth i m).
Proof. induction 1; intros [|i]; cbn; auto. Qed.
Lemma Forall2_set {A B} (R : A -> B -> Prop) l m : Forall2 R l m -> forall i x y, nth_error l i = Some x -> R x y -> Forall2 R l (set_nth i y m).
Proof. induction 1; intros [|i] z w; cbn; try discriminate; [intros [= <-] H1|intros H1 H2]; constructor; eauto. Qed.
Lemma Forall2_weaken {A B} (R Q : A -> B -> Prop) l m : (forall x y, In x l -> R x y -> Q x y) -> Forall2 R l m -> Forall2 Q l m.
Proof. intros H F. induction F; constructor; [apply H; [left; reflexivity|assumption]|apply IHF; intros; apply H; [right; assumption|assumption]]. Qed.
Lemma In_remove_nth {A} (l : list A) : forall i x, In x (remove_nth i l) -> In x l.
Proof. induction l as [|y r IH]; intros [|i] x; cbn; try tauto. intros [->|H]; [tauto|right; eapply IH, H]. Qed.

Section Pool.
Context (W : nat) (SC : bytes -> schema).
Notation wstep := (wstep W SC). Notation wrun := (wrun W SC).

(* ---------- invariant ---------- *)
Definition asked (v : PropJobs.view) (os2 : list obs) (db : bytes) (x : target) (h : handle) : Prop :=
  In (h, Compaction db x) (waiting v) \/ exists r, In (h, r) (got v) /\ In (ODone (Some (Compaction db x)) r) os2.
Definition compacted (os2 : list obs) (db : bytes) (x : target) : Prop := exists n, In (ODone (Some (Compaction db x)) (Done n)) os2.
Definition pok (os : list obs) (j : mjob) (p : phase) : Prop :=
  match p with
  | Plain => start_phase SC (mj_key j) = Plain
  | Spawning rest hs => exists db t subs past os1 os2, mj_key j = Some (Compaction db t) /\ subtargets (SC db) t = Some subs /\
      subs = past ++ rest /\ rest <> [] /\ os = os1 ++ ORun (mj_key j) :: os2 /\ quiet (Compaction db t) os2 /\
      Forall2 (asked (observe_all os) os2 db) past hs
  | Receiving hs => exists db t subs past rest os1 os2, mj_key j = Some (Compaction db t) /\ subtargets (SC db) t = Some subs /\
      subs = past ++ rest /\ os = os1 ++ ORun (mj_key j) :: os2 /\ quiet (Compaction db t) os2 /\
      Forall (compacted os2 db) past /\ Forall2 (asked (observe_all os) os2 db) rest hs
  end.
Definition winv (s : wstate) (os : list obs) : Prop :=
  (exists es, run init es = Some (w_jobs s, os) /\ requests es = reqs os) /\ Forall2 (pok os) (s_running (w_jobs s)) (w_phases s).

Lemma observe_all_snoc os o : observe_all (os ++ [o]) = observe (observe_all os) o.
Proof. unfold observe_all. rewrite fold_left_app. reflexivity. Qed.
Lemma asked_step os os2 db x h o : asked (observe_all os) os2 db x h -> asked (observe_all (os ++ [o])) (os2 ++ [o]) db x h.
Proof.
  rewrite observe_all_snoc. intros [H|(r & G & H)].
  - destruct o as [k h'|k|[k|] r|k]; cbn [observe]; try (left; exact H).
    + left. cbn. apply in_app_iff. left. exact H.
    + destruct (task_eqb k (Compaction db x)) eqn:E.
      * right. exists r. apply task_eqb_spec in E. subst k. split; [|apply in_app_iff; right; left; reflexivity].
        cbn. apply in_app_iff. right. apply in_map_iff. exists (h, Compaction db x). split; [reflexivity|]. apply filter_In. split; [exact H|]. apply task_eqb_spec. reflexivity.
      * left. cbn. apply filter_In. split; [exact H|]. cbn. rewrite E. reflexivity.
  - right. exists r. split; [|apply in_app_iff; left; exact H]. destruct o as [k h'|k|[k|] r'|k]; cbn [observe]; try exact G. cbn. apply in_app_iff. left. exact G.
Qed.
Lemma pok_step os j p o : (forall k, mj_key j = Some k -> o <> ORun (Some k) /\ forall r, o <> ODone (Some k) r) -> pok os j p -> pok (os ++ [o]) j p.
Proof.
  intros Q. destruct p as [|rest hs|hs]; cbn [pok]; [tauto| |].
  - intros (db & t & subs & past & os1 & os2 & K & E & ES & N & EO & Qu & F). exists db, t, subs, past, os1, (os2 ++ [o]).
    destruct (Q _ K) as (Q1 & Q2). repeat (split; [assumption|]). split; [rewrite EO, <- app_assoc; reflexivity|]. split.
    + destruct Qu as (A & B). split; [|intros r]; rewrite in_app_iff; intros [X|[X|[]]]; try (exact (A X)); try (exact (B r X)); try (exact (Q1 X)); exact (Q2 r X).
    + revert F. apply Forall2_weaken. intros. apply asked_step. assumption.
  - intros (db & t & subs & past & rest & os1 & os2 & K & E & ES & EO & Qu & F1 & F). exists db, t, subs, past, rest, os1, (os2 ++ [o]).
    destruct (Q _ K) as (Q1 & Q2). repeat (split; [assumption|]). split; [rewrite EO, <- app_assoc; reflexivity|]. split.
    + destruct Qu as (A & B). split; [|intros r]; rewrite in_app_iff; intros [X|[X|[]]]; try (exact (A X)); try (exact (B r X)); try (exact (Q1 X)); exact (Q2 r X).
    + split; [|revert F; apply Forall2_weaken; intros; apply asked_step; assumption].
      revert F1. apply Forall_impl. intros x (n & X). exists n. apply in_app_iff. left. exact X.
Qed.

Lemma run_app es1 : forall s s1 os1 es2, run s es1 = Some (s1, os1) -> run s (es1 ++ es2) = match run s1 es2 with Some (s2, os2) => Some (s2, os1 ++ os2) | None => None end.
Proof.
  induction es1 as [|e r IH]; intros s s1 os1 es2; cbn [run app].
  - intros [= <- <-]. destruct (run s es2) as [[s2 os2]|]; reflexivity.
  - destruct (step s e) as [[s' o]|]; [|discriminate]. destruct (run s' r) as [[s'' os']|] eqn:R; [|discriminate]. intros [= <- <-].
    rewrite (IH _ _ _ es2 R). destruct (run s'' es2) as [[s2 os2]|]; reflexivity.
Qed.
Lemma requests_app a b : requests (a ++ b) = (requests a + requests b)%N.
Proof. induction a as [|e r IH]; cbn [app requests]; [reflexivity|]. destruct e; rewrite IH; lia. Qed.
Lemma reqs_app a b : reqs (a ++ b) = (reqs a + reqs b)%N.
Proof. unfold reqs. rewrite filter_app, app_length. lia. Qed.
(* one step of the jobs *)
Lemma sim_step es s os e s' o : run init es = Some (s, os) -> requests es = reqs os -> step s e = Some (s', o) ->
  run init (es ++ [e]) = Some (s', os ++ [o]) /\ requests (es ++ [e]) = reqs (os ++ [o]).
Proof.
  intros R Q E. split; [rewrite (run_app _ _ _ _ _ R); cbn [run]; rewrite E; reflexivity|].
  rewrite requests_app, reqs_app, Q. f_equal. pose proof (step_req _ _ _ _ E) as X. unfold reqs. cbn [filter]. rewrite X. destruct e; reflexivity.
Qed.
Lemma sim_inv s os : winv s os -> (reqs os < u64_mod)%N -> inv (w_jobs s) (observe_all os).
Proof. intros ((es & R & Q) & _) B. eapply inv_reached; [|exact R]. rewrite Q. exact B. Qed.

Lemma request_running k s s' h : lookup_or_enqueue k s = (s', h) -> s_running s' = s_running s /\ s_lost s' = s_lost s /\ s_out s' = s_out s.
Proof.
  unfold lookup_or_enqueue. destruct (m_get task_dec k (s_keyed s)); cbn; intros [= <- _]; cbn; repeat split; reflexivity.
Qed.
Lemma request_step k s s' o : step s (Request k) = Some (s', o) -> exists h, o = OReq k h /\ s_running s' = s_running s /\ s_lost s' = s_lost s /\ s_out s' = s_out s.
Proof.
  cbn [step]. destruct (lookup_or_enqueue k s) as [s1 h] eqn:E. intros [= <- <-]. exists h. split; [reflexivity|]. eapply request_running, E.
Qed.
(* two running jobs, or a queued and a running one, have different keys *)
Lemma keys_differ s v i j1 j2 : inv s v -> nth_error (s_running s) i = Some j1 -> In j2 (remove_nth i (s_running s)) -> mj_key j1 <> mj_key j2.
Proof.
  intros I N1 N2. pose proof (i_keys _ _ I) as K. unfold all_jobs in K. destruct (nth_split _ _ _ N1) as (a & b & E & ER). rewrite ER in N2. rewrite E in K.
  intros X. rewrite !map_app in K. cbn in K.
  assert (P : Permutation (map mj_key (s_queue s) ++ (map mj_key a ++ mj_key j1 :: map mj_key b) ++ map mj_key (s_lost s)) (mj_key j1 :: (map mj_key (s_queue s) ++ (map mj_key a ++ map mj_key b) ++ map mj_key (s_lost s)))).
  { rewrite <- !app_assoc. cbn [app]. rewrite <- (Permutation_middle (map mj_key a)). rewrite <- Permutation_middle. reflexivity. }
  apply (Permutation_NoDup P) in K. inversion K; subst. apply H1. rewrite X, !in_app_iff. right. left. rewrite <- in_app_iff, <- map_app. apply in_map, N2.
Qed.
Lemma queued_differ s v q j1 j2 : inv s v -> s_queue s = j1 :: q -> In j2 (s_running s) -> mj_key j1 <> mj_key j2.
Proof.
  intros I N1 N2 X. pose proof (i_keys _ _ I) as K. unfold all_jobs in K. rewrite N1 in K. cbn in K. inversion K; subst. apply H1. rewrite X.
  apply in_map. rewrite !in_app_iff. right. left. exact N2.
Qed.

Lemma subtargets_some db t l : subtargets (SC db) t = Some l -> l <> [].
Proof. destruct t; cbn; try discriminate; intros [= <-]; [discriminate|]. apply app_cons_not_nil || (intros X; apply app_eq_nil in X; destruct X; discriminate). Qed.

Lemma winv_finish s os i e s1 o : winv s os -> (reqs os < u64_mod)%N -> (exists r, e = Finish i r) \/ e = Crash i -> finish s i e = Some (s1, o) ->
  winv s1 (os ++ o).
Proof.
  intros ((es & R & Q) & F) B D X. pose proof (sim_inv _ _ (conj (ex_intro _ es (conj R Q)) F) B) as I. unfold finish in X.
  destruct (step (w_jobs s) e) as [[js ob]|] eqn:E; [|discriminate]. injection X as <- <-.
  destruct (sim_step _ _ _ _ _ _ R Q E) as (R' & Q'). split; [exists (es ++ [e]); split; assumption|]. cbn [w_jobs w_phases].
  assert (Z : exists j, nth_error (s_running (w_jobs s)) i = Some j /\ s_running js = remove_nth i (s_running (w_jobs s)) /\ (forall k, ob <> ORun k) /\ forall k r, ob = ODone k r -> k = mj_key j).
  { destruct D as [[r ->]| ->]; cbn [step] in E; destruct (nth_error (s_running (w_jobs s)) i) as [j|] eqn:N; try discriminate; exists j; (split; [reflexivity|]).
    - unfold job_completed in E. cbn in E. destruct (m_get N.eq_dec (mj_id j) (s_senders (w_jobs s))); [destruct (forallb _ l)|]; injection E as <- <-; cbn;
        (split; [reflexivity|]); split; intros; congruence.
    - injection E as <- <-. cbn. split; [reflexivity|]. split; intros; congruence. }
  destruct Z as (j & N & ER & Z1 & Z2). rewrite ER. eapply Forall2_weaken; [|apply Forall2_remove, F]. intros j' p Hj. apply pok_step. intros k Hk. split; [apply Z1|].
  intros r ->. apply (keys_differ _ _ _ _ _ I N Hj). rewrite Hk. symmetry. apply (Z2 _ r). reflexivity.
Qed.
Lemma winv_step s os e s1 o : winv s os -> (reqs (os ++ o) < u64_mod)%N -> wstep s e = Some (s1, o) -> winv s1 (os ++ o).
Proof.
  intros H B X. assert (B0 : (reqs os < u64_mod)%N) by (rewrite reqs_app in B; lia). pose proof (sim_inv _ _ H B0) as I.
  destruct e as [k| |i|i|i|i r|i]; unfold Workers.wstep in X.
  - destruct H as ((es & R & Q) & F). destruct (step (w_jobs s) (Request k)) as [[js ob]|] eqn:E; [|discriminate]. injection X as <- <-.
    destruct (sim_step _ _ _ _ _ _ R Q E) as (R' & Q'). split; [eexists; split; eassumption|]. cbn [w_jobs w_phases].
    destruct (request_step _ _ _ _ E) as (h & -> & ER & _ & _). rewrite ER. revert F. apply Forall2_weaken. intros j p _. apply pok_step. intros; split; intros; discriminate.
  - destruct H as ((es & R & Q) & F). destruct (_ <? W); [|discriminate]. destruct (step (w_jobs s) Start) as [[js ob]|] eqn:E; [|discriminate]. injection X as <- <-.
    destruct (sim_step _ _ _ _ _ _ R Q E) as (R' & Q'). split; [eexists; split; eassumption|]. cbn [w_jobs w_phases].
    cbn [step] in E. destruct (s_queue (w_jobs s)) as [|j q] eqn:EQ; [discriminate|]. injection E as <- <-. cbn [s_running].
    apply Forall2_app.
    + revert F. apply Forall2_weaken. intros j' p Hj. apply pok_step. intros k Hk. split; [|intros; discriminate]. intros [= Y]. apply (queued_differ _ _ _ _ _ I EQ Hj). congruence.
    + constructor; [|constructor]. destruct (start_phase SC (mj_key j)) as [|rest hs|hs] eqn:SP; cbn [pok]; [exact SP| |].
      * unfold start_phase in SP. destruct (mj_key j) as [[| |db t|]|] eqn:K; try discriminate. destruct (subtargets (SC db) t) as [l|] eqn:T; [|discriminate].
        injection SP as <- <-. exists db, t, l, [], os, []. rewrite ?K. repeat (split; [reflexivity || assumption|]). split; [eapply subtargets_some, T|].
        split; [reflexivity|]. split; [split; [|intros r]; intros []|constructor].
      * unfold start_phase in SP. destruct (mj_key j) as [[| |db t|]|]; try discriminate. destruct (subtargets (SC db) t); discriminate.
  - destruct H as ((es & R & Q) & F). destruct (nth_error (s_running (w_jobs s)) i) as [j|] eqn:N; [|discriminate].
    destruct (nth_error (w_phases s) i) as [[|[|t rest] hs|]|] eqn:NP; try discriminate.
    destruct (step (w_jobs s) (Request (Compaction (job_db (mj_key j)) t))) as [[js ob]|] eqn:E; [|discriminate]. injection X as <- <-.
    destruct (sim_step _ _ _ _ _ _ R Q E) as (R' & Q'). split; [eexists; split; eassumption|]. cbn [w_jobs w_phases].
    destruct (request_step _ _ _ _ E) as (h & -> & ER & _ & _). rewrite ER.
    destruct (Forall2_nth _ _ _ F _ _ N) as (p & NP' & P). rewrite NP in NP'. injection NP' as <-.
    assert (F' : Forall2 (pok (os ++ [OReq (Compaction (job_db (mj_key j)) t) h])) (s_running (w_jobs s)) (w_phases s)).
    { revert F. apply Forall2_weaken. intros j' p _. apply pok_step. intros; split; intros; discriminate. }
    apply (Forall2_set _ _ _ F' _ _ _ N). clear F'. apply (pok_step _ _ _ (OReq (Compaction (job_db (mj_key j)) t) h)) in P; [|intros; split; intros; discriminate].
    cbn [pok] in P. destruct P as (db & t' & subs & past & os1 & os2 & K & T & ES & NE & EO & Qu & FA).
    rewrite K in *. cbn [job_db] in *.
    assert (NEW : asked (observe_all (os ++ [OReq (Compaction db t) h])) os2 db t h).
    { left. rewrite observe_all_snoc. cbn. apply in_app_iff. right. left. reflexivity. }
    destruct rest as [|t2 rest]; cbn [pok].
    + exists db, t', subs, [], subs, os1, os2. rewrite K. repeat (split; [assumption || reflexivity|]). split; [constructor|]. rewrite ES. apply Forall2_app; [exact FA|]. constructor; [exact NEW|constructor].
    + exists db, t', subs, (past ++ [t]), os1, os2. rewrite K. split; [reflexivity|]. split; [assumption|]. split; [rewrite ES, <- app_assoc; reflexivity|]. split; [discriminate|].
      split; [exact EO|]. split; [exact Qu|]. apply Forall2_app; [exact FA|]. constructor; [exact NEW|constructor].
  - destruct (nth_error (w_phases s) i) as [[| |[|h hs]]|] eqn:NP; try discriminate. destruct (received h (w_jobs s)) as [[n|e]|] eqn:RC; [| |discriminate].
    + injection X as <- <-. rewrite app_nil_r in *. destruct H as (H & F). split; [exact H|]. cbn [w_jobs w_phases].
      destruct (Forall2_nth' _ _ _ F _ _ NP) as (j & N & P). apply (Forall2_set _ _ _ F _ _ _ N).
      cbn [pok] in *. destruct P as (db & t & subs & past & rest & os1 & os2 & K & T & ES & EO & Qu & FC & FA).
      inversion FA as [|x h' rest' hs' Hx Hr E1 E2]; subst.
      assert (GOT : In (h, Done n) (got (observe_all (os1 ++ ORun (mj_key j) :: os2)))).
      { rewrite <- (i_out _ _ I). unfold received in RC. revert RC. generalize (s_out (w_jobs s)). induction l as [|[h' r'] l IH]; cbn; [discriminate|].
        destruct (Nat.eq_dec h h') as [->|]; [intros [= ->]; left; reflexivity|intros; right; apply IH; assumption]. }
      pose proof (i_once _ _ I) as ON.
      exists db, t, (past ++ x :: rest'), (past ++ [x]), rest', os1, os2. repeat (split; [assumption || reflexivity|]). split; [rewrite <- app_assoc; reflexivity|].
      split; [reflexivity|]. split; [exact Qu|]. split; [|exact Hr]. apply Forall_app. split; [exact FC|]. constructor; [|constructor]. exists n.
      destruct Hx as [Hx|(r & G & Hx)].
      * exfalso. clear - ON Hx GOT. revert ON Hx GOT. generalize (waiting (observe_all (os1 ++ ORun (mj_key j) :: os2))) (got (observe_all (os1 ++ ORun (mj_key j) :: os2))).
        intros w g ON Hw Hg. apply (in_map fst) in Hw. apply (in_map fst) in Hg. cbn in *. induction w as [|a w IH]; [contradiction|]. cbn in *. inversion ON; subst.
        destruct Hw as [E|Hw]; [|exact (IH H2 Hw)]. apply H1. rewrite E. apply in_app_iff. right. exact Hg.
      * assert (r = Done n) as ->; [|exact Hx]. clear - ON G GOT. revert ON G GOT. generalize (waiting (observe_all (os1 ++ ORun (mj_key j) :: os2))) (got (observe_all (os1 ++ ORun (mj_key j) :: os2))).
        intros w g ON G1 G2. assert (ND : NoDup (map fst g)) by (induction w as [|a w IH]; [exact ON|cbn in ON; inversion ON; subst; auto]). clear - ND G1 G2.
        induction g as [|[a b] g IH]; [contradiction|]. cbn in ND. inversion ND; subst. destruct G1 as [[= -> ->]|G1], G2 as [[= E]|G2]; subst; try reflexivity.
        -- exfalso. apply H1. apply (in_map fst) in G2. exact G2.
        -- exfalso. apply H1. apply (in_map fst) in G1. exact G1.
        -- apply IH; assumption.
    + eapply winv_finish; [exact H|exact B0| |exact X]. left. eauto.
  - destruct (nth_error (w_phases s) i) as [[| |[|h hs]]|] eqn:NP; try discriminate. eapply winv_finish; [exact H|exact B0| |exact X]. left. eauto.
  - destruct (nth_error (w_phases s) i) as [[| |]|] eqn:NP; try discriminate. eapply winv_finish; [exact H|exact B0| |exact X]. left. eauto.
  - eapply winv_finish; [exact H|exact B0| |exact X]. right. reflexivity.
Qed.
Lemma winv_run es : forall s os s1 o, winv s os -> (reqs (os ++ o) < u64_mod)%N -> wrun s es = Some (s1, o) -> winv s1 (os ++ o).
Proof.
  induction es as [|e r IH]; intros s os s1 o H B; cbn [Workers.wrun]; [intros [= <- <-]; rewrite app_nil_r; exact H|].
  destruct (wstep s e) as [[s2 o2]|] eqn:E; [|discriminate]. destruct (wrun s2 r) as [[s3 o3]|] eqn:R; [|discriminate]. intros [= <- <-].
  rewrite app_assoc in *. eapply IH; [|exact B|exact R]. eapply winv_step; [exact H| |exact E]. rewrite reqs_app in B. lia.
Qed.
Lemma winv_reached es s os : (reqs os < u64_mod)%N -> wrun winit es = Some (s, os) -> winv s os.
Proof. intros B R. apply (winv_run es winit [] s os); [|exact B|exact R]. split; [exists []; split; reflexivity|constructor]. Qed.

(* ---------- what a finished compaction has done ---------- *)
Lemma wstep_obs s e s1 o : wstep s e = Some (s1, o) -> (length o <= 1)%nat.
Proof.
  destruct e; unfold Workers.wstep, finish; repeat match goal with |- context [match ?x with _ => _ end] => destruct x end; intros [= <- <-] || discriminate; cbn; lia.
Qed.
Lemma wrun_split es : forall s s1 A o B, wrun s es = Some (s1, A ++ o :: B) ->
  exists es1 e s2 s3, wrun s es1 = Some (s2, A) /\ wstep s2 e = Some (s3, [o]).
Proof.
  induction es as [|e r IH]; intros s s1 A o B; cbn [Workers.wrun]; [intros [= _ X]; symmetry in X; apply app_eq_nil in X; destruct X; discriminate|].
  destruct (wstep s e) as [[s2 o2]|] eqn:E; [|discriminate]. destruct (wrun s2 r) as [[s3 o3]|] eqn:R; [|discriminate]. intros [= <- X].
  pose proof (wstep_obs _ _ _ _ E) as L. destruct o2 as [|a [|b o2]]; [| |cbn in L; lia].
  - cbn in X. subst o3. destruct (IH _ _ _ _ _ R) as (es1 & e1 & s4 & s5 & R1 & E1). exists (e :: es1), e1, s4, s5. split; [|exact E1]. cbn [Workers.wrun]. rewrite E, R1. reflexivity.
  - destruct A as [|x A]; cbn in X; injection X as -> X; [exists [], e, s, s2; split; [reflexivity|exact E]|].
    subst o3. destruct (IH _ _ _ _ _ R) as (es1 & e1 & s4 & s5 & R1 & E1). exists (e :: es1), e1, s4, s5. split; [|exact E1]. cbn [Workers.wrun]. rewrite E, R1. reflexivity.
Qed.
(* what the end of a compaction says about the jobs it waited for *)
Definition outcome_of (db : bytes) (subs : list target) (os2 : list obs) (r : result) : Prop :=
  match r with
  | Done _ => forall x, In x subs -> compacted os2 db x
  | Failed e => exists x, In x subs /\ In (ODone (Some (Compaction db x)) (Failed e)) os2
  end.
Lemma finish_obs s i r s1 o k r' : finish s i (Finish i r) = Some (s1, [o]) -> o = ODone k r' -> r' = r /\ exists j, nth_error (s_running (w_jobs s)) i = Some j /\ mj_key j = k.
Proof.
  unfold finish. cbn [step]. destruct (nth_error (s_running (w_jobs s)) i) as [j|]; [|discriminate]. destruct (job_completed _ _ _ _ _); intros [= <- <-]; [|discriminate].
  intros [= <- <-]. eauto.
Qed.
Lemma done_inv s os e s1 db t subs r : winv s os -> (reqs os < u64_mod)%N -> wstep s e = Some (s1, [ODone (Some (Compaction db t)) r]) -> subtargets (SC db) t = Some subs ->
  exists os1 os2, os = os1 ++ ORun (Some (Compaction db t)) :: os2 /\ quiet (Compaction db t) os2 /\ outcome_of db subs os2 r.
Proof.
  intros H B X T. pose proof (sim_inv _ _ H B) as I. destruct H as (_ & F). destruct e as [k| |i|i|i|i r0|i]; unfold Workers.wstep in X.
  - destruct (step (w_jobs s) (Request k)) as [[js ob]|] eqn:E; [|discriminate]. injection X as <- ->. destruct (request_step _ _ _ _ E) as (h & D & _). discriminate.
  - destruct (_ <? W); [|discriminate]. cbn [step] in X. destruct (s_queue (w_jobs s)); [discriminate|]. discriminate.
  - destruct (nth_error (s_running (w_jobs s)) i) as [j|] eqn:N; [|discriminate]. destruct (nth_error (w_phases s) i) as [[|[|t' rest] hs|]|] eqn:NP; try discriminate.
    destruct (step (w_jobs s) (Request (Compaction (job_db (mj_key j)) t'))) as [[js ob]|] eqn:E; [|discriminate]. injection X as <- ->. destruct (request_step _ _ _ _ E) as (h & D & _). discriminate.
  - destruct (nth_error (w_phases s) i) as [[| |[|h hs]]|] eqn:NP; try discriminate. destruct (received h (w_jobs s)) as [[n|e]|] eqn:RC; [discriminate| |discriminate].
    destruct (finish_obs _ _ _ _ _ _ _ X eq_refl) as (-> & j & N & K). destruct (Forall2_nth' _ _ _ F _ _ NP) as (j' & N' & P). rewrite N in N'. injection N' as <-.
    cbn [pok] in P. destruct P as (db' & t' & subs' & past & rest & os1 & os2 & K' & T' & ES & EO & Qu & FC & FA). rewrite K in K'. injection K' as <- <-. rewrite T in T'. injection T' as <-.
    exists os1, os2. rewrite K in EO. split; [exact EO|]. split; [exact Qu|]. inversion FA as [|x h' rest' hs' Hx Hr E1 E2]; subst.
    assert (GOT : In (h, Failed e) (got (observe_all (os1 ++ ORun (Some (Compaction db t)) :: os2)))).
    { rewrite <- (i_out _ _ I). unfold received in RC. revert RC. generalize (s_out (w_jobs s)). induction l as [|[h' r'] l IH]; cbn; [discriminate|].
      destruct (Nat.eq_dec h h') as [->|]; [intros [= ->]; left; reflexivity|intros; right; apply IH; assumption]. }
    pose proof (i_once _ _ I) as ON. exists x. split; [apply in_app_iff; right; left; reflexivity|]. destruct Hx as [Hx|(r & G & Hx)].
    + exfalso. clear - ON Hx GOT. revert ON Hx GOT. generalize (waiting (observe_all (os1 ++ ORun (Some (Compaction db t)) :: os2))) (got (observe_all (os1 ++ ORun (Some (Compaction db t)) :: os2))).
      intros w g ON Hw Hg. apply (in_map fst) in Hw. apply (in_map fst) in Hg. cbn in *. induction w as [|a w IH]; [contradiction|]. cbn in *. inversion ON; subst.
      destruct Hw as [E|Hw]; [|exact (IH H2 Hw)]. apply H1. rewrite E. apply in_app_iff. right. exact Hg.
    + assert (r = Failed e) as ->; [|exact Hx]. clear - ON G GOT. revert ON G GOT. generalize (waiting (observe_all (os1 ++ ORun (Some (Compaction db t)) :: os2))) (got (observe_all (os1 ++ ORun (Some (Compaction db t)) :: os2))).
      intros w g ON G1 G2. assert (ND : NoDup (map fst g)) by (induction w as [|a w IH]; [exact ON|cbn in ON; inversion ON; subst; auto]). clear - ND G1 G2.
      induction g as [|[a b] g IH]; [contradiction|]. cbn in ND. inversion ND; subst. destruct G1 as [[= -> ->]|G1], G2 as [[= E]|G2]; subst; try reflexivity.
      -- exfalso. apply H1. apply (in_map fst) in G2. exact G2.
      -- exfalso. apply H1. apply (in_map fst) in G1. exact G1.
      -- apply IH; assumption.
  - destruct (nth_error (w_phases s) i) as [[| |[|h hs]]|] eqn:NP; try discriminate. destruct (finish_obs _ _ _ _ _ _ _ X eq_refl) as (-> & j & N & K).
    destruct (Forall2_nth' _ _ _ F _ _ NP) as (j' & N' & P). rewrite N in N'. injection N' as <-. cbn [pok] in P.
    destruct P as (db' & t' & subs' & past & rest & os1 & os2 & K' & T' & ES & EO & Qu & FC & FA). rewrite K in K'. injection K' as <- <-. rewrite T in T'. injection T' as <-.
    exists os1, os2. rewrite K in EO. split; [exact EO|]. split; [exact Qu|]. inversion FA; subst. rewrite app_nil_r. intros x Hx. eapply Forall_forall in FC; eassumption.
  - destruct (nth_error (w_phases s) i) as [[| |]|] eqn:NP; try discriminate. destruct (finish_obs _ _ _ _ _ _ _ X eq_refl) as (-> & j & N & K).
    destruct (Forall2_nth' _ _ _ F _ _ NP) as (j' & N' & P). rewrite N in N'. injection N' as <-. cbn [pok] in P. rewrite K in P. cbn [start_phase] in P. rewrite T in P. discriminate.
  - unfold finish in X. cbn [step] in X. destruct (nth_error (s_running (w_jobs s)) i); [|discriminate]. discriminate.
Qed.
Lemma done_history es s A B db t subs r : (reqs A < u64_mod)%N -> wrun winit es = Some (s, A ++ ODone (Some (Compaction db t)) r :: B) -> subtargets (SC db) t = Some subs ->
  exists os1 os2, A = os1 ++ ORun (Some (Compaction db t)) :: os2 /\ quiet (Compaction db t) os2 /\ outcome_of db subs os2 r.
Proof.
  intros L R T. destruct (wrun_split _ _ _ _ _ _ R) as (es1 & e & s2 & s3 & R1 & E). eapply done_inv; [|exact L|exact E|exact T].
  eapply winv_reached; eassumption.
Qed.
(* the trees of a database *)
Lemma find_coll (S : schema) c : names_unique S -> In c (sc_colls S) -> find (fun d => bytes_eqb (q_encoded d) (q_encoded c)) (sc_colls S) = Some c.
Proof.
  intros U H. destruct (find _ (sc_colls S)) as [d|] eqn:E.
  - apply find_some in E. destruct E as (Hd & Ed). apply bytes_eqb_spec in Ed. f_equal. apply U; assumption.
  - exfalso. apply (find_none _ _ E) in H. cbn in H. assert (X : bytes_eqb (q_encoded c) (q_encoded c) = true) by (apply bytes_eqb_spec; reflexivity). congruence.
Qed.
Lemma gather_spec (S : schema) c db x : names_unique S -> In c (sc_colls S) ->
  (In x (gather S (q_encoded c)) <-> exists o, stores_in S c o /\ tree_job db o = Compaction db x).
Proof.
  intros U H. unfold gather, views_of. rewrite (find_coll S c U H). split.
  - intros X. apply in_app_iff in X. destruct X as [[<-|[<-|[]]]|X]; [exists (Documents c); split; reflexivity|exists (ViewVersions c); split; reflexivity|].
    apply in_flat_map in X. destruct X as (v & Hv & [<-|[<-|[<-|[]]]]); [exists (ViewEntries v)|exists (ViewDocumentMap v)|exists (ViewInvalidated v)]; split; (exact Hv || reflexivity).
  - intros (o & Ho & [= <-]). apply in_app_iff. destruct o as [d|v|v|v|d|]; cbn [stores_in] in Ho; try subst d; try contradiction.
    + left. left. reflexivity.
    + right. apply in_flat_map. exists v. split; [exact Ho|]. left. reflexivity.
    + right. apply in_flat_map. exists v. split; [exact Ho|]. right. left. reflexivity.
    + right. apply in_flat_map. exists v. split; [exact Ho|]. right. right. left. reflexivity.
    + left. right. left. reflexivity.
Qed.
Lemma database_spec (S : schema) db x : names_unique S ->
  (In x (flat_map (fun c => gather S (q_encoded c)) (sc_colls S) ++ [TKeyValue]) <-> exists o, stores S o /\ tree_job db o = Compaction db x).
Proof.
  intros U. rewrite in_app_iff, in_flat_map. split.
  - intros [(c & Hc & X)|[<-|[]]].
    + apply (gather_spec S c db x U Hc) in X. destruct X as (o & Ho & E). exists o. split; [|exact E]. destruct o; cbn in *; subst; eauto; try contradiction.
    + exists KeyValues. split; [exact Logic.I|reflexivity].
  - intros (o & Ho & E). destruct o as [c|v|v|v|c|].
    + left. exists c. split; [exact Ho|]. apply (gather_spec S c db x U Ho). exists (Documents c). split; [reflexivity|exact E].
    + destruct Ho as (c & Hc & Hv). left. exists c. split; [exact Hc|]. apply (gather_spec S c db x U Hc). exists (ViewEntries v). split; assumption.
    + destruct Ho as (c & Hc & Hv). left. exists c. split; [exact Hc|]. apply (gather_spec S c db x U Hc). exists (ViewDocumentMap v). split; assumption.
    + destruct Ho as (c & Hc & Hv). left. exists c. split; [exact Hc|]. apply (gather_spec S c db x U Hc). exists (ViewInvalidated v). split; assumption.
    + left. exists c. split; [exact Ho|]. apply (gather_spec S c db x U Ho). exists (ViewVersions c). split; [reflexivity|exact E].
    + right. left. cbn in E. injection E as <-. reflexivity.
Qed.

(* When compact returns for a database, then between the start of its job and its end the
   compaction of every tree of the database has returned successfully; if it reports an
   error, it is the error of one of them. *)
Theorem C82_database es s A B db r : names_unique (SC db) -> (reqs A < u64_mod)%N ->
  wrun winit es = Some (s, A ++ ODone (Some (Compaction db TDatabase)) r :: B) ->
  exists before during, A = before ++ ORun (Some (Compaction db TDatabase)) :: during /\ quiet (Compaction db TDatabase) during /\
    match r with
    | Done _ => forall o, stores (SC db) o -> exists n, In (ODone (Some (tree_job db o)) (Done n)) during
    | Failed e => exists o, stores (SC db) o /\ In (ODone (Some (tree_job db o)) (Failed e)) during
    end.
Proof.
  intros U L R. destruct (done_history _ _ _ _ _ _ _ _ L R eq_refl) as (os1 & os2 & E & Q & O). exists os1, os2. split; [exact E|]. split; [exact Q|].
  destruct r as [n|e]; cbn [outcome_of] in O.
  - intros o Ho. destruct (tree_job db o) as [| |db' x|] eqn:T; try discriminate. assert (db' = db) as -> by (unfold tree_job in T; congruence).
    apply O. apply (database_spec _ db x U). eauto.
  - destruct O as (x & Hx & X). apply (database_spec _ db x U) in Hx. destruct Hx as (o & Ho & T). exists o. split; [exact Ho|]. rewrite T. exact X.
Qed.
(* the same for compact_collection and the trees of that collection *)
Theorem C82_collection es s A B db c r : names_unique (SC db) -> In c (sc_colls (SC db)) -> (reqs A < u64_mod)%N ->
  wrun winit es = Some (s, A ++ ODone (Some (Compaction db (TCollection (q_encoded c)))) r :: B) ->
  exists before during, A = before ++ ORun (Some (Compaction db (TCollection (q_encoded c)))) :: during /\ quiet (Compaction db (TCollection (q_encoded c))) during /\
    match r with
    | Done _ => forall o, stores_in (SC db) c o -> exists n, In (ODone (Some (tree_job db o)) (Done n)) during
    | Failed e => exists o, stores_in (SC db) c o /\ In (ODone (Some (tree_job db o)) (Failed e)) during
    end.
Proof.
  intros U Hc L R. destruct (done_history _ _ _ _ _ _ _ _ L R eq_refl) as (os1 & os2 & E & Q & O). exists os1, os2. split; [exact E|]. split; [exact Q|].
  destruct r as [n|e]; cbn [outcome_of] in O.
  - intros o Ho. destruct (tree_job db o) as [| |db' x|] eqn:T; try discriminate. assert (db' = db) as -> by (unfold tree_job in T; congruence).
    apply O. apply (gather_spec _ c db x U Hc). eauto.
  - destruct O as (x & Hx & X). apply (gather_spec _ c db x U Hc) in Hx. destruct Hx as (o & Ho & T). exists o. split; [exact Ho|]. rewrite T. exact X.
Qed.

(* ---------- completion ---------- *)
Definition pcost (p : phase) : nat :=
  match p with Plain => 1 | Spawning rest hs => 4 * length rest + length hs + 1 | Receiving hs => length hs + 1 end.
Definition jcost (j : mjob) : nat := S (pcost (start_phase SC (mj_key j))).
Definition work (s : wstate) : nat := list_sum (map jcost (s_queue (w_jobs s))) + list_sum (map pcost (w_phases s)).
Lemma sum_remove {A} (f : A -> nat) l : forall i x, nth_error l i = Some x -> list_sum (map f (remove_nth i l)) + f x = list_sum (map f l).
Proof. induction l as [|y r IH]; intros [|i] x; cbn [nth_error remove_nth map list_sum fold_right]; try discriminate; [intros [= ->]; unfold list_sum; cbn; lia|]. intros H. apply IH in H. unfold list_sum in *. cbn. lia. Qed.
Lemma sum_set {A} (f : A -> nat) l : forall i x y, nth_error l i = Some x -> list_sum (map f (set_nth i y l)) + f x = list_sum (map f l) + f y.
Proof. induction l as [|z r IH]; intros [|i] x y; cbn [nth_error set_nth map]; try discriminate; [intros [= ->]; unfold list_sum; cbn; lia|]. intros H. apply (IH _ _ y) in H. unfold list_sum in *. cbn. lia. Qed.
Lemma count_remove {A} (f : A -> bool) l : forall i, length (filter f (remove_nth i l)) <= length (filter f l).
Proof. induction l as [|y r IH]; intros [|i]; cbn; try lia; destruct (f y); cbn; try lia; specialize (IH i); lia. Qed.
Lemma request_queue k s s' o : step s (Request k) = Some (s', o) -> s_queue s' = s_queue s \/ exists id ty, s_queue s' = s_queue s ++ [MJob id ty (Some k)].
Proof.
  cbn [step]. destruct (lookup_or_enqueue k s) as [s1 h] eqn:E. intros [= <- <-]. revert E. unfold lookup_or_enqueue.
  destruct (m_get task_dec k (s_keyed s)); cbn; intros [= <- _]; cbn; eauto.
Qed.
Lemma sub_plain db t subs x db' : subtargets (SC db) t = Some subs -> In x subs -> start_phase SC (Some (Compaction db' x)) = Plain /\ composite (Some (Compaction db' x)) = false.
Proof.
  assert (G : forall n, In x (gather (SC db) n) -> start_phase SC (Some (Compaction db' x)) = Plain /\ composite (Some (Compaction db' x)) = false).
  { intros n. unfold gather. rewrite in_app_iff, in_flat_map. intros [[<-|[<-|[]]]|(v & _ & [<-|[<-|[<-|[]]]])]; split; reflexivity. }
  destruct t; cbn; try discriminate; intros [= <-]; [apply G|]. rewrite in_app_iff, in_flat_map. intros [(c & _ & H)|[<-|[]]]; [eapply G, H|split; reflexivity].
Qed.
Lemma finish_facts s os i r s1 o : winv s os -> (reqs os < u64_mod)%N -> finish s i (Finish i r) = Some (s1, o) ->
  no_panic o /\ s_lost (w_jobs s1) = s_lost (w_jobs s) /\ s_queue (w_jobs s1) = s_queue (w_jobs s) /\ s_running (w_jobs s1) = remove_nth i (s_running (w_jobs s)) /\ w_phases s1 = remove_nth i (w_phases s).
Proof.
  intros H B X. pose proof (sim_inv _ _ H B) as I. unfold finish in X. cbn [step] in X. destruct (nth_error (s_running (w_jobs s)) i) as [j|] eqn:N; [|discriminate].
  destruct (inv_finish _ _ _ r _ I N) as (s2 & k & EK & E & _). rewrite E in X. injection X as <- <-. split; [intros k'; intros [Y|[]]; discriminate|].
  unfold job_completed in E. destruct (m_get _ _ _); [destruct (forallb _ _); [|discriminate]|]; injection E as <-; repeat split; reflexivity.
Qed.
Lemma internal_step s os e s1 o : winv s os -> (reqs os < u64_mod)%N -> internal e = true -> wstep s e = Some (s1, o) ->
  no_panic o /\ s_lost (w_jobs s1) = s_lost (w_jobs s) /\ compactions s1 <= compactions s /\ work s1 < work s.
Proof.
  intros H B IN X. destruct e as [k| |i|i|i|i r|i]; try discriminate IN; unfold Workers.wstep in X.
  - destruct (_ <? W); [|discriminate]. cbn [step] in X. destruct (s_queue (w_jobs s)) as [|j q] eqn:Q; [discriminate|]. injection X as <- <-.
    split; [intros k' [Y|[]]; discriminate|]. split; [reflexivity|]. unfold compactions, live, work. cbn [w_jobs w_phases s_queue s_running]. rewrite Q. split.
    + cbn [app filter]. rewrite !filter_app, !app_length. cbn [filter]. destruct (composite (mj_key j)); cbn [length]; rewrite ?filter_app, ?app_length; cbn; lia.
    + rewrite map_app, list_sum_app. cbn [map list_sum fold_right]. unfold list_sum. cbn [fold_right map]. unfold jcost at 2. lia.
  - destruct (nth_error (s_running (w_jobs s)) i) as [j|] eqn:N; [|discriminate]. destruct (nth_error (w_phases s) i) as [[|[|t rest] hs|]|] eqn:NP; try discriminate.
    destruct (step (w_jobs s) (Request (Compaction (job_db (mj_key j)) t))) as [[js ob]|] eqn:E; [|discriminate]. injection X as <- <-.
    destruct (request_step _ _ _ _ E) as (h & -> & ER & EL & _). split; [intros k' [Y|[]]; discriminate|]. split; [exact EL|].
    destruct H as (_ & F). destruct (Forall2_nth' _ _ _ F _ _ NP) as (j' & N' & P). cbn [pok] in P. destruct P as (db & t' & subs & past & os1 & os2 & K & T & ES & _).
    assert (IT : In t subs) by (rewrite ES; apply in_app_iff; right; left; reflexivity).
    destruct (sub_plain _ _ _ _ (job_db (mj_key j)) T IT) as (SP & CP).
    assert (QC : list_sum (map jcost (s_queue js)) <= list_sum (map jcost (s_queue (w_jobs s))) + 2 /\
                 length (filter (fun j => composite (mj_key j)) (s_queue js)) <= length (filter (fun j => composite (mj_key j)) (s_queue (w_jobs s)))).
    { destruct (request_queue _ _ _ _ E) as [-> |(id & ty & ->)]; [lia|]. rewrite map_app, list_sum_app, filter_app, app_length. cbn [map filter mj_key].
      rewrite CP. unfold jcost at 2. cbn [mj_key]. rewrite SP. cbn. lia. }
    unfold compactions, live, work. cbn [w_jobs w_phases]. rewrite ER, !filter_app, !app_length. split; [lia|].
    destruct rest as [|t2 rest].
    + pose proof (sum_set pcost _ _ _ (Receiving (hs ++ [h])) NP) as Z. cbn [pcost length] in Z. rewrite app_length in Z. cbn [length] in Z. lia.
    + pose proof (sum_set pcost _ _ _ (Spawning (t2 :: rest) (hs ++ [h])) NP) as Z. cbn [pcost length] in Z. rewrite app_length in Z. cbn [length] in Z. lia.
  - destruct (nth_error (w_phases s) i) as [[| |[|h hs]]|] eqn:NP; try discriminate. destruct (received h (w_jobs s)) as [[n|e]|] eqn:RC; [| |discriminate].
    + injection X as <- <-. split; [intros k' []|]. split; [reflexivity|]. split; [reflexivity|]. unfold work. cbn [w_jobs w_phases].
      pose proof (sum_set pcost _ _ _ (Receiving hs) NP) as Z. cbn [pcost length] in Z. lia.
    + destruct (finish_facts _ _ _ _ _ _ H B X) as (P & L & Q & R & PH). split; [exact P|]. split; [exact L|]. unfold compactions, live, work. rewrite Q, R, PH, !filter_app, !app_length.
      pose proof (count_remove (fun j => composite (mj_key j)) (s_running (w_jobs s)) i). pose proof (sum_remove pcost _ _ _ NP) as Z. cbn [pcost length] in Z. lia.
  - destruct (nth_error (w_phases s) i) as [[| |[|h hs]]|] eqn:NP; try discriminate.
    destruct (finish_facts _ _ _ _ _ _ H B X) as (P & L & Q & R & PH). split; [exact P|]. split; [exact L|]. unfold compactions, live, work. rewrite Q, R, PH, !filter_app, !app_length.
    pose proof (count_remove (fun j => composite (mj_key j)) (s_running (w_jobs s)) i). pose proof (sum_remove pcost _ _ _ NP) as Z. cbn [pcost length] in Z. lia.
  - destruct (nth_error (w_phases s) i) as [[| |]|] eqn:NP; try discriminate.
    destruct (finish_facts _ _ _ _ _ _ H B X) as (P & L & Q & R & PH). split; [exact P|]. split; [exact L|]. unfold compactions, live, work. rewrite Q, R, PH, !filter_app, !app_length.
    pose proof (count_remove (fun j => composite (mj_key j)) (s_running (w_jobs s)) i). pose proof (sum_remove pcost _ _ _ NP) as Z. cbn [pcost length] in Z. lia.
Qed.
Lemma internal_run es : forall s os s1 o, winv s os -> (reqs (os ++ o) < u64_mod)%N -> forallb internal es = true -> wrun s es = Some (s1, o) ->
  no_panic o /\ s_lost (w_jobs s1) = s_lost (w_jobs s) /\ compactions s1 <= compactions s /\ length es + work s1 <= work s.
Proof.
  induction es as [|e r IH]; intros s os s1 o H B IN; cbn [Workers.wrun]; [intros [= <- <-]; split; [intros k []|split; [reflexivity|cbn; lia]]|].
  cbn [forallb] in IN. apply andb_prop in IN. destruct IN as (I1 & I2).
  destruct (wstep s e) as [[s2 o2]|] eqn:E; [|discriminate]. destruct (wrun s2 r) as [[s3 o3]|] eqn:R; [|discriminate]. intros [= <- <-].
  assert (B2 : (reqs (os ++ o2) < u64_mod)%N) by (rewrite app_assoc, reqs_app in B; lia). assert (B0 : (reqs os < u64_mod)%N) by (rewrite reqs_app in B2; lia).
  destruct (internal_step _ _ _ _ _ H B0 I1 E) as (P1 & L1 & C1 & W1).
  assert (H2 : winv s2 (os ++ o2)) by (eapply winv_step; eassumption). rewrite app_assoc in B. destruct (IH _ _ _ _ H2 B I2 R) as (P2 & L2 & C2 & W2).
  split; [|split; [congruence|split; [lia|cbn; lia]]]. intros k. rewrite in_app_iff. intros [Y|Y]; [exact (P1 k Y)|exact (P2 k Y)].
Qed.
Lemma no_panic_lost es : forall s os s1 o, winv s os -> (reqs (os ++ o) < u64_mod)%N -> wrun s es = Some (s1, o) -> no_panic o -> s_lost (w_jobs s) = [] -> s_lost (w_jobs s1) = [].
Proof.
  induction es as [|e r IH]; intros s os s1 o H B; cbn [Workers.wrun]; [intros [= <- <-]; auto|].
  destruct (wstep s e) as [[s2 o2]|] eqn:E; [|discriminate]. destruct (wrun s2 r) as [[s3 o3]|] eqn:R; [|discriminate]. intros [= <- <-] NP L.
  assert (B2 : (reqs (os ++ o2) < u64_mod)%N) by (rewrite app_assoc, reqs_app in B; lia). assert (B0 : (reqs os < u64_mod)%N) by (rewrite reqs_app in B2; lia).
  assert (L2 : s_lost (w_jobs s2) = []).
  { destruct (internal e) eqn:IN; [destruct (internal_step _ _ _ _ _ H B0 IN E) as (_ & -> & _); exact L|]. destruct e as [k| | | | | |i]; try discriminate IN.
    - unfold Workers.wstep in E. destruct (step (w_jobs s) (Request k)) as [[js ob]|] eqn:E1; [|discriminate]. injection E as <- <-.
      destruct (request_step _ _ _ _ E1) as (h & _ & _ & EL & _). cbn. congruence.
    - exfalso. cbn [Workers.wstep] in E. unfold finish in E. cbn [step] in E. destruct (nth_error (s_running (w_jobs s)) i); [|discriminate]. injection E as <- <-.
      apply (NP (mj_key m)). left. reflexivity. }
  eapply IH; [|rewrite app_assoc in B; exact B|exact R| |exact L2]; [eapply winv_step; eassumption|]. intros k Y. apply (NP k). apply in_app_iff. right. exact Y.
Qed.

Lemma idle_done s os : winv s os -> (reqs os < u64_mod)%N -> no_panic os -> s_lost (w_jobs s) = [] -> compactions s < W ->
  (forall e, internal e = true -> wstep s e = None) -> waiting (observe_all os) = [].
Proof.
  intros H B NP L C ID. pose proof (sim_inv _ _ H B) as I. pose proof H as ((es & R & Q) & F). rewrite <- Q in B. destruct (C44_progress _ _ _ B R NP) as (PR & PE & _). rewrite Q in B. apply PE.
  assert (PH : forall i p, nth_error (w_phases s) i = Some p -> exists h hs, p = Receiving (h :: hs) /\ received h (w_jobs s) = None).
  { intros i p N. destruct (Forall2_nth' _ _ _ F _ _ N) as (j & NJ & P). destruct p as [|rest hs|[|h hs]].
    - exfalso. specialize (ID (WFinish i (Done 0%N)) eq_refl). unfold Workers.wstep in ID. rewrite N in ID. unfold finish in ID. cbn [step] in ID. rewrite NJ in ID. destruct (job_completed _ _ _ _ _); discriminate.
    - exfalso. cbn [pok] in P. destruct P as (db & t & subs & past & os1 & os2 & K & T & ES & NE & _). destruct rest as [|x rest]; [congruence|].
      specialize (ID (WSpawn i) eq_refl). unfold Workers.wstep in ID. rewrite NJ, N in ID. cbn [step] in ID. destruct (lookup_or_enqueue _ _). discriminate.
    - exfalso. specialize (ID (WReturn i) eq_refl). unfold Workers.wstep in ID. rewrite N in ID. unfold finish in ID. cbn [step] in ID. rewrite NJ in ID. destruct (job_completed _ _ _ _ _); discriminate.
    - exists h, hs. split; [reflexivity|]. specialize (ID (WReceive i) eq_refl). unfold Workers.wstep in ID. rewrite N in ID.
      destruct (received h (w_jobs s)) as [[n|e]|]; [discriminate| |reflexivity]. unfold finish in ID. cbn [step] in ID. rewrite NJ in ID. destruct (job_completed _ _ _ _ _); discriminate. }
  assert (ALL : forall j, In j (s_running (w_jobs s)) -> composite (mj_key j) = true).
  { intros j Hj. apply In_nth_error in Hj. destruct Hj as (i & N). destruct (Forall2_nth _ _ _ F _ _ N) as (p & NPh & P). destruct (PH _ _ NPh) as (h & hs & -> & _).
    cbn [pok] in P. destruct P as (db & t & subs & past & rest & os1 & os2 & K & T & _). rewrite K. destruct t; try discriminate T; reflexivity. }
  assert (ST : s_queue (w_jobs s) = [] \/ W <= length (s_running (w_jobs s))).
  { specialize (ID WStart eq_refl). unfold Workers.wstep in ID. rewrite L in ID. cbn [length] in ID. destruct (_ <? W) eqn:LT; [|apply Nat.ltb_ge in LT; right; lia].
    left. cbn [step] in ID. destruct (s_queue (w_jobs s)); [reflexivity|discriminate]. }
  assert (CR : length (s_running (w_jobs s)) <= compactions s).
  { unfold compactions, live. rewrite filter_app, app_length. assert (X : filter (fun j => composite (mj_key j)) (s_running (w_jobs s)) = s_running (w_jobs s)); [|rewrite X; lia].
    clear - ALL. induction (s_running (w_jobs s)) as [|j l IH]; [reflexivity|]. cbn. rewrite (ALL j (or_introl eq_refl)). f_equal. apply IH. intros j' Hj. apply ALL. right. exact Hj. }
  destruct ST as [EQ|]; [|lia]. unfold live. rewrite EQ. cbn. destruct (s_running (w_jobs s)) as [|j l] eqn:ER; [reflexivity|]. exfalso.
  assert (N0 : nth_error (s_running (w_jobs s)) 0 = Some j) by (rewrite ER; reflexivity). rewrite <- ER in F.
  destruct (Forall2_nth _ _ _ F _ _ N0) as (p & NPh & P). destruct (PH _ _ NPh) as (h & hs & -> & RC). cbn [pok] in P.
  destruct P as (db & t & subs & past & rest & os1 & os2 & K & T & ES & EO & Qu & FC & FA). inversion FA as [|x h' rest' hs' Hx Hr E1 E2]; subst rest h' hs'.
  destruct Hx as [Hx|(r & G & _)].
  - destruct (PR _ _ Hx) as (jj & Hjj & Kjj). unfold live in Hjj. rewrite EQ in Hjj. cbn in Hjj. rewrite ER in Hjj. apply ALL in Hjj. rewrite Kjj in Hjj.
    assert (IX : In x subs) by (rewrite ES; apply in_app_iff; right; left; reflexivity). destruct (sub_plain _ _ _ _ db T IX) as (_ & CP). congruence.
  - rewrite <- (i_out _ _ I) in G. unfold received in RC. clear - RC G. induction (s_out (w_jobs s)) as [|[a b] l IH]; [contradiction|]. cbn in *.
    destruct (Nat.eq_dec h a); [discriminate|]. destruct G as [[= -> ->]|G]; [congruence|auto].
Qed.
Lemma all_answered s os : winv s os -> (reqs os < u64_mod)%N -> waiting (observe_all os) = [] -> forall k h, In (OReq k h) os -> exists r, In (h, r) (s_out (w_jobs s)).
Proof.
  intros ((es & R & Q) & _) B E k h H. rewrite <- Q in B. destruct (C44_exactly_one _ _ _ B R) as (_ & X). specialize (X h). rewrite E in X. cbn in X.
  destruct X as (X & _). specialize (X (ex_intro _ k H)). apply in_map_iff in X. destruct X as ((h' & r) & <- & X). eauto.
Qed.

(* As long as fewer compactions of collections or databases are queued or running than there
   are workers and no job panics, the workers can always go on: from any such state they
   stop after a bounded number of steps, and whenever they stop, every call has its result. *)
Theorem C82_completes es s os : wrun winit es = Some (s, os) -> no_panic os -> compactions s < W ->
  exists bound, forall es' s' os', forallb internal es' = true -> wrun s es' = Some (s', os') -> (reqs (os ++ os') < u64_mod)%N ->
    length es' <= bound /\
    ((forall e, internal e = true -> wstep s' e = None) -> forall k h, In (OReq k h) (os ++ os') -> exists r, In (h, r) (s_out (w_jobs s'))).
Proof.
  intros R NP C. exists (work s). intros es' s' os' IN R' B. assert (B0 : (reqs os < u64_mod)%N) by (rewrite reqs_app in B; lia).
  pose proof (winv_reached _ _ _ B0 R) as H. destruct (internal_run _ _ _ _ _ H B IN R') as (P2 & L2 & C2 & W2). split; [lia|]. intros ID.
  assert (H' : winv s' (os ++ os')) by (eapply winv_run; eassumption).
  apply (all_answered _ _ H' B). apply (idle_done _ _ H' B); [| |lia|exact ID].
  - intros k. rewrite in_app_iff. intros [Y|Y]; [exact (NP k Y)|exact (P2 k Y)].
  - rewrite L2. eapply (no_panic_lost _ winit []); [|exact B0|exact R|exact NP|reflexivity]. split; [exists []; split; reflexivity|constructor].
Qed.

(* ---------- deadlock ---------- *)
Definition stuck (s : wstate) : Prop :=
  W <= length (s_running (w_jobs s)) + length (s_lost (w_jobs s)) /\ length (w_phases s) = length (s_running (w_jobs s)) /\
  Forall (fun p => exists h hs, p = Receiving (h :: hs) /\ received h (w_jobs s) = None) (w_phases s).
Lemma remove_nth_length {A} (l : list A) : forall i x, nth_error l i = Some x -> S (length (remove_nth i l)) = length l.
Proof. induction l as [|y r IH]; intros [|i] x; cbn; try discriminate; [reflexivity|]. intros H. f_equal. eapply IH, H. Qed.
Lemma stuck_step s e s1 o : stuck s -> wstep s e = Some (s1, o) -> stuck s1 /\ s_out (w_jobs s1) = s_out (w_jobs s) /\ forall k r, ~ In (ODone k r) o.
Proof.
  intros (H1 & H2 & H3) X.
  assert (PH : forall i p, nth_error (w_phases s) i = Some p -> exists h hs, p = Receiving (h :: hs) /\ received h (w_jobs s) = None).
  { intros i p N. eapply Forall_forall in H3; [exact H3|]. eapply nth_error_In, N. }
  destruct e as [k| |i|i|i|i r|i]; unfold Workers.wstep in X.
  - destruct (step (w_jobs s) (Request k)) as [[js ob]|] eqn:E; [|discriminate]. injection X as <- <-. destruct (request_step _ _ _ _ E) as (h & -> & ER & EL & EO).
    unfold stuck, received. cbn [w_jobs w_phases]. rewrite ER, EL, EO. split; [split; [exact H1|split; [exact H2|exact H3]]|]. split; [reflexivity|]. intros k' r [Y|[]]; discriminate.
  - destruct (_ <? W) eqn:LT; [|discriminate]. apply Nat.ltb_lt in LT. lia.
  - destruct (nth_error (s_running (w_jobs s)) i); [|discriminate]. destruct (nth_error (w_phases s) i) as [p|] eqn:N; [|discriminate]. destruct (PH _ _ N) as (h & hs & -> & _). discriminate.
  - destruct (nth_error (w_phases s) i) as [p|] eqn:N; [|discriminate]. destruct (PH _ _ N) as (h & hs & -> & RC). rewrite RC in X. discriminate.
  - destruct (nth_error (w_phases s) i) as [p|] eqn:N; [|discriminate]. destruct (PH _ _ N) as (h & hs & -> & _). discriminate.
  - destruct (nth_error (w_phases s) i) as [p|] eqn:N; [|discriminate]. destruct (PH _ _ N) as (h & hs & -> & _). discriminate.
  - unfold finish in X. cbn [step] in X. destruct (nth_error (s_running (w_jobs s)) i) as [j|] eqn:N; [|discriminate]. injection X as <- <-.
    unfold stuck, received. cbn [w_jobs w_phases s_running s_lost s_out length]. pose proof (remove_nth_length _ _ _ N) as Z.
    destruct (nth_error (w_phases s) i) as [p|] eqn:NPh; [|apply nth_error_None in NPh; assert (nth_error (s_running (w_jobs s)) i = None) by (apply nth_error_None; lia); congruence].
    pose proof (remove_nth_length _ _ _ NPh) as Z2. split; [split; [lia|split; [lia|]]|split; [reflexivity|intros k' r [Y|[]]; discriminate]].
    apply Forall_forall. intros q Hq. eapply Forall_forall in H3; [exact H3|]. eapply In_remove_nth, Hq.
Qed.
Lemma stuck_run es : forall s s1 o, stuck s -> wrun s es = Some (s1, o) -> s_out (w_jobs s1) = s_out (w_jobs s) /\ forall k r, ~ In (ODone k r) o.
Proof.
  induction es as [|e r IH]; intros s s1 o H; cbn [Workers.wrun]; [intros [= <- <-]; split; [reflexivity|intros k r []]|].
  destruct (wstep s e) as [[s2 o2]|] eqn:E; [|discriminate]. destruct (wrun s2 r) as [[s3 o3]|] eqn:R; [|discriminate]. intros [= <- <-].
  destruct (stuck_step _ _ _ _ H E) as (H2 & E2 & N2). destruct (IH _ _ _ H2 R) as (E3 & N3). split; [congruence|]. intros k r0. rewrite in_app_iff. intros [Y|Y]; [eapply N2, Y|eapply N3, Y].
Qed.
Lemma wrun_app es1 : forall s s1 os1 es2 s2 os2, wrun s es1 = Some (s1, os1) -> wrun s1 es2 = Some (s2, os2) -> wrun s (es1 ++ es2) = Some (s2, os1 ++ os2).
Proof.
  induction es1 as [|e r IH]; intros s s1 os1 es2 s2 os2; cbn [Workers.wrun app]; [intros [= <- <-]; auto|].
  destruct (wstep s e) as [[s' o]|]; [|discriminate]. destruct (wrun s' r) as [[s'' os']|] eqn:R; [|discriminate]. intros [= <- <-] R2.
  rewrite (IH _ _ _ _ _ _ R R2). rewrite app_assoc. reflexivity.
Qed.
(* the calls made by users *)
Definition calls (es : list wevent) : list task := flat_map (fun e => match e with WRequest k => [k] | _ => [] end) es.
Definition nth_coll (db : bytes) (i : nat) : task := Compaction db (TCollection [N.of_nat i]).
Lemma fill db n : n <= W -> exists es s os, wrun winit es = Some (s, os) /\ calls es = map (nth_coll db) (seq 0 n) /\ (forall i, ~ In (WCrash i) es) /\ length (s_running (w_jobs s)) = n /\
  s_queue (w_jobs s) = [] /\ s_lost (w_jobs s) = [] /\ s_out (w_jobs s) = [] /\ length (w_phases s) = n /\
  Forall (fun p => exists rest hs, p = Spawning rest hs /\ rest <> []) (w_phases s) /\
  (forall k id, m_get task_dec k (s_keyed (w_jobs s)) = Some id -> exists i, i < n /\ k = nth_coll db i).
Proof.
  induction n as [|n IH]; intros L.
  - exists [], winit, []. split; [reflexivity|]. split; [reflexivity|]. split; [intros i []|]. repeat (split; [reflexivity|]). split; [constructor|]. cbn. discriminate.
  - destruct IH as (es & s & os & R & CA & NC & LR & Q & LO & OU & LP & FP & KE); [lia|].
    assert (NK : m_get task_dec (nth_coll db n) (s_keyed (w_jobs s)) = None).
    { destruct (m_get task_dec (nth_coll db n) (s_keyed (w_jobs s))) as [id|] eqn:E; [|reflexivity]. destruct (KE _ _ E) as (i & Hi & X). unfold nth_coll in X. injection X as X. lia. }
    destruct (wstep s (WRequest (nth_coll db n))) as [[s1 o1]|] eqn:E1; [|exfalso; unfold Workers.wstep in E1; cbn [step] in E1; destruct (lookup_or_enqueue _ _); discriminate].
    assert (F1 : exists id ty, s_queue (w_jobs s1) = [MJob id ty (Some (nth_coll db n))] /\ s_running (w_jobs s1) = s_running (w_jobs s) /\ s_lost (w_jobs s1) = [] /\ s_out (w_jobs s1) = [] /\
      s_keyed (w_jobs s1) = m_insert task_dec (nth_coll db n) id (s_keyed (w_jobs s)) /\ w_phases s1 = w_phases s).
    { unfold Workers.wstep in E1. cbn [step] in E1. unfold lookup_or_enqueue in E1. rewrite NK in E1. unfold enqueue, create_new_task_handle in E1. cbn in E1. injection E1 as <- <-. cbn. rewrite Q. do 2 eexists. repeat split; assumption. }
    destruct F1 as (id & ty & Q1 & R1 & L1 & O1 & K1 & P1).
    destruct (wstep s1 WStart) as [[s2 o2]|] eqn:E2.
    2:{ exfalso. unfold Workers.wstep in E2. rewrite R1, L1, LR in E2. cbn [length] in E2. rewrite Nat.add_0_r in E2. destruct (n <? W) eqn:LT; [|apply Nat.ltb_ge in LT; lia]. cbn [step] in E2. rewrite Q1 in E2. discriminate. }
    exists (es ++ [WRequest (nth_coll db n); WStart]), s2, (os ++ (o1 ++ o2 ++ [])).
    split; [eapply wrun_app; [exact R|]; cbn [Workers.wrun]; rewrite E1, E2; reflexivity|].
    split; [unfold calls in *; rewrite flat_map_app, CA, seq_S, map_app; reflexivity|].
    split; [intros i; rewrite in_app_iff; intros [Y|[Y|[Y|[]]]]; [exact (NC i Y)|discriminate|discriminate]|].
    unfold Workers.wstep in E2. destruct (_ <? W); [|discriminate]. cbn [step] in E2. rewrite Q1 in E2. cbn [mj_key start_phase nth_coll subtargets] in E2. injection E2 as <- <-. cbn [w_jobs w_phases s_running s_queue s_lost s_out s_keyed].
    rewrite R1, L1, O1, P1, !app_length, LR, LP. cbn [length]. repeat (split; [lia || reflexivity|]). split.
    + apply Forall_app. split; [exact FP|]. constructor; [|constructor]. do 2 eexists. split; [reflexivity|discriminate].
    + rewrite K1. intros k id'. rewrite m_get_insert. destruct (task_dec k (nth_coll db n)) as [->|]; [intros _; exists n; split; [lia|reflexivity]|].
      intros Y. destruct (KE _ _ Y) as (i & Hi & ->). exists i. split; [lia|reflexivity].
Qed.
Lemma set_nth_length {A} (x : A) l : forall i, length (set_nth i x l) = length l.
Proof. induction l as [|y r IH]; intros [|i]; cbn; try reflexivity. f_equal. apply IH. Qed.
Lemma In_set_nth {A} (x : A) l : forall i y, In y (set_nth i x l) -> y = x \/ In y l.
Proof. induction l as [|z r IH]; intros [|i] y; cbn; try tauto; [intros [->|H]; tauto|]. intros [->|H]; [tauto|]. destruct (IH _ _ H); tauto. Qed.
Definition busy (p : phase) : Prop := (exists rest hs, p = Spawning rest hs /\ rest <> []) \/ exists h hs, p = Receiving (h :: hs).
Definition rest_of (p : phase) : nat := match p with Spawning rest _ => length rest | _ => 0 end.
Lemma spawn_all n : forall s, list_sum (map rest_of (w_phases s)) = n -> s_out (w_jobs s) = [] -> length (w_phases s) = length (s_running (w_jobs s)) -> Forall busy (w_phases s) ->
  exists es s' os, wrun s es = Some (s', os) /\ calls es = [] /\ (forall i, ~ In (WCrash i) es) /\ s_running (w_jobs s') = s_running (w_jobs s) /\ s_out (w_jobs s') = [] /\
    length (w_phases s') = length (s_running (w_jobs s')) /\ Forall (fun p => exists h hs, p = Receiving (h :: hs)) (w_phases s').
Proof.
  induction n as [|n IH]; intros s E O L F.
  - exists [], s, []. split; [reflexivity|]. split; [reflexivity|]. split; [intros i []|]. repeat (split; [reflexivity || assumption|]). revert F. clear - E. induction (w_phases s) as [|p l IHl]; intros F; constructor; inversion F; subst; unfold list_sum in E; cbn in E.
    + destruct H1 as [(rest & hs & -> & NE)|H1]; [|exact H1]. destruct rest; [congruence|]. cbn in E. lia.
    + apply IHl; [unfold list_sum; lia|assumption].
  - assert (X : exists i t rest hs, nth_error (w_phases s) i = Some (Spawning (t :: rest) hs)).
    { revert E F. clear. induction (w_phases s) as [|p l IHl]; intros E F; [discriminate|]. inversion F; subst.
      destruct H1 as [(rest & hs & -> & NE)|(h & hs & ->)]; [destruct rest as [|t rest]; [congruence|]; exists 0, t, rest, hs; reflexivity|].
      unfold list_sum in E. cbn in E. destruct (IHl E H2) as (i & t & rest & hs' & N). exists (S i), t, rest, hs'. exact N. }
    destruct X as (i & t & rest & hs & N).
    assert (NJ : exists j, nth_error (s_running (w_jobs s)) i = Some j).
    { destruct (nth_error (s_running (w_jobs s)) i) eqn:Y; [eauto|]. apply nth_error_None in Y. assert (nth_error (w_phases s) i = None) by (apply nth_error_None; lia). congruence. }
    destruct NJ as (j & NJ). destruct (step (w_jobs s) (Request (Compaction (job_db (mj_key j)) t))) as [[js ob]|] eqn:E1; [|exfalso; cbn [step] in E1; destruct (lookup_or_enqueue _ _); discriminate].
    destruct (request_step _ _ _ _ E1) as (h & -> & ER & EL & EO).
    set (p' := match rest with [] => Receiving (hs ++ [h]) | _ => Spawning rest (hs ++ [h]) end).
    assert (ST : wstep s (WSpawn i) = Some (mk_w js (set_nth i p' (w_phases s)), [OReq (Compaction (job_db (mj_key j)) t) h])).
    { unfold Workers.wstep. rewrite NJ, N, E1. reflexivity. }
    pose proof (sum_set rest_of _ _ _ p' N) as Z. assert (RP : rest_of p' = length rest) by (unfold p'; destruct rest; reflexivity). rewrite RP in Z. cbn [rest_of length] in Z.
    assert (BP : busy p'). { unfold p'. destruct rest; [right; destruct hs; cbn; eauto|left; do 2 eexists; split; [reflexivity|discriminate]]. }
    destruct (IH (mk_w js (set_nth i p' (w_phases s)))) as (es & s' & os & R & CA & NC & RR & OO & LL & FF); cbn [w_jobs w_phases].
    + lia.
    + congruence.
    + rewrite set_nth_length, ER. exact L.
    + apply Forall_forall. intros q Hq. apply In_set_nth in Hq. destruct Hq as [->|Hq]; [exact BP|]. eapply Forall_forall in F; eassumption.
    + exists (WSpawn i :: es), s', ([OReq (Compaction (job_db (mj_key j)) t) h] ++ os). split; [cbn [Workers.wrun]; rewrite ST, R; reflexivity|].
      split; [exact CA|]. split; [intros i' [Y|Y]; [discriminate|exact (NC i' Y)]|]. cbn [w_jobs] in RR. split; [congruence|]. split; [exact OO|]. split; [exact LL|exact FF].
Qed.
(* The claim that every call is answered is false without that bound: with as many
   simultaneous compact_collection calls as there are workers the pool can come to a
   standstill (without any panic), and from then on no job ever finishes, whatever is
   called later. *)
Theorem C82_deadlock_refuted db : 1 <= W -> exists es s os, wrun winit es = Some (s, os) /\ calls es = map (nth_coll db) (seq 0 W) /\ (forall i, ~ In (WCrash i) es) /\
  forall es' s' os', wrun s es' = Some (s', os') -> s_out (w_jobs s') = [] /\ forall k r, ~ In (ODone k r) os'.
Proof.
  intros HW. destruct (fill db W (le_n W)) as (es & s & os & R & CA & NC & LR & Q & LO & OU & LP & FP & _).
  destruct (spawn_all _ s eq_refl OU) as (es2 & s2 & os2 & R2 & CA2 & NC2 & RR & OO & LL & FF); [congruence|revert FP; apply Forall_impl; intros p H; left; exact H|].
  exists (es ++ es2), s2, (os ++ os2). pose proof (wrun_app _ _ _ _ _ _ _ R R2) as RA. split; [exact RA|]. split; [unfold calls in *; rewrite flat_map_app, CA, CA2, app_nil_r; reflexivity|].
  split; [intros i; rewrite in_app_iff; intros [X|X]; [exact (NC i X)|exact (NC2 i X)]|].
  assert (ST : stuck s2).
  { split; [rewrite RR, LR; lia|]. split; [exact LL|]. revert FF. apply Forall_impl. intros p (h & hs & ->). exists h, hs. split; [reflexivity|]. unfold received. rewrite OO. reflexivity. }
  intros es' s' os' R'; destruct (stuck_run _ _ _ _ ST R') as (E & N); split; [congruence|exact N].
Qed.
End Pool.

(* ---------- panics ---------- *)
Definition is_lost (o : obs) : bool := match o with OLost _ => true | _ => false end.
Lemma lost_step W SC s e s1 o : wstep W SC s e = Some (s1, o) ->
  length (s_lost (w_jobs s1)) = length (s_lost (w_jobs s)) + length (filter is_lost o).
Proof.
  assert (FI : forall i ev, (exists r, ev = Finish i r) \/ ev = Crash i -> finish s i ev = Some (s1, o) -> length (s_lost (w_jobs s1)) = length (s_lost (w_jobs s)) + length (filter is_lost o)).
  { intros i ev D X. unfold finish in X. destruct D as [[r ->]| ->]; cbn [step] in X; destruct (nth_error (s_running (w_jobs s)) i) as [j|]; try discriminate.
    - unfold job_completed in X. cbn in X. destruct (m_get _ _ _); [destruct (forallb _ l)|]; injection X as <- <-; cbn; lia.
    - injection X as <- <-. cbn. lia. }
  destruct e as [k| |i|i|i|i r|i]; unfold Workers.wstep; intros X.
  - destruct (step (w_jobs s) (Request k)) as [[js ob]|] eqn:E; [|discriminate]. injection X as <- <-. destruct (request_step _ _ _ _ E) as (h & -> & _ & EL & _). cbn. rewrite EL. lia.
  - destruct (_ <? W); [|discriminate]. cbn [step] in X. destruct (s_queue (w_jobs s)); [discriminate|]. injection X as <- <-. cbn. lia.
  - destruct (nth_error (s_running (w_jobs s)) i) as [j|]; [|discriminate]. destruct (nth_error (w_phases s) i) as [[|[|t rest] hs|]|]; try discriminate.
    destruct (step (w_jobs s) (Request (Compaction (job_db (mj_key j)) t))) as [[js ob]|] eqn:E; [|discriminate]. injection X as <- <-. destruct (request_step _ _ _ _ E) as (h & -> & _ & EL & _). cbn. rewrite EL. lia.
  - destruct (nth_error (w_phases s) i) as [[| |[|h hs]]|]; try discriminate. destruct (received h (w_jobs s)) as [[n|e]|]; [injection X as <- <-; cbn; lia|refine (FI i _ _ X); left; eexists; reflexivity|discriminate].
  - destruct (nth_error (w_phases s) i) as [[| |[|h hs]]|]; try discriminate. refine (FI i _ _ X); left; eexists; reflexivity.
  - destruct (nth_error (w_phases s) i) as [[| |]|]; try discriminate. refine (FI i _ _ X); left; eexists; reflexivity.
  - refine (FI i _ _ X); right; reflexivity.
Qed.
Lemma lost_run W SC es : forall s s1 o, wrun W SC s es = Some (s1, o) -> length (s_lost (w_jobs s1)) = length (s_lost (w_jobs s)) + length (filter is_lost o).
Proof.
  induction es as [|e r IH]; intros s s1 o; cbn [wrun]; [intros [= <- <-]; cbn; lia|].
  destruct (wstep W SC s e) as [[s2 o2]|] eqn:E; [|discriminate]. destruct (wrun W SC s2 r) as [[s3 o3]|] eqn:R; [|discriminate]. intros [= <- <-].
  rewrite (IH _ _ _ R), (lost_step _ _ _ _ _ _ E), filter_app, app_length. lia.
Qed.
(* A panicking job ends its worker for good: once as many jobs have panicked as there were
   workers, no job is ever started again, so no later call that needs one returns. *)
Theorem C82_panics_refuted W SC es s os : wrun W SC winit es = Some (s, os) -> W <= length (filter is_lost os) ->
  forall es' s' os', wrun W SC s es' = Some (s', os') -> forall k, ~ In (ORun k) os'.
Proof.
  intros R L. assert (L0 : W <= length (s_lost (w_jobs s))) by (rewrite (lost_run _ _ _ _ _ _ R); cbn; lia). clear R L.
  induction es' as [|e r IH] in s, L0 |- *; intros s' os'; cbn [wrun]; [intros [= <- <-] k []|].
  destruct (wstep W SC s e) as [[s2 o2]|] eqn:E; [|discriminate]. destruct (wrun W SC s2 r) as [[s3 o3]|] eqn:R; [|discriminate]. intros [= <- <-] k X.
  apply in_app_iff in X. destruct X as [X|X]; [|refine (IH s2 _ _ _ R k X); rewrite (lost_step _ _ _ _ _ _ E); lia].
  destruct e as [q| |i|i|i|i q|i]; unfold wstep, finish in E.
  - destruct (step (w_jobs s) (Request q)) as [[js ob]|] eqn:E1; [|discriminate]. injection E as <- <-. destruct (request_step _ _ _ _ E1) as (h & -> & _). destruct X as [X|[]]; discriminate.
  - destruct (_ <? W) eqn:LT; [apply Nat.ltb_lt in LT; lia|discriminate].
  - destruct (nth_error (s_running (w_jobs s)) i) as [j|]; [|discriminate]. destruct (nth_error (w_phases s) i) as [[|[|t rest] hs|]|]; try discriminate.
    destruct (step (w_jobs s) (Request (Compaction (job_db (mj_key j)) t))) as [[js ob]|] eqn:E1; [|discriminate]. injection E as <- <-. destruct (request_step _ _ _ _ E1) as (h & -> & _). destruct X as [X|[]]; discriminate.
  - destruct (nth_error (w_phases s) i) as [[| |[|h hs]]|]; try discriminate. destruct (received h (w_jobs s)) as [[n|e]|]; [injection E as <- <-; destruct X| |discriminate].
    cbn [step] in E. destruct (nth_error (s_running (w_jobs s)) i) eqn:?; [|discriminate E]. destruct (job_completed _ _ _ _ _); injection E as <- <-; destruct X as [X|[]]; discriminate X.
  - destruct (nth_error (w_phases s) i) as [[| |[|h hs]]|]; try discriminate.
    cbn [step] in E. destruct (nth_error (s_running (w_jobs s)) i) eqn:?; [|discriminate E]. destruct (job_completed _ _ _ _ _); injection E as <- <-; destruct X as [X|[]]; discriminate X.
  - destruct (nth_error (w_phases s) i) as [[| |]|]; try discriminate.
    cbn [step] in E. destruct (nth_error (s_running (w_jobs s)) i) eqn:?; [|discriminate E]. destruct (job_completed _ _ _ _ _); injection E as <- <-; destruct X as [X|[]]; discriminate X.
  - cbn [step] in E. destruct (nth_error (s_running (w_jobs s)) i); [|discriminate]. injection E as <- <-; destruct X as [X|[]]; discriminate.
Qed.

(* ---------- an example ---------- *)
From Verif Require Import PropNames.
Definition ex_schema : schema := mk_schema [PropNames.ex_q] (fun _ => [PropNames.ex_v]).
Definition ex_SC (db : bytes) : schema := ex_schema.
Definition ex_db : bytes := [100%N].
Definition ex_rest (i : nat) : list wevent := [WStart; WFinish 1 (Done 0%N)].
Definition ex_go : list wevent :=
  [WRequest (Compaction ex_db TDatabase); WStart; WRequest (Compaction ex_db TKeyValue)] ++ repeat (WSpawn 0) 6 ++
  flat_map ex_rest (seq 0 6) ++ repeat (WReceive 0) 6 ++ [WReturn 0].
Definition ex_end : wstate * list obs := match wrun 2 ex_SC winit ex_go with Some x => x | None => (winit, []) end.
(* one database compaction on a pool of two workers; the compaction of the key-value tree is
   also asked for by someone else and shared *)
Example C82_database_ex : names_unique (ex_SC ex_db) /\
  wrun 2 ex_SC winit ex_go = Some (fst ex_end, removelast (snd ex_end) ++ [ODone (Some (Compaction ex_db TDatabase)) (Done 0%N)]) /\ (reqs (removelast (snd ex_end)) < u64_mod)%N /\
  s_out (w_jobs (fst ex_end)) = [(1, Done 0%N); (7, Done 0%N); (2, Done 0%N); (3, Done 0%N); (4, Done 0%N); (5, Done 0%N); (6, Done 0%N); (0, Done 0%N)].
Proof.
  split; [intros c d [<-|[]] [<-|[]] _; reflexivity|]. split; [vm_compute; reflexivity|]. split; vm_compute; reflexivity.
Qed.
Definition ex_go_c : list wevent :=
  [WRequest (Compaction ex_db (TCollection (q_encoded PropNames.ex_q))); WStart] ++ repeat (WSpawn 0) 5 ++ [WStart; WFinish 1 (Done 0%N); WStart; WFinish 1 (Failed 4%N); WReceive 0; WReceive 0].
Definition ex_end_c : wstate * list obs := match wrun 2 ex_SC winit ex_go_c with Some x => x | None => (winit, []) end.
(* the second tree's compaction fails, and so does the call, while the other jobs are queued *)
Example C82_collection_ex : wrun 2 ex_SC winit ex_go_c = Some (fst ex_end_c, removelast (snd ex_end_c) ++ [ODone (Some (Compaction ex_db (TCollection (q_encoded PropNames.ex_q)))) (Failed 4%N)]) /\
  length (s_queue (w_jobs (fst ex_end_c))) = 3 /\ length (s_running (w_jobs (fst ex_end_c))) = 0.
Proof. split; [vm_compute; reflexivity|]. split; vm_compute; reflexivity. Qed.
(* the state after the first three events of ex_go, from which the workers go on to the end *)
Definition ex_mid : wstate * list obs := match wrun 2 ex_SC winit (firstn 3 ex_go) with Some x => x | None => (winit, []) end.
Example C82_completes_ex : wrun 2 ex_SC winit (firstn 3 ex_go) = Some ex_mid /\ no_panic (snd ex_mid) /\ compactions (fst ex_mid) = 1 /\
  forallb internal (skipn 3 ex_go) = true /\ exists s', wrun 2 ex_SC (fst ex_mid) (skipn 3 ex_go) = Some s' /\ live (w_jobs (fst s')) = [].
Proof.
  split; [vm_compute; reflexivity|]. split; [intros k H; vm_compute in H; intuition discriminate|]. split; [vm_compute; reflexivity|]. split; [vm_compute; reflexivity|].
  exists (match wrun 2 ex_SC (fst ex_mid) (skipn 3 ex_go) with Some x => x | None => (winit, []) end). split; vm_compute; reflexivity.
Qed.
(* two workers, two collections: the events of the deadlock *)
Example C82_deadlock_ex : exists x, wrun 2 ex_SC winit
  ([WRequest (nth_coll ex_db 0); WRequest (nth_coll ex_db 1); WStart; WStart] ++ repeat (WSpawn 0) 2 ++ repeat (WSpawn 1) 2 ++ [WRequest (ViewMap ex_db [1%N] [2%N])]) = Some x /\
  length (s_queue (w_jobs (fst x))) = 5 /\ wstep 2 ex_SC (fst x) WStart = None /\ wstep 2 ex_SC (fst x) (WReceive 0) = None /\ wstep 2 ex_SC (fst x) (WReceive 1) = None.
Proof.
  exists (match wrun 2 ex_SC winit
    ([WRequest (nth_coll ex_db 0); WRequest (nth_coll ex_db 1); WStart; WStart] ++ repeat (WSpawn 0) 2 ++ repeat (WSpawn 1) 2 ++ [WRequest (ViewMap ex_db [1%N] [2%N])]) with Some x => x | None => (winit, []) end).
  repeat match goal with |- _ /\ _ => split end; vm_compute; reflexivity.
Qed.
Example C82_panics_ex : exists x, wrun 1 ex_SC winit [WRequest (ViewMap ex_db [1%N] [2%N]); WStart; WCrash 0; WRequest (ViewMap ex_db [1%N] [3%N])] = Some x /\
  length (filter is_lost (snd x)) = 1 /\ wstep 1 ex_SC (fst x) WStart = None.
Proof.
  exists (match wrun 1 ex_SC winit [WRequest (ViewMap ex_db [1%N] [2%N]); WStart; WCrash 0; WRequest (ViewMap ex_db [1%N] [3%N])] with Some x => x | None => (winit, []) end).
  repeat match goal with |- _ /\ _ => split end; vm_compute; reflexivity.
Qed.

Print Assumptions C82_database.
Print Assumptions C82_collection.
Print Assumptions C82_completes.
Print Assumptions C82_deadlock_refuted.
Print Assumptions C82_panics_refuted.
