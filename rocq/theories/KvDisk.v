(* What is on disk: lemmas for C39, C40 and C43. *)
From Coq Require Import ZifyBool.
From Verif Require Import Kv KvSpec KvProofs KvSim PropKv.

Lemma run_app s a b : run s (a ++ b) =
  match run s a with
  | Some (r1, s1) => match run s1 b with Some (r2, s2) => Some (r1 ++ r2, s2) | None => None end
  | None => None
  end.
Proof.
  revert s; induction a as [|e r IH]; intros s; cbn [app run].
  - destruct (run s b) as [[r2 s2]|]; reflexivity.
  - destruct (step s e) as [| |o s1]; [reflexivity|apply IH|]. rewrite IH.
    destruct (run s1 r) as [[r1 s2]|]; [|reflexivity]. destruct (run s2 b) as [[r2 s3]|]; [|reflexivity].
    destruct o; reflexivity.
Qed.

(* the map the disk would hold if this batch were written to it *)
Definition over (b : batch) (d : tree entry) (k : bytes) : option cell :=
  option_map cell_of (match t_get k b with Some e => e | None => t_get k d end).

Definition after (m : kmap) (es : list event) (n : nat) : kmap := snd (spec_run m (firstn n es)).
Lemma after_all m es : after m es (length es) = snd (spec_run m es).
Proof. unfold after. rewrite firstn_all. reflexivity. Qed.
Lemma after_app m a b n : n <= length a -> after m (a ++ b) n = after m a n.
Proof. intros H. unfold after. rewrite firstn_app. replace (n - length a) with 0 by lia. cbn. rewrite app_nil_r. reflexivity. Qed.

(* nd: the prefix on disk; np: the prefix that will be on disk once the batch is written *)
Definition dinv (m : kmap) (es : list event) (s : kst) (nd np : nat) : Prop :=
  nd <= np <= length es /\
  (forall k, disk_map (k_disk s) k = after m es nd k) /\
  match k_pers s with
  | Some p => forall k, over p (k_disk s) k = after m es np k
  | None => nd = np
  end /\
  (forall b, k_thread s = Some (b, true) -> nd = np).

Lemma abs_clean s : k_dirty s = [] -> k_pers s = None -> forall k, abs s k = disk_map (k_disk s) k.
Proof. intros D P k. unfold abs, kv_get, disk_map. rewrite D, P. reflexivity. Qed.
Lemma abs_staged s p : k_dirty s = [] -> k_pers s = Some p -> forall k, abs s k = over p (k_disk s) k.
Proof. intros D P k. unfold abs, kv_get, over. rewrite D, P. cbn [t_get]. destruct (t_get k p); reflexivity. Qed.
Lemma thread_pers s b w : kinv s -> k_thread s = Some (b, w) -> k_pers s = Some b.
Proof. intros (_ & _ & _ & _ & T) H. unfold thread_ok in T. rewrite H in T. apply T. Qed.

(* an event that leaves disk, batch and thread alone *)
Lemma dinv_keep m es e s s' nd np : dinv m es s nd np ->
  k_disk s' = k_disk s -> k_pers s' = k_pers s -> k_thread s' = k_thread s -> dinv m (es ++ [e]) s' nd np.
Proof.
  intros (L & D & P & T) E1 E2 E3. unfold dinv. rewrite E1, E2, E3. rewrite app_length. cbn.
  split; [lia|]. split; [intros k; rewrite after_app by lia; apply D|]. split; [|exact T].
  destruct (k_pers s); [|exact P]. intros k. rewrite after_app by lia. apply P.
Qed.
(* committing right after the event *)
Lemma dinv_stage m es e s s0 b s1 nd np : dinv m es s nd np -> kinv s0 ->
  k_disk s0 = k_disk s -> k_pers s0 = k_pers s -> stage s0 = Some (b, s1) ->
  (forall k, abs s0 k = snd (spec_run m (es ++ [e])) k) ->
  forall s2, k_disk s2 = k_disk s1 -> k_pers s2 = k_pers s1 -> k_thread s2 = Some (b, false) ->
  dinv m (es ++ [e]) s2 nd (S (length es)).
Proof.
  intros (L & D & P & T) I0 E1 E2 St A s2 F1 F2 F3.
  destruct (stage_ok s0 b s1 I0 St) as (_ & G & _ & D1 & P1 & K1 & _ & PN).
  unfold dinv. rewrite F1, F2, F3, K1, P1, E1, app_length. cbn [length].
  rewrite E2 in PN. rewrite PN in P. subst np.
  split; [lia|]. split; [intros k; rewrite after_app by lia; apply D|]. split; [|intros b' H; discriminate H].
  intros k.
  replace (S (length es)) with (length (es ++ [e])) by (rewrite app_length; cbn; lia). rewrite after_all, <- A.
  assert (AS : abs s1 k = over b (k_disk s1) k) by (apply abs_staged; assumption).
  rewrite K1, E1 in AS. rewrite <- AS. unfold abs. rewrite G. reflexivity.
Qed.

Lemma spec_event_app m es e : snd (spec_run m (es ++ [e])) = snd (spec_event (snd (spec_run m es)) e).
Proof.
  rewrite spec_run_app. destruct (spec_run m es) as [r1 m1]. cbn [spec_run snd]. destruct (spec_event m1 e) as [o m2]. reflexivity.
Qed.

Lemma exec_same s k c now r s2 : kinv s -> cmd_ok c -> cell_ok (abs s k) -> exec s k c now = Some (r, s2) -> same_rest s s2.
Proof. intros I C V E. destruct (exec_ok s k c now I C V) as (r' & s2' & e & E' & P & _). rewrite E in E'. injection E' as <- <-. apply P. Qed.

Lemma dinv_maybe_commit m es e s s0 now (b : bool) nd np : dinv m es s nd np ->
  rel s0 (snd (spec_run m (es ++ [e]))) ->
  k_disk s0 = k_disk s -> k_pers s0 = k_pers s -> k_thread s0 = k_thread s ->
  exists np', np <= np' /\ dinv m (es ++ [e]) (if b then snd (commit_dirty s0 now) else s0) nd np'.
Proof.
  intros D (I0 & _ & A & _) E1 E2 E3. destruct b; [|exists np; split; [lia|]; eapply dinv_keep; eassumption].
  unfold commit_dirty. destruct (stage s0) as [[bt s1]|] eqn:St; [|exists np; split; [lia|]; eapply dinv_keep; eassumption].
  exists (S (length es)). split; [destruct D; lia|].
  eapply dinv_stage; try eassumption; try reflexivity.
Qed.

Lemma dinv_step m es e s s' o nd np : dinv m es s nd np -> rel s (snd (spec_run m es)) -> no_loader e -> event_ok e ->
  step s e = SOk o s' -> exists nd' np', nd <= nd' /\ np <= np' /\ dinv m (es ++ [e]) s' nd' np'.
Proof.
  intros D R NL OK ST. pose proof (step_sim s _ e R NL OK) as SS. rewrite ST in SS. destruct SS as [_ R'].
  rewrite <- spec_event_app in R'. pose proof R as (I & _ & A & V).
  destruct e as [ns key c now|now| | | |now|l|]; try (destruct NL; fail); cbn [step] in ST.
  - unfold perform in ST.
    destruct (expire_rel s _ now R) as (s1 & E & R1). rewrite E in ST.
    destruct (kv_expire_ok now s I) as (s1' & E' & _ & _ & _ & P1 & D1 & T1 & _). rewrite E in E'; injection E' as <-.
    pose proof R1 as (I1 & _ & A1 & V1).
    destruct (exec_ok s1 (full_key ns key) c now I1 OK) as (r & s2 & x & X & PO & SP).
    { rewrite A1. apply V1. }
    pose proof (post_synced _ _ _ _ PO) as Sy. destruct PO as (I2 & SR & G & _).
    rewrite X in ST. destruct SR as (P2 & D2 & T2 & _).
    assert (R2 : rel s2 (snd (spec_run m (es ++ [EOp ns key c now])))).
    { rewrite spec_event_app. cbn [spec_event]. rewrite <- A1, SP. cbn [snd].
      split; [exact I2|]. split; [apply Sy, R1|]. split.
      - intros j. rewrite (put_abs s1 s2 (full_key ns key) x G j). unfold put. rewrite A1. reflexivity.
      - intros j. unfold put. destruct (bytes_eqb j (full_key ns key)); [|apply V1].
        replace (option_map cell_of x) with (snd (spec_cmd c (abs s1 (full_key ns key)))) by (rewrite SP; reflexivity).
        apply exec_cell_ok; [exact OK|]. rewrite A1. apply V1. }
    destruct r as [out|err]; injection ST as _ <-.
    + destruct (dinv_maybe_commit m es (EOp ns key c now) s s2 now (needs_commit s2 now) nd np D R2) as (np' & L & Dn); try congruence.
      exists nd, np'. split; [lia|]. split; [exact L|exact Dn].
    + exists nd, np. split; [lia|]. split; [lia|]. eapply dinv_keep; [exact D|congruence..].
  - unfold bg_round in ST. destruct (expire_rel s _ now R) as (s1 & E & R1). rewrite E in ST.
    destruct (kv_expire_ok now s I) as (s1' & E' & _ & _ & _ & P1 & D1 & T1 & _). rewrite E in E'; injection E' as <-.
    cbn [liftp] in ST. injection ST as _ <-.
    destruct (dinv_maybe_commit m es (ETick now) s s1 now (needs_commit s1 now) nd np D) as (np' & L & Dn); try congruence.
    { rewrite spec_event_app. exact R1. }
    exists nd, np'. split; [lia|]. split; [exact L|exact Dn].
  - destruct (thread_write s) as [s2|] eqn:W; cbn [lift] in ST; [|discriminate]. injection ST as _ <-.
    unfold thread_write in W. destruct (k_thread s) as [[b []]|] eqn:Th; try discriminate. injection W as <-.
    pose proof (thread_pers s b false I Th) as P. destruct D as (L & Dd & Dp & Dt). rewrite P in Dp.
    assert (Wb : t_wf b) by (destruct I as (_ & _ & _ & Wp & _); apply Wp; exact P).
    exists np, np. split; [lia|]. split; [lia|]. unfold dinv. cbn [k_disk k_pers k_thread set_thread set_disk]. rewrite P, app_length. cbn [length].
    split; [lia|]. split; [|split; [|intros; reflexivity]].
    + intros k. rewrite after_app by lia. rewrite <- Dp. unfold disk_map, over. rewrite get_write_batch by exact Wb. reflexivity.
    + intros k. rewrite after_app by lia. rewrite <- Dp. unfold over. rewrite get_write_batch by exact Wb.
      destruct (t_get k b); reflexivity.
  - destruct (thread_fail s) as [s2|] eqn:W; cbn [lift] in ST; [|discriminate]. injection ST as _ <-.
    unfold thread_fail in W. destruct (k_thread s) as [[b []]|] eqn:Th; try discriminate. injection W as <-.
    destruct D as (L & Dd & Dp & Dt). exists nd, np. split; [lia|]. split; [lia|].
    unfold dinv. cbn [k_disk k_pers k_thread set_thread]. rewrite app_length. cbn [length].
    split; [lia|]. split; [intros k; rewrite after_app by lia; apply Dd|]. split; [|intros b' H; discriminate H].
    destruct (k_pers s); [|exact Dp]. intros k. rewrite after_app by lia. apply Dp.
  - destruct (thread_finish s) as [s2|] eqn:W; cbn [lift] in ST; [|discriminate]. injection ST as _ <-.
    unfold thread_finish in W. destruct (k_thread s) as [[b []]|] eqn:Th; try discriminate.
    pose proof D as (L & Dd & Dp & Dt). pose proof (Dt b Th) as <-.
    destruct (unpersist_view s b I Th) as (I1 & G1 & _). cbn zeta in *. set (s1 := set_thread None (set_pers None s)) in *.
    assert (D1 : dinv m es s1 nd nd).
    { unfold dinv. cbn. split; [exact L|]. split; [exact Dd|]. split; [reflexivity|discriminate]. }
    assert (A1 : forall k, abs s1 k = snd (spec_run m (es ++ [EFinish])) k).
    { intros k. rewrite spec_event_app. cbn [spec_event snd]. rewrite <- A. unfold abs. rewrite G1. reflexivity. }
    injection W as <-. change (k_shut s) with (k_shut s1). destruct (k_shut s1).
    + destruct (stage s1) as [[b2 s2]|] eqn:St.
      * exists nd, (S (length es)). split; [lia|]. split; [lia|].
        eapply (dinv_stage m es EFinish s1 s1 b2 s2 nd nd D1 I1 eq_refl eq_refl St A1); reflexivity.
      * exists nd, nd. split; [lia|]. split; [lia|]. eapply dinv_keep; [exact D1|reflexivity..].
    + exists nd, nd. split; [lia|]. split; [lia|]. eapply dinv_keep; [exact D1|reflexivity..].
  - injection ST as _ <-. unfold kv_shutdown. destruct (k_pers s) eqn:P.
    { exists nd, np. split; [lia|]. split; [lia|]. eapply dinv_keep; [exact D|reflexivity..]. }
    unfold commit_dirty. destruct (stage s) as [[b s1]|] eqn:St; cbn [snd].
    + exists nd, (S (length es)). split; [lia|]. split; [destruct D; lia|].
      eapply (dinv_stage m es (EShutdown now) s s b s1 nd np D I eq_refl eq_refl St); try reflexivity.
      intros k. rewrite spec_event_app. cbn [spec_event snd]. apply A.
    + exists nd, np. split; [lia|]. split; [lia|]. eapply dinv_keep; [exact D|reflexivity..].
Qed.

Lemma dinv_run m es2 : forall es1 s nd np, dinv m es1 s nd np -> rel s (snd (spec_run m es1)) ->
  Forall no_loader es2 -> Forall event_ok es2 ->
  exists rs s' nd' np', run s es2 = Some (rs, s') /\ rel s' (snd (spec_run m (es1 ++ es2))) /\
    nd <= nd' /\ np <= np' /\ dinv m (es1 ++ es2) s' nd' np'.
Proof.
  induction es2 as [|e r IH]; intros es1 s nd np D R NL OK.
  - exists [], s, nd, np. rewrite app_nil_r. auto.
  - inversion NL as [|? ? N1 N2]; subst. inversion OK as [|? ? O1 O2]; subst. cbn [run].
    pose proof (step_sim s _ e R N1 O1) as SS. destruct (step s e) as [| |o s1] eqn:ST.
    + destruct SS.
    + destruct SS as [SE R1].
      assert (D1 : dinv m (es1 ++ [e]) s nd np) by (eapply dinv_keep; [exact D|reflexivity..]).
      destruct (IH (es1 ++ [e]) s nd np D1) as (rs & s' & nd' & np' & E & R' & L1 & L2 & D'); try assumption.
      { rewrite spec_event_app, SE. exact R. }
      exists rs, s', nd', np'. rewrite <- app_assoc in *. auto.
    + destruct SS as [_ R1].
      destruct (dinv_step m es1 e s s1 o nd np D R N1 O1 ST) as (nd1 & np1 & L1 & L2 & D1).
      destruct (IH (es1 ++ [e]) s1 nd1 np1 D1) as (rs & s' & nd' & np' & E & R' & L3 & L4 & D'); try assumption.
      { rewrite spec_event_app. exact R1. }
      rewrite E. eexists _, s', nd', np'. split; [reflexivity|]. rewrite <- app_assoc in *. split; [exact R'|]. split; [lia|]. split; [lia|exact D'].
Qed.
Lemma load_all_rest n : forall s s', load_all n s = Some s' -> k_disk s' = k_disk s /\ k_pers s' = k_pers s /\ k_thread s' = k_thread s /\ k_dirty s' = k_dirty s
  /\ k_shut s' = k_shut s /\ k_down s' = k_down s.
Proof.
  induction n as [|n IH]; intros s s' H; cbn in H; [injection H as <-; auto 6|].
  destruct (load_one s) as [s1|] eqn:L; [|discriminate]. destruct (IH s1 s' H) as (A & B & C & D & E & F).
  assert (Q : k_disk s1 = k_disk s /\ k_pers s1 = k_pers s /\ k_thread s1 = k_thread s /\ k_dirty s1 = k_dirty s /\ k_shut s1 = k_shut s /\ k_down s1 = k_down s).
  { unfold load_one in L. destruct (k_load s) as [|[k x] r]; [injection L as <-; auto 6|]. unfold update_exp in L.
    destruct x as [t|].
    - destruct (match t_get k (k_exp (set_load r s)) with Some _ => _ | None => _ end) as [o1|]; [|discriminate].
      destruct (order_insert _ _ _ _); [|discriminate]. injection L as <-. repeat split.
    - destruct (t_get k (k_exp (set_load r s))); [|injection L as <-; repeat split].
      destruct (find_index _ _); [|discriminate]. injection L as <-. repeat split. }
  destruct Q as (Q1 & Q2 & Q3 & Q4 & Q5 & Q6). repeat split; congruence.
Qed.
Lemma opened_clean p now l d s : opened p now l d = Some s ->
  k_disk s = d /\ k_pers s = None /\ k_thread s = None /\ k_dirty s = [] /\ k_shut s = false /\ k_down s = false.
Proof. intros H. unfold opened in H. apply load_all_rest in H. exact H. Qed.
Lemma dinv_open p now l d s : opened p now l d = Some s -> dinv (disk_map d) [] s 0 0.
Proof.
  intros H. apply opened_clean in H. destruct H as (D & P & T & _). unfold dinv. rewrite D, P, T.
  split; [cbn; lia|]. split; [reflexivity|]. split; [reflexivity|discriminate].
Qed.
