(* C39, C40, C42: what the key-value store leaves on disk. *)
From Coq Require Import ZifyBool Permutation.
From Verif Require Import Kv KvSpec KvProofs KvSim PropKv KvDisk.

(* C39. After any history (that is, at any crash point) the disk holds the map
   after some prefix of the history: no change is there without all earlier ones. *)
Theorem C39_prefix p now launched d es : stored_before launched d -> Forall no_loader es -> Forall event_ok es ->
  exists s0 rs s n, opened p now launched d = Some s0 /\ run s0 es = Some (rs, s) /\ n <= length es /\
    forall k, disk_map (k_disk s) k = snd (spec_run (disk_map d) (firstn n es)) k.
Proof.
  intros [D B] NL OK. destruct (opened_rel p now launched d D B) as (s0 & E & R).
  destruct (dinv_run (disk_map d) es [] s0 0 0 (dinv_open _ _ _ _ _ E) R NL OK) as (rs & s & nd & np & RN & _ & _ & _ & DI).
  exists s0, rs, s, nd. split; [exact E|]. split; [exact RN|]. cbn in DI. destruct DI as (L & DD & _). split; [lia|exact DD].
Qed.
(* The prefix includes everything before the last finished commit started: if all
   changes of es1 have left the buffer (a commit has started) and later, after
   es2, no commit is in flight, then at every later crash point the prefix is at
   least es1. *)
Theorem C39_committed p now launched d es1 es2 es3 : stored_before launched d ->
  Forall no_loader (es1 ++ es2 ++ es3) -> Forall event_ok (es1 ++ es2 ++ es3) ->
  exists s0 r1 s1 r2 s2 r3 s3, opened p now launched d = Some s0 /\ run s0 es1 = Some (r1, s1) /\
    run s1 es2 = Some (r2, s2) /\ run s2 es3 = Some (r3, s3) /\
    (k_dirty s1 = [] -> k_pers s2 = None ->
     exists n, length es1 <= n <= length (es1 ++ es2 ++ es3) /\
       forall k, disk_map (k_disk s3) k = snd (spec_run (disk_map d) (firstn n (es1 ++ es2 ++ es3))) k).
Proof.
  intros [D B] NL OK. destruct (opened_rel p now launched d D B) as (s0 & E & R).
  apply Forall_app in NL. destruct NL as [N1 NL]. apply Forall_app in NL. destruct NL as [N2 N3].
  apply Forall_app in OK. destruct OK as [O1 OK]. apply Forall_app in OK. destruct OK as [O2 O3].
  set (m := disk_map d) in *.
  destruct (dinv_run m es1 [] s0 0 0 (dinv_open _ _ _ _ _ E) R N1 O1) as (r1 & s1 & nd1 & np1 & E1 & R1 & _ & _ & D1). cbn in R1, D1.
  destruct (dinv_run m es2 es1 s1 nd1 np1 D1 R1 N2 O2) as (r2 & s2 & nd2 & np2 & E2 & R2 & _ & _ & D2).
  destruct (dinv_run m es3 (es1 ++ es2) s2 nd2 np2 D2 R2 N3 O3) as (r3 & s3 & nd3 & np3 & E3 & _).
  exists s0, r1, s1, r2, s2, r3, s3. do 4 (split; [assumption|]). intros DE PN.
  assert (D1' : exists nd np, dinv m es1 s1 nd np /\ np = length es1).
  { destruct D1 as (L & Dd & Dp & Dt). pose proof R1 as (_ & _ & A1 & _). destruct (k_pers s1) as [b|] eqn:P.
    - assert (OV : forall k, over b (k_disk s1) k = after m es1 (length es1) k).
      { intros k. rewrite after_all, <- A1. symmetry. apply abs_staged; assumption. }
      destruct (k_thread s1) as [[b' []]|] eqn:T'.
      + exists (length es1), (length es1). split; [|reflexivity]. split; [lia|]. rewrite P. split; [|split; [exact OV|reflexivity]].
        intros k. rewrite after_all, <- A1. destruct (unpersist_view s1 b') as (_ & _ & U); [apply R1|exact T'|].
        unfold disk_map, abs. rewrite (U k DE). reflexivity.
      + exists nd1, (length es1). split; [|reflexivity]. split; [lia|]. split; [exact Dd|]. rewrite P. split; [exact OV|].
        intros b2 H. rewrite T' in H. discriminate H.
      + exists nd1, (length es1). split; [|reflexivity]. split; [lia|]. split; [exact Dd|]. rewrite P. split; [exact OV|].
        intros b2 H. rewrite T' in H. discriminate H.
    - exists (length es1), (length es1). split; [|reflexivity]. split; [lia|]. split; [|rewrite P; split; reflexivity].
      intros k. rewrite after_all, <- A1. symmetry. apply abs_clean; assumption. }
  destruct D1' as (nd & np & D1' & ->).
  destruct (dinv_run m es2 es1 s1 nd (length es1) D1' R1 N2 O2) as (r2' & s2' & nd2' & np2' & E2' & R2' & _ & L2 & D2').
  rewrite E2 in E2'. injection E2' as <- <-.
  destruct (dinv_run m es3 (es1 ++ es2) s2 nd2' np2' D2' R2' N3 O3) as (r3' & s3' & nd3' & np3' & E3' & _ & L3 & _ & D3').
  rewrite E3 in E3'. injection E3' as <- <-.
  destruct D2' as (_ & _ & Q & _). rewrite PN in Q. subst np2'. destruct D3' as (L & DD & _). rewrite <- app_assoc in *.
  exists nd3'. split; [lia|exact DD].
Qed.
Example C39_ex :
  let es1 := [EOp None [1%N] (setv (VBytes [7%N]) None) (T 5)] in
  let es2 := [EWrite; EOp None [1%N] (setv (VBytes [8%N]) None) (T 6); EFinish] in
  Forall no_loader (es1 ++ es2) /\ Forall event_ok (es1 ++ es2) /\
  option_map (fun p => k_dirty (snd p)) (run (kv_open PImmediate (T 1) []) es1) = Some [] /\
  option_map (fun p => (k_pers (snd p), map snd (k_disk (snd p)))) (run (kv_open PImmediate (T 1) []) (es1 ++ es2))
    = Some (None, [Entry (VBytes [7%N]) None (T 5)]).
Proof. split; [repeat constructor|split; [repeat constructor|split; reflexivity]]. Qed.

(* What a reopened database answers after a crash: the answers of the map after
   that prefix. *)
Theorem C39_reopen p now launched d es p' now' launched' es' : stored_before launched d ->
  Forall no_loader es -> Forall event_ok es -> Forall no_loader es' -> Forall event_ok es' ->
  exists s0 rs s n, opened p now launched d = Some s0 /\ run s0 es = Some (rs, s) /\ n <= length es /\
    (stored_before launched' (k_disk s) ->
     exists s1 s2, opened p' now' launched' (k_disk s) = Some s1 /\
       run s1 es' = Some (fst (spec_run (snd (spec_run (disk_map d) (firstn n es))) es'), s2)).
Proof.
  intros SB NL OK NL' OK'. destruct (C39_prefix p now launched d es SB NL OK) as (s0 & rs & s & n & E & R & L & D).
  exists s0, rs, s, n. do 3 (split; [assumption|]). intros SB'.
  destruct SB' as [D2 B2]. destruct (opened_rel p' now' launched' (k_disk s) D2 B2) as (s1 & E1 & R1).
  assert (R1' : rel s1 (snd (spec_run (disk_map d) (firstn n es)))) by (eapply rel_ext; [exact D|exact R1]).
  destruct (run_sim s1 _ es' R1' NL' OK') as (rs' & s2 & Q & -> & _). exists s1, s2. auto.
Qed.

(* ---------- C40 ---------- *)
(* Orderly shutdown when no write is in flight: if shutdown does not wait, every
   change is already on disk; if it waits, then once it has been signalled the
   disk holds the map after the whole history (only expirations noticed by the
   background worker during the shutdown may be missing). *)
Definition worker_event (e : event) : Prop := match e with ETick _ | EWrite | EFinish => True | _ => False end.
Lemma worker_no_loader e : worker_event e -> no_loader e /\ event_ok e.
Proof. destruct e; cbn; intros []; auto. Qed.
Lemma down_run m N es2 : forall es1 s nd np, dinv m es1 s nd np -> rel s (snd (spec_run m es1)) ->
  Forall worker_event es2 -> N <= np -> (k_down s = true -> N <= nd) ->
  exists rs s' nd' np', run s es2 = Some (rs, s') /\ dinv m (es1 ++ es2) s' nd' np' /\ (k_down s' = true -> N <= nd').
Proof.
  induction es2 as [|e r IH]; intros es1 s nd np D R W LN DN.
  - exists [], s, nd, np. rewrite app_nil_r. auto.
  - inversion W as [|? ? W1 W2]; subst. destruct (worker_no_loader e W1) as [N1 O1]. cbn [run].
    pose proof (step_sim s _ e R N1 O1) as SS. destruct (step s e) as [| |o s1] eqn:ST.
    + destruct SS.
    + destruct SS as [SE R1].
      destruct (IH (es1 ++ [e]) s nd np) as (rs & s' & nd' & np' & E & D' & DN'); try assumption.
      { eapply dinv_keep; [exact D|reflexivity..]. }
      { rewrite spec_event_app, SE. exact R. }
      exists rs, s', nd', np'. rewrite <- app_assoc in *. auto.
    + destruct SS as [_ R1].
      destruct (dinv_step m es1 e s s1 o nd np D R N1 O1 ST) as (nd1 & np1 & L1 & L2 & D1).
      assert (DN1 : k_down s1 = true -> N <= nd1).
      { intros H. destruct (k_down s) eqn:KD; [specialize (DN eq_refl); lia|].
        destruct e as [ns key c now|now| | | |now|l|]; try (destruct W1; fail); cbn [step] in ST.
        - exfalso. unfold bg_round in ST. destruct (kv_expire_ok now s) as (s2 & E & _ & _ & _ & _ & _ & _ & _ & KD2 & _); [apply R|].
          rewrite E in ST. cbn in ST. injection ST as _ <-. destruct (needs_commit s2 now); [|congruence].
          unfold commit_dirty in H. destruct (stage s2) as [[b s3]|] eqn:St; cbn in H; [|congruence].
          unfold stage in St. destruct (k_dirty s2); [discriminate|]. destruct (k_pers s2); [discriminate|]. injection St as _ <-. cbn in H. congruence.
        - exfalso. unfold thread_write in ST. destruct (k_thread s) as [[b []]|]; try discriminate. injection ST as _ <-. cbn in H. congruence.
        - unfold thread_finish in ST. destruct (k_thread s) as [[b []]|] eqn:Th; try discriminate. cbn [lift] in ST. injection ST as _ <-.
          destruct (k_shut s) eqn:Q0 in *; [|cbn in H; congruence].
          destruct (stage (set_thread None (set_pers None s))) as [[b2 s2]|] eqn:St in *.
          + exfalso. unfold stage in St. destruct (k_dirty (set_thread None (set_pers None s))); [discriminate|]. cbn in St. injection St as _ <-. cbn in H. congruence.
          + destruct D1 as (_ & _ & Q & _). cbn in Q. lia. }
      destruct (IH (es1 ++ [e]) s1 nd1 np1) as (rs & s' & nd' & np' & E & D' & DN'); try assumption.
      { rewrite spec_event_app. exact R1. }
      { lia. }
      rewrite E. eexists _, s', nd', np'. split; [reflexivity|]. rewrite <- app_assoc in *. auto.
Qed.
Theorem C40_shutdown p now launched d es t es2 : stored_before launched d -> Forall no_loader es -> Forall event_ok es ->
  Forall worker_event es2 ->
  exists s0 rs s, opened p now launched d = Some s0 /\ run s0 es = Some (rs, s) /\
    (k_pers s = None -> k_down s = false ->
     let '(waits, s1) := kv_shutdown s t in
     (waits = false -> forall k, disk_map (k_disk s1) k = snd (spec_run (disk_map d) es) k) /\
     (waits = true -> exists rs2 s2, run s1 es2 = Some (rs2, s2) /\
        (k_down s2 = true -> exists ticks, Forall worker_event ticks /\
           forall k, disk_map (k_disk s2) k = snd (spec_run (snd (spec_run (disk_map d) es)) ticks) k)) /\
     (waits = true -> exists s2, run s1 [EWrite; EFinish] = Some ([], s2) /\ k_down s2 = true /\
           forall k, disk_map (k_disk s2) k = snd (spec_run (disk_map d) es) k)).
Proof.
  intros [D B] NL OK W. destruct (opened_rel p now launched d D B) as (s0 & E & R0). set (m := disk_map d) in *.
  destruct (dinv_run m es [] s0 0 0 (dinv_open _ _ _ _ _ E) R0 NL OK) as (rs & s & nd & np & RN & R & _ & _ & DI). cbn in R, DI.
  exists s0, rs, s. do 2 (split; [assumption|]). intros PN KD.
  pose proof R as (I & _ & A & _).
  pose proof (step_sim s _ (EShutdown t) R Logic.I Logic.I) as SS. cbn [step] in SS. destruct SS as [_ R1]. cbn [spec_event snd] in R1.
  destruct (dinv_step m es (EShutdown t) s (snd (kv_shutdown s t)) None nd np DI R Logic.I Logic.I eq_refl) as (nd1 & np1 & L1 & L2 & D1).
  unfold kv_shutdown in *. rewrite PN in *. unfold commit_dirty in *.
  destruct (stage s) as [[b s1]|] eqn:St.
  - destruct (stage_ok s b s1 I St) as (I1 & G1 & X1 & Dy1 & P1 & K1 & Eb & _).
    cbn [snd] in *. set (s2 := set_shut true false (set_last t (set_thread (Some (b, false)) s1))) in *.
    split; [discriminate|]. split; intros _.
    + set (es' := es ++ [EShutdown t]) in *.
      assert (D1' : dinv m es' s2 nd1 (length es')).
      { destruct D1 as (La & Da & Dp & Dt). split; [lia|]. split; [exact Da|]. change (k_pers s2) with (k_pers s1). rewrite P1.
        split; [|intros b' H; discriminate H]. intros k. rewrite after_all. unfold es'. rewrite spec_event_app. cbn [spec_event snd].
        rewrite <- A. change (k_disk s2) with (k_disk s1). rewrite <- (abs_staged s1 b Dy1 P1 k). unfold abs. rewrite G1. reflexivity. }
      destruct (down_run m (length es) es2 es' s2 nd1 (length es')) as (rs2 & s3 & nd3 & np3 & E3 & D3 & DN); try assumption.
      { unfold es'. rewrite spec_event_app. exact R1. }
      { unfold es'. rewrite app_length. lia. }
      { discriminate. }
      exists rs2, s3. split; [exact E3|]. intros KD3. specialize (DN KD3). destruct D3 as (_ & DD & _).
      unfold es', after in DD. rewrite <- app_assoc, firstn_app, firstn_all2 in DD by exact DN.
      set (l := firstn (nd3 - length es) ([EShutdown t] ++ es2)) in *.
      exists (filter visible l). split.
      * apply Forall_forall. intros e Q. apply filter_In in Q. destruct Q as [Q V].
        assert (Q' : In e ([EShutdown t] ++ es2)) by (rewrite <- (firstn_skipn (nd3 - length es)); apply in_app_iff; left; exact Q).
        destruct Q' as [<-|Q']; [discriminate V|]. rewrite Forall_forall in W. apply W, Q'.
      * intros k. rewrite DD, spec_run_app, <- spec_run_visible. destruct (spec_run m es) as [x1 x2]. cbn [snd].
        destruct (spec_run x2 l). reflexivity.
    + eexists. cbn [run step thread_write k_thread s2 set_shut set_last set_thread lift].
      unfold thread_finish. cbn [k_thread set_thread set_disk set_shut set_last lift].
      assert (STG : forall x, k_dirty x = [] -> stage x = None) by (intros x H; unfold stage; rewrite H; reflexivity).
      rewrite STG by exact Dy1. split; [reflexivity|]. cbn. split; [reflexivity|].
      intros k. rewrite <- A. unfold disk_map. rewrite get_write_batch.
      * change (over b (k_disk s1) k = abs s k). rewrite <- (abs_staged s1 b Dy1 P1 k). unfold abs. rewrite G1. reflexivity.
      * destruct I as (_ & Wd & _). rewrite Eb. exact Wd.
  - cbn [snd] in *. split; [intros _|split; discriminate].
    assert (DE : k_dirty s = []) by (unfold stage in St; rewrite PN in St; destruct (k_dirty s); [reflexivity|discriminate]).
    intros k. rewrite <- A. symmetry. apply abs_clean; assumption.
Qed.
Definition lazy10 : policy := lazy_policy [Rule 10 0].
Example C40_ex : exists s0 rs s, opened lazy10 (T 1) (T 1) [] = Some s0 /\
  run s0 [EOp None [1%N] (setv (VBytes [7%N]) None) (T 5)] = Some (rs, s) /\ k_pers s = None /\ k_down s = false /\
  fst (kv_shutdown s (T 6)) = true /\ k_disk s = [].
Proof. do 3 eexists. repeat split. Qed.
(* If a write is in flight at shutdown, shutdown does not wait and what has been
   changed since that write started is lost, even if the writer still finishes. *)
Theorem C40_in_flight_refuted : exists es t rs s,
  run (kv_open PImmediate (T 1) []) es = Some (rs, s) /\
  fst (kv_shutdown s t) = false /\
  exists rs2 s2, run (snd (kv_shutdown s t)) [EWrite; EFinish] = Some (rs2, s2) /\
  exists k, disk_map (k_disk s2) k <> snd (spec_run (fun _ => None) es) k.
Proof.
  exists [EOp None [1%N] (setv (VBytes [7%N]) None) (T 5); EOp None [2%N] (setv (VBytes [8%N]) None) (T 6)], (T 7).
  match goal with |- exists rs s, run ?a ?b = _ /\ _ =>
    let r := eval vm_compute in (run a b) in match r with Some (?x, ?y) => exists x, y end end.
  split; [vm_compute; reflexivity|]. split; [vm_compute; reflexivity|].
  match goal with |- exists rs s, run ?a ?b = _ /\ _ =>
    let r := eval vm_compute in (run a b) in match r with Some (?x, ?y) => exists x, y end end.
  split; [vm_compute; reflexivity|].
  exists (full_key None [2%N]). vm_compute. discriminate.
Qed.
(* If a write fails once, its batch stays "being persisted" for ever: no later
   change is ever committed, and shutdown does not wait. *)
Theorem C40_failed_write_refuted : exists es rs s,
  run (kv_open PImmediate (T 1) []) es = Some (rs, s) /\ fst (kv_shutdown s (T 8)) = false /\
  rs = [KOk (OStatus Inserted); KOk (OStatus Inserted)] /\ k_disk s = [] /\
  forall es2 rs2 s2, Forall no_loader es2 -> Forall event_ok es2 -> run s es2 = Some (rs2, s2) -> k_disk s2 = [].
Proof.
  exists [EOp None [1%N] (setv (VBytes [7%N]) None) (T 5); EFail; EOp None [2%N] (setv (VBytes [8%N]) None) (T 6)].
  set (s0 := kv_open PImmediate (T 1) []).
  assert (R0 : rel s0 (fun _ => None)).
  { destruct (opened_rel PImmediate (T 1) (T 1) []) as (s & E & R); [split; [exact wf_nil|discriminate]|discriminate|].
    change (opened PImmediate (T 1) (T 1) []) with (Some s0) in E. injection E as <-. exact R. }
  match goal with |- exists rs s, run ?a ?b = _ /\ _ =>
    let r := eval vm_compute in (run a b) in match r with Some (?x, ?y) => exists x, y end end.
  split; [vm_compute; reflexivity|]. split; [vm_compute; reflexivity|]. split; [vm_compute; reflexivity|]. split; [vm_compute; reflexivity|].
  match goal with |- forall es2 rs2 s2, _ -> _ -> run ?x es2 = _ -> _ => set (s1 := x) end.
  assert (R1 : exists m, rel s1 m).
  { destruct (run_sim s0 _ [EOp None [1%N] (setv (VBytes [7%N]) None) (T 5); EFail; EOp None [2%N] (setv (VBytes [8%N]) None) (T 6)] R0) as (rs & s' & E & _ & R).
    - repeat constructor.
    - repeat constructor.
    - eexists. vm_compute in E. injection E as _ E. subst s'. exact R. }
  destruct R1 as [m R1].
  assert (G : forall es2 s m rs2 s2, rel s m -> k_pers s <> None -> k_thread s = None -> k_disk s = [] ->
             Forall no_loader es2 -> Forall event_ok es2 -> run s es2 = Some (rs2, s2) -> k_disk s2 = []).
  { induction es2 as [|e r IH]; intros s m' rs2 s2 R P Th D NL OK H.
    - cbn in H. injection H as _ <-. exact D.
    - inversion NL as [|? ? N1 N2]; subst. inversion OK as [|? ? O1 O2]; subst. cbn [run] in H.
      pose proof (step_sim s _ e R N1 O1) as SS. destruct (step s e) as [| |o s'] eqn:ST; [discriminate| |].
      + exact (IH s m' rs2 s2 R P Th D N2 O2 H).
      + destruct SS as [_ R']. destruct (run s' r) as [[x y]|] eqn:Q; [|discriminate]. injection H as _ <-.
        assert (Z : k_pers s' <> None /\ k_thread s' = None /\ k_disk s' = []).
        { pose proof R as (I & _ & A & V).
          destruct e as [ns key c now|now| | | |now|l|]; try (destruct N1; fail); cbn [step] in ST.
          - unfold perform in ST. destruct (expire_rel s _ now R) as (s1' & E & R1'). rewrite E in ST.
            destruct (kv_expire_ok now s I) as (s1x & E' & _ & _ & _ & P1 & D1 & T1 & _). rewrite E in E'; injection E' as <-.
            destruct R1' as (I1 & _ & A1 & V1).
            destruct (exec s1' (full_key ns key) c now) as [[r0 s3]|] eqn:X; [|discriminate].
            assert (SR : same_rest s1' s3) by (eapply exec_same; [exact I1|exact O1| |exact X]; rewrite A1; apply V1).
            destruct SR as (P2 & D2 & T2 & _).
            assert (NC : needs_commit s3 now = false) by (unfold needs_commit; destruct (k_pers s3) eqn:PP; [reflexivity|congruence]).
            destruct r0; injection ST as _ <-; [rewrite NC|]; repeat split; congruence.
          - unfold bg_round in ST. destruct (kv_expire_ok now s I) as (s1x & E' & _ & _ & _ & P1 & D1 & T1 & _). rewrite E' in ST.
            assert (NC : needs_commit s1x now = false) by (unfold needs_commit; destruct (k_pers s1x) eqn:PP; [reflexivity|congruence]).
            rewrite NC in ST. cbn in ST. injection ST as _ <-. repeat split; congruence.
          - unfold thread_write in ST. rewrite Th in ST. discriminate.
          - unfold thread_fail in ST. rewrite Th in ST. discriminate.
          - unfold thread_finish in ST. rewrite Th in ST. discriminate.
          - injection ST as _ <-. unfold kv_shutdown. destruct (k_pers s) eqn:PP; [|congruence]. cbn. repeat split; congruence. }
        destruct Z as (Z1 & Z2 & Z3). exact (IH s' _ x y R' Z1 Z2 Z3 N2 O2 Q). }
  intros es2 rs2 s2 NL OK H. apply (G es2 s1 m rs2 s2 R1); try assumption; reflexivity || discriminate.
Qed.

(* ---------- C42 ---------- *)
Local Open Scope N_scope.
Lemma rule_insert_In r l x : In x (rule_insert r l) <-> x = r \/ In x l.
Proof.
  induction l as [|y t IH]; cbn; [intuition|]. destruct (r_changes r <=? r_changes y); cbn; [intuition|]. rewrite IH. intuition.
Qed.
Inductive by_changes : list rule -> Prop :=
| bc_nil : by_changes []
| bc_cons r l : (forall x, In x l -> r_changes r <= r_changes x) -> by_changes l -> by_changes (r :: l).
Lemma rule_insert_sorted r l : by_changes l -> by_changes (rule_insert r l).
Proof.
  induction 1 as [|y t H B IH]; cbn; [repeat constructor; intros x []|].
  destruct (r_changes r <=? r_changes y) eqn:E.
  - constructor; [|constructor; assumption]. intros x [<-|I]; [lia|]. specialize (H x I). lia.
  - constructor; [|exact IH]. intros x I. apply rule_insert_In in I. destruct I as [->|I]; [lia|apply H, I].
Qed.
Lemma sort_In rules x : In x (fold_right rule_insert [] rules) <-> In x rules.
Proof. induction rules as [|r l IH]; [reflexivity|]. cbn. rewrite rule_insert_In, IH. intuition. Qed.
Lemma sort_sorted rules : by_changes (fold_right rule_insert [] rules).
Proof. induction rules; cbn; [constructor|]. apply rule_insert_sorted. assumption. Qed.
Lemma shortest_spec n el rules : by_changes rules -> forall acc,
  shortest n el acc rules <= acc /\
  (forall r, In r rules -> r_changes r <= n -> shortest n el acc rules <= r_dur r - el) /\
  (shortest n el acc rules = acc \/ exists r, In r rules /\ r_changes r <= n /\ shortest n el acc rules = r_dur r - el).
Proof.
  induction 1 as [|r l H B IH]; intros acc; cbn [shortest].
  - split; [lia|]. split; [intros r []|left; reflexivity].
  - destruct (r_changes r <=? n) eqn:E.
    + cbn zeta. destruct (N.min acc (r_dur r - el) =? 0) eqn:Z.
      * split; [lia|]. split; [intros x _ _; lia|].
        destruct (N.le_ge_cases acc (r_dur r - el)); [left; lia|right]. exists r. split; [left; reflexivity|]. split; lia.
      * destruct (IH (N.min acc (r_dur r - el))) as (A1 & A2 & A3). split; [lia|]. split.
        { intros x [<-|I] L; [lia|apply A2; assumption]. }
        destruct A3 as [A3|(x & I & L & A3)].
        { destruct (N.le_ge_cases acc (r_dur r - el)); [left; lia|right]. exists r. split; [left; reflexivity|]. split; lia. }
        { right. exists x. split; [right; exact I|]. auto. }
    + split; [lia|]. split; [|left; reflexivity]. intros x [<-|I] L; [lia|]. specialize (H x I). lia.
Qed.
(* durations are at most Duration::MAX *)
Definition rules_ok (rules : list rule) : Prop := forall r, In r rules -> r_dur r <= dur_max.
(* a threshold applies: enough changes, and the time is up *)
Definition applies (r : rule) (n elapsed : N) : Prop := r_changes r <= n /\ r_dur r <= elapsed.
Theorem C42_should_commit rules n elapsed :
  should_commit (lazy_policy rules) n elapsed = true <-> n <> 0 /\ exists r, In r rules /\ applies r n elapsed.
Proof.
  unfold should_commit, until_commit, lazy_policy, applies. destruct (n =? 0) eqn:Z; [split; [discriminate|intros [H _]; lia]|].
  destruct (shortest_spec n elapsed _ (sort_sorted rules) dur_max) as (A1 & A2 & A3).
  set (d := shortest _ _ _ _) in *. cbn zeta.
  assert (DM : dur_max > 0) by reflexivity.
  destruct (d <? dur_max) eqn:L.
  - split.
    + intros D. split; [lia|]. destruct A3 as [A3|(r & I & C & A3)]; [lia|]. apply (proj1 (sort_In rules r)) in I. exists r. split; [exact I|]. lia.
    + intros (_ & r & I & C & D). apply (proj2 (sort_In rules r)) in I. specialize (A2 r I C). lia.
  - split; [discriminate|]. intros (_ & r & I & C & D). apply (proj2 (sort_In rules r)) in I. specialize (A2 r I C). lia.
Qed.
(* the delay is the least remaining time of the thresholds with enough changes *)
Theorem C42_delay rules n elapsed d : rules_ok rules ->
  (until_commit (lazy_policy rules) n elapsed = Some d <->
   n <> 0 /\ d < dur_max /\ (exists r, In r rules /\ r_changes r <= n /\ d = r_dur r - elapsed) /\
   forall r, In r rules -> r_changes r <= n -> d <= r_dur r - elapsed).
Proof.
  intros OK. unfold until_commit, lazy_policy. destruct (n =? 0) eqn:Z; [split; [discriminate|intros [H _]; lia]|].
  destruct (shortest_spec n elapsed _ (sort_sorted rules) dur_max) as (A1 & A2 & A3).
  set (x := shortest _ _ _ _) in *. cbn zeta. destruct (x <? dur_max) eqn:L.
  - split.
    + intros H. injection H as <-. split; [lia|]. split; [lia|]. split.
      * destruct A3 as [A3|(r & I & C & A3)]; [lia|]. apply (proj1 (sort_In rules r)) in I. exists r. auto.
      * intros r I C. apply A2; [apply (proj2 (sort_In rules r)), I|exact C].
    + intros (_ & _ & (r & I & C & ->) & M). f_equal. apply N.le_antisymm.
      * apply A2; [apply (proj2 (sort_In rules r)), I|exact C].
      * destruct A3 as [A3|(r' & I' & C' & A3)]; [lia|]. rewrite A3. apply (proj1 (sort_In rules r')) in I'. apply M; assumption.
  - split; [discriminate|]. intros (_ & D & (r & I & C & ->) & M). apply (proj2 (sort_In rules r)) in I. specialize (A2 r I C). lia.
Qed.
Theorem C42_order rules rules' n elapsed : Permutation rules rules' ->
  should_commit (lazy_policy rules) n elapsed = should_commit (lazy_policy rules') n elapsed.
Proof.
  intros P. destruct (should_commit (lazy_policy rules') n elapsed) eqn:E.
  - apply C42_should_commit in E. apply C42_should_commit. destruct E as (Z & r & I & A). split; [exact Z|]. exists r.
    split; [apply (Permutation_in _ (Permutation_sym P)), I|exact A].
  - destruct (should_commit (lazy_policy rules) n elapsed) eqn:E'; [|reflexivity]. apply C42_should_commit in E'.
    destruct E' as (Z & r & I & A). assert (E2 : should_commit (lazy_policy rules') n elapsed = true).
    { apply C42_should_commit. split; [exact Z|]. exists r. split; [apply (Permutation_in _ P), I|exact A]. }
    congruence.
Qed.
Theorem C42_immediate n elapsed : should_commit PImmediate n elapsed = true <-> n <> 0.
Proof. unfold should_commit, until_commit. destruct (n =? 0) eqn:Z; cbn; split; try discriminate; try reflexivity; lia. Qed.
(* in the store: an operation that succeeds while no write is in flight leaves no
   buffered changes behind when a commit is due *)
Theorem C42_operation_commits s ns key c now o s' : reachable_kv s -> cmd_ok c ->
  perform s ns key c now = Some (KOk o, s') -> k_pers s = None ->
  exists s2, (k_pol s2 = k_pol s /\ k_last s2 = k_last s /\ forall k, kv_get s2 k = kv_get s' k) /\
    let n := N.of_nat (length (k_dirty s2)) in
    let elapsed := match ts_sub now (k_last s) with Some d => d | None => 0 end in
    if should_commit (k_pol s) n elapsed
    then k_dirty s' = [] /\ exists b, k_thread s' = Some (b, false) /\ b = k_dirty s2
    else s' = s2.
Proof.
  intros R C P PN. apply reachable_rel in R. unfold perform in P. destruct (expire_rel s _ now R) as (s1 & E & R1). rewrite E in P.
  destruct (kv_expire_ok now s) as (s1' & E' & _ & _ & _ & P1 & _ & T1 & _ & _ & PO & LA & _); [apply R|]. rewrite E in E'; injection E' as <-.
  destruct R1 as (I1 & _ & A1 & V1).
  destruct (exec_ok s1 (full_key ns key) c now I1 C) as (r & s2 & x & X & (I2 & SR & _) & _); [rewrite A1; apply V1|].
  rewrite X in P. destruct r as [o'|]; [|discriminate]. injection P as -> <-. destruct SR as (P2 & _ & T2 & _ & _ & PO2 & LA2 & _).
  exists s2. unfold needs_commit. replace (k_pers s2) with (@None batch) by congruence.
  rewrite PO2, PO, LA2, LA. cbn zeta.
  destruct (should_commit (k_pol s) (N.of_nat (length (k_dirty s2))) match ts_sub now (k_last s) with Some d => d | None => 0 end) eqn:SC.
  - unfold commit_dirty. destruct (stage s2) as [[b s3]|] eqn:St.
    + destruct (stage_ok s2 b s3 I2 St) as (_ & G & _ & D & _ & _ & Eb & _). cbn [snd]. split.
      * split; [congruence|]. split; [congruence|]. intros k. symmetry. exact (G k).
      * split; [exact D|]. exists b. split; [reflexivity|exact Eb].
    + exfalso. unfold stage in St. replace (k_pers s2) with (@None batch) in St by congruence. destruct (k_dirty s2); [|discriminate].
      cbn in SC. unfold should_commit, until_commit in SC. discriminate.
  - split; [|reflexivity]. split; [congruence|]. split; [congruence|reflexivity].
Qed.
Example C42_ex : let rules := [Rule 100 0; Rule 1 120000000000; Rule 10 10000000000] in
  rules_ok rules /\ should_commit (lazy_policy rules) 1 119999999999 = false /\ should_commit (lazy_policy rules) 1 120000000000 = true /\
  should_commit (lazy_policy rules) 10 10000000000 = true /\ should_commit (lazy_policy rules) 100 0 = true /\
  until_commit (lazy_policy rules) 10 4000000000 = Some 6000000000.
Proof. split; [|repeat split]. intros r [<-|[<-|[<-|[]]]]; vm_compute; discriminate. Qed.
Print Assumptions C39_prefix.
Print Assumptions C39_committed.
Print Assumptions C39_reopen.
Print Assumptions C40_shutdown.
Print Assumptions C40_in_flight_refuted.
Print Assumptions C40_failed_write_refuted.
Print Assumptions C42_should_commit.
Print Assumptions C42_delay.
Print Assumptions C42_order.
Print Assumptions C42_immediate.
Print Assumptions C42_operation_commits.
