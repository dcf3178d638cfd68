(* C98: the key-value store used by several remote clients. *)
From Verif Require Import Remote RemoteProofs PropRemote.
From Verif Require ClientWorker ServerQueue PropRemoteDocs.
From Verif Require Import Kv KvSpec KvProofs KvSim PropKv RemoteKv.
From Coq Require Import Lia Permutation.
Local Open Scope nat_scope.

(* what goes on besides the operations: the background worker, the writer thread that
   writes, fails and finishes, and a shutdown *)
Definition background (e : Kv.event) : Prop := match e with ETick _ | EWrite | EFail | Kv.EFinish | EShutdown _ => True | _ => False end.

Section Claims.
Variable before : nat -> list Kv.event.
Variable clock : nat -> ts.
Variable perm : option N -> option bytes -> bytes -> bool.
Variable dec : N -> option request.
Variable enc : response -> N.
Variable limit : nat.
Variable tr : N -> ServerQueue.transport.
Variable t : N -> ClientWorker.transport.
Variable workers : nat.
(* the store was opened on whatever earlier runs had stored *)
Variable p : policy.
Variables now launched : ts.
Variable d : tree entry.
Variable kv0 : kst.
Hypothesis BG : forall i, Forall background (before i).
Hypothesis OKC : forall n q, dec n = Some q -> cmd_ok (q_cmd q).
Hypothesis SB : stored_before launched d.
Hypothesis OP : opened p now launched d = Some kv0.
Notation server := (RemoteKv.exec before clock perm dec enc).
Notation after h := (sys_run server limit tr t (sys0 workers (St kv0 0)) h).
Notation reqs h := (map (fun e => (e_session e, e_req e)) (log (after h))).

(* The map (KvSpec.v) that a user sees: after the background activity before request i,
   and after request i. *)
Definition meanwhile (m : kmap) (i : nat) : kmap := snd (spec_run m (before i)).
Definition on_request (m : kmap) (i : nat) (se : option N) (n : N) : kmap :=
  match dec n with
  | Some q =>
      if perm se (q_ns q) (q_key q) then
        let m1 := purge (clock i) (meanwhile m i) in let k := full_key (q_ns q) (q_key q) in put k (snd (spec_cmd (q_cmd q) (m1 k))) m1
      else meanwhile m i
  | None => meanwhile m i
  end.
Definition answer (m : kmap) (i : nat) (se : option N) (n : N) : response :=
  match dec n with
  | Some q =>
      if perm se (q_ns q) (q_key q) then RDone (fst (spec_cmd (q_cmd q) (purge (clock i) (meanwhile m i) (full_key (q_ns q) (q_key q)))))
      else RDenied
  | None => RMalformed
  end.
Fixpoint map_after (m : kmap) (i : nat) (l : list (option N * N)) : kmap :=
  match l with [] => m | (se, n) :: r => map_after (on_request m i se n) (S i) r end.
(* the map after the first i executed requests *)
Definition map_at (h : list Remote.event) (i : nat) : kmap := map_after (disk_map d) 0 (firstn i (reqs h)).

Lemma map_after_snoc : forall l m i se n, map_after m i (l ++ [(se, n)]) = on_request (map_after m i l) (i + length l) se n.
Proof.
  induction l as [|[se0 n0] l IH]; intros m i se n; cbn [map_after app length]; [rewrite Nat.add_0_r; reflexivity|].
  rewrite IH. f_equal. lia.
Qed.
Lemma firstn_S_nth {A} (l : list A) : forall i a, nth_error l i = Some a -> firstn (S i) l = firstn i l ++ [a].
Proof. induction l as [|x l IH]; intros [|i] a H; try discriminate H; [inversion H; reflexivity|]. cbn [nth_error] in H. cbn [firstn app]. f_equal. apply IH, H. Qed.
Lemma bg_loader i : Forall no_loader (before i).
Proof. eapply Forall_impl; [|apply BG]. intros [| | | | | | |] H; try destruct H; exact Logic.I. Qed.
Lemma bg_ok i : Forall event_ok (before i).
Proof. eapply Forall_impl; [|apply BG]. intros [| | | | | | |] H; try destruct H; exact Logic.I. Qed.

Lemma map_at_S h i e : nth_error (log (after h)) i = Some e -> map_at h (S i) = on_request (map_at h i) i (e_session e) (e_req e).
Proof.
  intros H. assert (H' : nth_error (reqs h) i = Some (e_session e, e_req e)) by (rewrite nth_error_map, H; reflexivity). unfold map_at.
  rewrite (firstn_S_nth _ _ _ H'), map_after_snoc. f_equal. rewrite firstn_length. assert (i < length (reqs h)) by (apply nth_error_Some; congruence). lia.
Qed.
Lemma map_at_end h i : nth_error (log (after h)) i = None -> map_at h (S i) = map_at h i.
Proof. intros H. apply nth_error_None in H. unfold map_at. rewrite !firstn_all2; [reflexivity| |]; rewrite map_length; lia. Qed.
(* one request on a store that shows the map m *)
Lemma exec_sim kv m i se n : rel kv m -> exists kv', server (St kv i) se n = (St kv' (S i), enc (answer m i se n)) /\ rel kv' (on_request m i se n).
Proof.
  intros R. unfold RemoteKv.exec, answer, on_request, meanwhile. cbn [st_kv st_turn].
  destruct (run_sim kv m (before i) R (bg_loader i) (bg_ok i)) as (rs & s1 & Q & _ & R1). rewrite Q.
  destruct (dec n) as [[ns key c]|] eqn:D; [|exists s1; auto]. cbn [q_ns q_key q_cmd]. destruct (perm se ns key); [|exists s1; auto].
  assert (C := OKC n _ D). cbn [q_cmd] in C. assert (X := step_sim s1 _ (EOp ns key c (clock i)) R1 Logic.I C). cbn [step spec_event] in X.
  destruct (perform s1 ns key c (clock i)) as [[r s2]|]; [|destruct X]. destruct (spec_cmd c _) as [x y]. cbn [fst snd] in *. destruct X as [X R2]. injection X as ->.
  exists s2. auto.
Qed.
Lemma serial_sim : forall l kv m i, rel kv m -> exists kv', fst (serially server (St kv i) l) = St kv' (i + length l) /\ rel kv' (map_after m i l).
Proof.
  induction l as [|[se n] l IH]; intros kv m i R; cbn [serially map_after length].
  - exists kv. rewrite Nat.add_0_r. auto.
  - destruct (exec_sim kv m i se n R) as (kv1 & E1 & R1). rewrite E1. destruct (IH kv1 _ (S i) R1) as (kv2 & E2 & R2). exists kv2.
    destruct (serially server (St kv1 (S i)) l) as [s2 as2]. cbn [fst] in *. rewrite E2. split; [f_equal; lia|exact R2].
Qed.
Lemma start_rel : rel kv0 (disk_map d).
Proof. destruct (opened_rel p now launched d (proj1 SB) (proj2 SB)) as (s & E & R). rewrite OP in E. injection E as <-. exact R. Qed.
Lemma answer_at h i e : nth_error (log (after h)) i = Some e -> e_ans e = enc (answer (map_at h i) i (e_session e) (e_req e)).
Proof.
  intros H. assert (S1 := C68_one_at_a_time server limit tr t workers (St kv0 0) h). cbv zeta in S1.
  assert (H' : nth_error (reqs h) i = Some (e_session e, e_req e)) by (rewrite nth_error_map, H; reflexivity).
  destruct (PropRemoteDocs.serially_nth server _ (St kv0 0) i _ _ H') as (a & A & B). rewrite S1 in A. cbn [snd] in A. rewrite nth_error_map, H in A. injection A as A.
  destruct (serial_sim (firstn i (reqs h)) kv0 (disk_map d) 0 start_rel) as (kv & E & R). rewrite E in B.
  assert (L : 0 + length (firstn i (reqs h)) = i). { rewrite firstn_length. assert (i < length (reqs h)) by (apply nth_error_Some; congruence). lia. }
  rewrite L in B. destruct (exec_sim kv _ i (e_session e) (e_req e) R) as (kv' & X & _). rewrite X in B. injection B as _ B. unfold map_at. congruence.
Qed.
(* The store always shows the map that the executed requests leave. *)
Theorem C98_store : forall h, rel (st_kv (db (after h))) (map_at h (length (log (after h)))) /\ st_turn (db (after h)) = length (log (after h)).
Proof.
  intros h. assert (S1 := C68_one_at_a_time server limit tr t workers (St kv0 0) h). cbv zeta in S1.
  destruct (serial_sim (reqs h) kv0 (disk_map d) 0 start_rel) as (kv & E & R). rewrite S1 in E. cbn [fst] in E. rewrite E. cbn [st_kv st_turn]. rewrite map_length. split; [|reflexivity].
  unfold map_at. rewrite firstn_all2 by (rewrite map_length; lia). exact R.
Qed.
(* Every call that returned has the result that the plain map gives at its place. *)
Theorem C98_returned : forall h k c v se n, (N.of_nat (length (calls_of k h)) <= 2 ^ 32)%N -> returned (after h) k c v ->
  nth_error (calls_of k h) (N.to_nat c) = Some (se, n) ->
  exists i, executed (after h) i k c /\
    v = enc match dec n with
            | None => RMalformed
            | Some q => if perm se (q_ns q) (q_key q)
                        then RDone (fst (spec_cmd (q_cmd q) (purge (clock i) (meanwhile (map_at h i) i) (full_key (q_ns q) (q_key q)))))
                        else RDenied
            end.
Proof.
  intros h k c v se n B R CA. destruct (C68_returned server limit tr t workers (St kv0 0) h k c v B R) as (e & I & W & A).
  assert (CI := C68_as_issued server limit tr t workers (St kv0 0) h e k c I W). rewrite CI in CA. injection CA as <- <-.
  destruct (In_nth_error _ _ I) as (i & N1). exists i. split; [exists e; auto|]. rewrite <- A. exact (answer_at h i e N1).
Qed.

(* ---------- one key ---------- *)
(* the operation that the i-th executed request does: the stored key and the command *)
Definition op_of (e : Remote.entry) : option (bytes * command) :=
  match dec (e_req e) with
  | Some q => if perm (e_session e) (q_ns q) (q_key q) then Some (full_key (q_ns q) (q_key q), q_cmd q) else None
  | None => None
  end.
Definition op_at (h : list Remote.event) (i : nat) : option (bytes * command) :=
  match nth_error (log (after h)) i with Some e => op_of e | None => None end.
Definition lasting (c : option cell) : Prop := match c with Some (_, Some _) => False | _ => True end.
Lemma purge_lasting m k x : lasting (m k) -> purge x m k = m k.
Proof. unfold lasting, purge, expired. destruct (m k) as [[v [y|]]|]; [intros []|reflexivity|reflexivity]. Qed.
Lemma meanwhile_lasting k i : forall m, lasting (m k) -> meanwhile m i k = m k.
Proof.
  unfold meanwhile. assert (B := BG i). induction (before i) as [|e l IH]; intros m L; [reflexivity|]. inversion B as [|? ? B1 B2]; subst. cbn [spec_run].
  destruct e; try destruct B1; cbn [spec_event]; try (specialize (IH B2 m L); destruct (spec_run m l) as [x y]; exact IH).
  assert (P := purge_lasting m k now0 L). specialize (IH B2 (purge now0 m)). rewrite P in IH. specialize (IH L). destruct (spec_run (purge now0 m) l) as [x y]. exact IH.
Qed.
Lemma cell_S h i fk : lasting (map_at h i fk) ->
  map_at h (S i) fk = match op_at h i with Some (k, c) => if bytes_eqb fk k then snd (spec_cmd c (map_at h i fk)) else map_at h i fk | None => map_at h i fk end.
Proof.
  intros L. unfold op_at. destruct (nth_error (log (after h)) i) as [e|] eqn:N1; [|rewrite (map_at_end _ _ N1); reflexivity].
  rewrite (map_at_S _ _ _ N1). unfold on_request, op_of. assert (M := meanwhile_lasting fk i (map_at h i) L).
  destruct (dec (e_req e)) as [[ns key c]|]; [|exact M]. cbn [q_ns q_key q_cmd]. destruct (perm (e_session e) ns key); [|exact M].
  assert (PL : purge (clock i) (meanwhile (map_at h i) i) fk = map_at h i fk) by (rewrite purge_lasting; rewrite M; [reflexivity|exact L]).
  cbv zeta. unfold put. destruct (bytes_eqb fk (full_key ns key)) eqn:Q; [|exact PL]. apply bytes_eqb_spec in Q. rewrite <- Q, PL. reflexivity.
Qed.
Lemma answer_op h i e fk c : nth_error (log (after h)) i = Some e -> op_of e = Some (fk, c) -> lasting (map_at h i fk) -> e_ans e = enc (RDone (fst (spec_cmd c (map_at h i fk)))).
Proof.
  intros N1 O L. rewrite (answer_at h i e N1). unfold answer, op_of in *. destruct (dec (e_req e)) as [[ns key c']|]; [|discriminate O]. cbn [q_ns q_key q_cmd] in *.
  destruct (perm (e_session e) ns key); [|discriminate O]. injection O as Q ->. rewrite Q. do 3 f_equal.
  assert (M := meanwhile_lasting fk i (map_at h i) L). rewrite purge_lasting; rewrite M; [reflexivity|exact L].
Qed.
(* nothing that expires was stored under the key, or is written to it *)
Definition no_expiry (h : list Remote.event) (fk : bytes) : Prop :=
  lasting (disk_map d fk) /\ forall i sc, op_at h i = Some (fk, CSet sc) -> s_exp sc = None.
Lemma always_lasting h fk : no_expiry h fk -> forall i, lasting (map_at h i fk).
Proof.
  intros [L0 S0]. induction i as [|i IH]; [exact L0|]. rewrite (cell_S h i fk IH). destruct (op_at h i) as [[k c]|] eqn:O; [|exact IH].
  destruct (bytes_eqb fk k) eqn:Q; [|exact IH]. apply bytes_eqb_spec in Q. subst k. destruct (map_at h i fk) as [[v [x|]]|] eqn:M; [destruct IH| |].
  - destruct c as [sc|[]| |a sat|a sat]; cbn [spec_cmd].
    + destruct (is_nan (s_val sc)); [exact Logic.I|]. assert (X := S0 i sc O). destruct (s_check sc) as [[]|]; cbn; rewrite ?X; try destruct (s_keep sc); exact Logic.I.
    + exact Logic.I.
    + exact Logic.I.
    + exact Logic.I.
    + unfold spec_arith. cbn [fst snd]. destruct v; [exact Logic.I|]. destruct (is_nan _); exact Logic.I.
    + unfold spec_arith. cbn [fst snd]. destruct v; [exact Logic.I|]. destruct (is_nan _); exact Logic.I.
  - destruct c as [sc|[]| |a sat|a sat]; cbn [spec_cmd].
    + destruct (is_nan (s_val sc)); [exact Logic.I|]. assert (X := S0 i sc O). destruct (s_check sc) as [[]|]; cbn; rewrite ?X; try destruct (s_keep sc); exact Logic.I.
    + exact Logic.I.
    + exact Logic.I.
    + exact Logic.I.
    + unfold spec_arith. cbn [fst snd]. destruct (is_nan _); exact Logic.I.
    + unfold spec_arith. cbn [fst snd]. destruct (is_nan _); exact Logic.I.
Qed.

(* the i-th executed request is call c of client k: a permitted command on the stored key
   fk, answered with a *)
Definition did (h : list Remote.event) (i : nat) (k c : N) (fk : bytes) (cmd : command) (a : N) : Prop :=
  exists e, nth_error (log (after h)) i = Some e /\ e_who e = Some (k, c) /\ op_of e = Some (fk, cmd) /\ e_ans e = a.
(* call c of client k is this command on this key, which the session may do *)
Definition is_call (h : list Remote.event) (k c : N) (ns : option bytes) (key : bytes) (cmd : command) : Prop :=
  exists se n, nth_error (calls_of k h) (N.to_nat c) = Some (se, n) /\ dec n = Some (Req ns key cmd) /\ perm se ns key = true.
Lemma did_executed h i k c fk cmd a : did h i k c fk cmd a -> executed (after h) i k c.
Proof. intros (e & N1 & W & _). exists e. auto. Qed.
Lemma did_op h i k c fk cmd a : did h i k c fk cmd a -> op_at h i = Some (fk, cmd).
Proof. intros (e & N1 & _ & O & _). unfold op_at. rewrite N1. exact O. Qed.
Lemma did_answer h i k c fk cmd a : did h i k c fk cmd a -> lasting (map_at h i fk) -> a = enc (RDone (fst (spec_cmd cmd (map_at h i fk)))).
Proof. intros (e & N1 & _ & O & <-) L. exact (answer_op h i e fk cmd N1 O L). Qed.
Lemma did_length h i k c fk cmd a : did h i k c fk cmd a -> i < length (log (after h)).
Proof. intros (e & N1 & _). apply nth_error_Some. congruence. Qed.
Lemma returned_did h k c ns key cmd v : (N.of_nat (length (calls_of k h)) <= 2 ^ 32)%N -> is_call h k c ns key cmd -> returned (after h) k c v ->
  exists i, did h i k c (full_key ns key) cmd v.
Proof.
  intros B (se & n & CA & D & P) R. destruct (C68_returned server limit tr t workers (St kv0 0) h k c v B R) as (e & I & W & A).
  assert (CI := C68_as_issued server limit tr t workers (St kv0 0) h e k c I W). rewrite CI in CA. injection CA as CA1 CA2.
  destruct (In_nth_error _ _ I) as (i & N1). exists i, e. unfold op_of. rewrite CA1, CA2, D. cbn [q_ns q_key q_cmd]. rewrite P. auto.
Qed.
Lemma did_prefix h1 h2 i k c fk cmd a : did h1 i k c fk cmd a -> did (h1 ++ h2) i k c fk cmd a.
Proof.
  intros (e & N1 & R). exists e. split; [|exact R]. assert (X := log_run server limit tr t h2 (after h1)). rewrite <- sys_run_app in X. destruct X as (l & ->).
  rewrite nth_error_app1; [exact N1|]. apply nth_error_Some. congruence.
Qed.
Lemma did_same h i j k c fk cmd a fk' cmd' a' : did h i k c fk cmd a -> did h j k c fk' cmd' a' -> i = j.
Proof. intros D1 D2. exact (C68_at_most_once server limit tr t workers (St kv0 0) h k c i j (did_executed _ _ _ _ _ _ _ D1) (did_executed _ _ _ _ _ _ _ D2)). Qed.
Lemma did_who h i k c fk cmd a k' c' fk' cmd' a' : did h i k c fk cmd a -> did h i k' c' fk' cmd' a' -> (k, c) = (k', c').
Proof. intros (e & N1 & W & _) (e' & N2 & W' & _). rewrite N1 in N2. injection N2 as <-. congruence. Qed.
Lemma did_before h1 h2 k c v k' c' i j fk cmd a fk' cmd' a' : (N.of_nat (length (calls_of k h1)) <= 2 ^ 32)%N -> returned (after h1) k c v ->
  N.to_nat c' >= length (calls_of k' h1) -> did (h1 ++ h2) i k c fk cmd a -> did (h1 ++ h2) j k' c' fk' cmd' a' -> i < j.
Proof. intros B R NEW D1 D2. exact (C68_real_time server limit tr t workers (St kv0 0) h1 h2 k c v k' c' i j B R NEW (did_executed _ _ _ _ _ _ _ D1) (did_executed _ _ _ _ _ _ _ D2)). Qed.

Lemma op_length h i o : op_at h i = Some o -> i < length (log (after h)).
Proof. unfold op_at. intros H. apply nth_error_Some. intros X. rewrite X in H. discriminate H. Qed.
Lemma op_ok h i k c : op_at h i = Some (k, c) -> cmd_ok c.
Proof.
  unfold op_at, op_of. destruct (nth_error _ _) as [e|]; [|discriminate]. destruct (dec (e_req e)) as [q|] eqn:D; [|discriminate]. destruct (perm _ _ _); [|discriminate]. intros H. injection H as _ <-. exact (OKC _ _ D).
Qed.

(* ---------- counters ---------- *)
Definition amount_at (h : list Remote.event) (fk : bytes) (i : nat) : Z :=
  match op_at h i with Some (k, CIncr (NUInt a) _) => if bytes_eqb fk k then a else 0%Z | _ => 0%Z end.
Fixpoint sum (f : nat -> Z) (n : nat) : Z := match n with O => 0%Z | S m => (sum f m + f m)%Z end.
Notation total h fk n := (sum (amount_at h fk) n).
(* the key was absent and is only incremented by natural numbers and read, and the sum
   fits *)
Definition counter (h : list Remote.event) (fk : bytes) : Prop :=
  disk_map d fk = None /\ (forall i c, op_at h i = Some (fk, c) -> c = CGet false \/ exists a sat, c = CIncr (NUInt a) sat) /\
  (total h fk (length (log (after h))) <= 2 ^ 64 - 1)%Z.
Lemma amount_nonneg h fk i : (0 <= amount_at h fk i)%Z.
Proof.
  unfold amount_at. destruct (op_at h i) as [[k c]|] eqn:O; [|lia]. assert (X := op_ok _ _ _ _ O). destruct c as [| | |[]|]; try lia. destruct (bytes_eqb fk k); [|lia]. cbn in X. lia.
Qed.
Lemma sum_mono f : (forall i, (0 <= f i)%Z) -> forall a b, (sum f a <= sum f (a + b))%Z.
Proof. intros F a. induction b as [|b IH]; [rewrite Nat.add_0_r; lia|]. rewrite Nat.add_succ_r. cbn [sum]. specialize (F (a + b)). lia. Qed.
Lemma total_le h fk a b : a <= b -> (total h fk a <= total h fk b)%Z.
Proof. intros L. replace b with (a + (b - a)) by lia. apply sum_mono, amount_nonneg. Qed.
Lemma counter_expiry h fk : counter h fk -> no_expiry h fk.
Proof. intros (A & B & _). split; [rewrite A; exact Logic.I|]. intros i sc O. destruct (B i _ O) as [X|(a & sat & X)]; discriminate X. Qed.
(* what an increment does to a counter *)
Lemma incr_cell a sat x cur : (0 <= a)%Z -> (0 <= x)%Z -> (x + a <= 2 ^ 64 - 1)%Z -> (cur = None /\ x = 0%Z) \/ cur = Some (VNum (NUInt x), None) ->
  spec_cmd (CIncr (NUInt a) sat) cur = (KOk (OValue (Some (VNum (NUInt (x + a))))), Some (VNum (NUInt (x + a)), None)).
Proof.
  intros A X F C. cbn [spec_cmd]. unfold spec_arith. destruct C as [[-> ->] | ->]; cbn [fst snd spec_num to_int]; [rewrite (fit_id sat 0 (2 ^ 64 - 1) 0), (fit_id sat 0 (2 ^ 64 - 1) (0 + a)) by lia|rewrite (fit_id sat 0 (2 ^ 64 - 1) x), (fit_id sat 0 (2 ^ 64 - 1) (x + a)) by lia]; reflexivity.
Qed.
Lemma counter_cell h fk : counter h fk -> forall i, (map_at h i fk = None /\ total h fk i = 0%Z) \/ map_at h i fk = Some (VNum (NUInt (total h fk i)), None).
Proof.
  intros C. assert (LA := always_lasting h fk (counter_expiry h fk C)). destruct C as (A & B & F). induction i as [|i IH]; [left; split; [exact A|reflexivity]|].
  rewrite (cell_S h i fk (LA i)). cbn [sum]. unfold amount_at at 2 4. destruct (op_at h i) as [[k c]|] eqn:O; [|rewrite Z.add_0_r; exact IH].
  destruct (bytes_eqb fk k) eqn:Q.
  - apply bytes_eqb_spec in Q. subst k. destruct (B i c O) as [-> |(a & sat & ->)]; [cbn [spec_cmd snd]; rewrite Z.add_0_r; exact IH|].
    assert (OK := op_ok _ _ _ _ O). cbn in OK. right.
    assert (AM : amount_at h fk i = a). { unfold amount_at. rewrite O. rewrite (proj2 (bytes_eqb_spec fk fk) eq_refl). reflexivity. }
    assert (X := total_le h fk (S i) _ (op_length _ _ _ O)). cbn [sum] in X. rewrite AM in X. assert (Y := sum_mono (amount_at h fk) (amount_nonneg h fk) 0 i). cbn in Y.
    rewrite (incr_cell a sat (total h fk i)); [reflexivity|lia|exact Y|lia|exact IH].
  - destruct c as [| | |[]|]; rewrite Z.add_0_r; exact IH.
Qed.
Hypothesis enc_inj : forall x y, enc x = enc y -> x = y.
(* Atomic increments: the answer to an increment is the sum of all increments executed up
   to and including it, whoever issued them. *)
Theorem C98_increment : forall h k c ns key a sat v, (N.of_nat (length (calls_of k h)) <= 2 ^ 32)%N -> counter h (full_key ns key) ->
  is_call h k c ns key (CIncr (NUInt a) sat) -> returned (after h) k c v ->
  exists i, executed (after h) i k c /\ amount_at h (full_key ns key) i = a /\
    v = enc (RDone (KOk (OValue (Some (VNum (NUInt (total h (full_key ns key) (S i)))))))).
Proof.
  intros h k c ns key a sat v B C IC R. destruct (returned_did _ _ _ _ _ _ _ B IC R) as (i & D). set (fk := full_key ns key) in *. exists i. split; [exact (did_executed _ _ _ _ _ _ _ D)|].
  assert (O := did_op _ _ _ _ _ _ _ D). assert (AM : amount_at h fk i = a). { unfold amount_at. rewrite O. rewrite (proj2 (bytes_eqb_spec fk fk) eq_refl). reflexivity. }
  split; [exact AM|]. assert (AN := did_answer _ _ _ _ _ _ _ D (always_lasting h fk (counter_expiry h fk C) i)). rewrite AN. assert (OK := op_ok _ _ _ _ O). cbn in OK.
  assert (X := total_le h fk (S i) _ (op_length _ _ _ O)). cbn [sum] in X. assert (Y := sum_mono (amount_at h fk) (amount_nonneg h fk) 0 i). cbn in Y. destruct C as (C1 & C2 & C3).
  rewrite (incr_cell a sat (total h fk i)); [cbn [fst sum]; rewrite AM; reflexivity|lia|exact Y|lia|]. apply counter_cell. repeat split; assumption.
Qed.
(* so two increments never get the same number *)
Theorem C98_unique_numbers : forall h ns key k1 c1 a1 sat1 v1 k2 c2 a2 sat2 v2,
  (N.of_nat (length (calls_of k1 h)) <= 2 ^ 32)%N -> (N.of_nat (length (calls_of k2 h)) <= 2 ^ 32)%N -> counter h (full_key ns key) ->
  is_call h k1 c1 ns key (CIncr (NUInt a1) sat1) -> is_call h k2 c2 ns key (CIncr (NUInt a2) sat2) -> (0 < a1)%Z -> (0 < a2)%Z ->
  returned (after h) k1 c1 v1 -> returned (after h) k2 c2 v2 -> (k1, c1) <> (k2, c2) -> v1 <> v2.
Proof.
  intros h ns key k1 c1 a1 sat1 v1 k2 c2 a2 sat2 v2 B1 B2 C I1 I2 P1 P2 R1 R2 NE EQ.
  destruct (C98_increment _ _ _ _ _ _ _ _ B1 C I1 R1) as (i & E1 & A1 & V1). destruct (C98_increment _ _ _ _ _ _ _ _ B2 C I2 R2) as (j & E2 & A2 & V2).
  rewrite V1, V2 in EQ. apply enc_inj in EQ. injection EQ as EQ. destruct (lt_eq_lt_dec i j) as [[L|L]|L].
  - assert (X := total_le h (full_key ns key) (S i) j L). cbn [sum] in *. lia.
  - subst j. destruct E1 as (e1 & N1 & W1), E2 as (e2 & N2 & W2). rewrite N1 in N2. injection N2 as <-. congruence.
  - assert (X := total_le h (full_key ns key) (S j) i L). cbn [sum] in *. lia.
Qed.
Fixpoint zsum (l : list Z) : Z := match l with [] => 0%Z | x :: r => (x + zsum r)%Z end.
Lemma zsum_app a b : zsum (a ++ b) = (zsum a + zsum b)%Z.
Proof. induction a as [|x a IH]; cbn; lia. Qed.
Lemma zsum_perm a b : Permutation a b -> zsum a = zsum b.
Proof. induction 1; cbn; lia. Qed.
Lemma zsum_seq f n : zsum (map f (seq 0 n)) = sum f n.
Proof. induction n as [|n IH]; [reflexivity|]. rewrite seq_S, map_app, zsum_app, IH. cbn. lia. Qed.
Lemma zsum_part f (P : nat -> bool) l : zsum (map f l) = (zsum (map f (filter P l)) + zsum (map f (filter (fun x => negb (P x)) l)))%Z.
Proof. induction l as [|x l IH]; [reflexivity|]. cbn [map filter zsum]. destruct (P x); cbn [negb map zsum]; lia. Qed.
Lemma zsum_nonneg (f : nat -> Z) l : (forall i, (0 <= f i)%Z) -> (0 <= zsum (map f l))%Z.
Proof. intros F. induction l as [|x l IH]; cbn [map zsum]; [lia|]. specialize (F x). lia. Qed.
Lemma zsum_zero (f : nat -> Z) l : (forall i, In i l -> f i = 0%Z) -> zsum (map f l) = 0%Z.
Proof. intros F. induction l as [|x l IH]; cbn [map zsum]; [reflexivity|]. rewrite F, IH by (intros; try apply F; cbn; auto). reflexivity. Qed.
(* distinct indices below n *)
Lemma some_of_sum f l n : (forall i, (0 <= f i)%Z) -> NoDup l -> (forall i, In i l -> i < n) ->
  (zsum (map f l) <= sum f n)%Z /\ ((forall i, i < n -> ~ In i l -> f i = 0%Z) -> zsum (map f l) = sum f n).
Proof.
  intros F ND LT. set (P := fun x => if in_dec Nat.eq_dec x l then true else false).
  assert (PM : Permutation l (filter P (seq 0 n))).
  { apply NoDup_Permutation; [exact ND|apply NoDup_filter, seq_NoDup|]. intros x. rewrite filter_In, in_seq. unfold P. destruct (in_dec Nat.eq_dec x l) as [I|I]; [|intuition discriminate]. specialize (LT x I). intuition lia. }
  rewrite (zsum_perm _ _ (Permutation_map f PM)). rewrite <- zsum_seq, (zsum_part f P (seq 0 n)).
  assert (NN := zsum_nonneg f (filter (fun x => negb (P x)) (seq 0 n)) F). split; [lia|]. intros Z.
  rewrite (zsum_zero f (filter (fun x => negb (P x)) (seq 0 n))); [lia|]. intros i I. apply filter_In in I. destruct I as [I1 I2]. apply in_seq in I1. apply Z; [lia|]. intros I. unfold P in I2. destruct (in_dec Nat.eq_dec i l); [discriminate I2|contradiction].
Qed.
(* No increment is lost: a read that is issued after increments have returned - each of
   them a call of some client - shows at least their sum, and exactly their sum if they
   are all that was executed on the key. *)
Theorem C98_no_lost_increment : forall h1 h2 ns key (incs : list (N * N * Z)) k' c' v',
  NoDup (map fst incs) ->
  (forall k c a, In (k, c, a) incs -> (N.of_nat (length (calls_of k h1)) <= 2 ^ 32)%N /\ (exists sat, is_call h1 k c ns key (CIncr (NUInt a) sat)) /\ exists v, returned (after h1) k c v) ->
  counter (h1 ++ h2) (full_key ns key) ->
  (N.of_nat (length (calls_of k' (h1 ++ h2))) <= 2 ^ 32)%N -> N.to_nat c' >= length (calls_of k' h1) ->
  is_call (h1 ++ h2) k' c' ns key (CGet false) -> returned (after (h1 ++ h2)) k' c' v' ->
  exists x, (zsum (map snd incs) <= x)%Z /\
    (v' = enc (RDone (KOk (OValue (Some (VNum (NUInt x)))))) \/ (v' = enc (RDone (KOk (OValue None))) /\ x = 0%Z)) /\
    ((forall i e a sat, nth_error (log (after (h1 ++ h2))) i = Some e -> op_of e = Some (full_key ns key, CIncr (NUInt a) sat) -> exists k c b, e_who e = Some (k, c) /\ In (k, c, b) incs) ->
     x = zsum (map snd incs)).
Proof.
  intros h1 h2 ns key incs k' c' v' ND IN C B' NEW IC R. set (fk := full_key ns key) in *. set (h := h1 ++ h2) in *.
  destruct (returned_did _ _ _ _ _ _ _ B' IC R) as (j & D). fold fk in D.
  assert (IDX : exists l, Forall2 (fun x i => executed (after h) i (fst (fst x)) (snd (fst x)) /\ amount_at h fk i = snd x /\ i < j) incs l).
  { clear ND. induction incs as [|[[k c] a] incs IH]; [exists []; constructor|]. destruct IH as (l & L); [intros; apply IN; right; assumption|].
    destruct (IN k c a (or_introl eq_refl)) as (B & (sat & I1) & v & R1). destruct (returned_did _ _ _ _ _ _ _ B I1 R1) as (i & D1). assert (D2 := did_prefix h1 h2 _ _ _ _ _ _ D1). fold h fk in D2.
    exists (i :: l). constructor; [|exact L]. cbn [fst snd]. split; [exact (did_executed _ _ _ _ _ _ _ D2)|]. split; [|eapply did_before; [exact B|exact R1|exact NEW|exact D2|exact D]].
    unfold amount_at. rewrite (did_op _ _ _ _ _ _ _ D2). rewrite (proj2 (bytes_eqb_spec fk fk) eq_refl). reflexivity. }
  destruct IDX as (l & L).
  assert (AMS : map (amount_at h fk) l = map snd incs). { clear -L. induction L as [|x i xs is (E & A & LT) L IH]; [reflexivity|]. cbn [map]. congruence. }
  assert (LT : forall i, In i l -> i < j). { clear -L. induction L as [|x i xs is (E & A & LT) L IH]; intros y []; [subst; exact LT|apply IH; assumption]. }
  assert (WHO : forall i, In i l -> exists x, In x incs /\ executed (after h) i (fst (fst x)) (snd (fst x))).
  { clear -L. induction L as [|x i xs is (E & A & LT) L IH]; intros y []; [subst; exists x; split; [left; reflexivity|exact E]|]. destruct (IH y H) as (z & Z1 & Z2). exists z. split; [right; exact Z1|exact Z2]. }
  assert (IDX : forall x, In x incs -> exists i, In i l /\ executed (after h) i (fst (fst x)) (snd (fst x))).
  { clear -L. induction L as [|x i xs is (E & A & LT) L IH]; intros y []; [subst; exists i; split; [left; reflexivity|exact E]|]. destruct (IH y H) as (z & Z1 & Z2). exists z. split; [right; exact Z1|exact Z2]. }
  assert (NDL : NoDup l).
  { clear -L ND. induction L as [|x i xs is (E & A & LT) L IH]; [constructor|]. cbn [map] in ND. inversion ND as [|? ? NI ND']; subst. constructor; [|apply IH, ND']. intros I.
    assert (X : exists x', In x' xs /\ executed (after h) i (fst (fst x')) (snd (fst x'))).
    { clear -L I. induction L as [|x i' xs is (E & A & LT) L IH]; [destruct I|]. destruct I as [<-|I]; [exists x; split; [left; reflexivity|exact E]|]. destruct (IH I) as (z & Z1 & Z2). exists z. split; [right; exact Z1|exact Z2]. }
    destruct X as (x' & X1 & (e1 & N1 & W1)). destruct E as (e2 & N2 & W2). rewrite N1 in N2. injection N2 as <-. apply NI. rewrite W1 in W2. injection W2 as W3 W4.
    replace (fst x) with (fst x') by (destruct (fst x), (fst x'); cbn in *; congruence). apply in_map, X1. }
  destruct (some_of_sum (amount_at h fk) l j (amount_nonneg h fk) NDL LT) as [LE EQ]. rewrite AMS in LE, EQ.
  exists (total h fk j). split; [exact LE|]. split.
  - rewrite (did_answer _ _ _ _ _ _ _ D (always_lasting h fk (counter_expiry h fk C) j)). cbn [spec_cmd fst]. destruct (counter_cell h fk C j) as [[-> Z]| ->]; [right|left]; auto.
  - intros ALL. symmetry. apply EQ. intros i LI NI. unfold amount_at. destruct (op_at h i) as [[fk' cmd]|] eqn:O; [|reflexivity]. destruct cmd as [| | |[]|]; try reflexivity.
    destruct (bytes_eqb fk fk') eqn:Q; [|reflexivity]. apply bytes_eqb_spec in Q. subst fk'. exfalso. apply NI. unfold op_at in O. destruct (nth_error (log (after h)) i) as [e|] eqn:N1; [|discriminate O].
    destruct (ALL i e _ _ N1 O) as (k & c & b & W & I). destruct (IDX _ I) as (i' & I' & E'). cbn [fst snd] in E'.
    assert (i = i') as -> by (apply (C68_at_most_once server limit tr t workers (St kv0 0) h k c); [exists e; auto|exact E']). exact I'.
Qed.

(* ---------- locks ---------- *)
(* the key was absent and is only set if it is vacant (without an expiration) and read *)
Definition lock (h : list Remote.event) (fk : bytes) : Prop :=
  disk_map d fk = None /\
  forall i c, op_at h i = Some (fk, c) -> c = CGet false \/ exists v keep ret, c = CSet (SetCmd v None keep (Some OnlyIfVacant) ret).
Lemma lock_expiry h fk : lock h fk -> no_expiry h fk.
Proof. intros (A & B). split; [rewrite A; exact Logic.I|]. intros i sc O. destruct (B i _ O) as [X|(v & keep & ret & X)]; [discriminate X|]. injection X as ->. reflexivity. Qed.
Lemma lock_stays h fk i x : lock h fk -> map_at h i fk = Some x -> forall n, map_at h (i + n) fk = Some x.
Proof.
  intros K M. induction n as [|n IH]; [rewrite Nat.add_0_r; exact M|]. rewrite Nat.add_succ_r, (cell_S h (i + n) fk (always_lasting h fk (lock_expiry h fk K) _)).
  destruct (op_at h (i + n)) as [[k c]|] eqn:O; [|exact IH]. destruct (bytes_eqb fk k) eqn:Q; [|exact IH]. apply bytes_eqb_spec in Q. subst k. rewrite IH.
  destruct K as (_ & B). destruct (B _ c O) as [-> |(v & keep & ret & ->)]; cbn [spec_cmd s_val s_check]; [reflexivity|]. destruct (is_nan v); reflexivity.
Qed.
(* a set-if-vacant that succeeded *)
Lemma vacant_inserted v keep cur : fst (spec_cmd (CSet (SetCmd v None keep (Some OnlyIfVacant) false)) cur) = KOk (OStatus Inserted) ->
  cur = None /\ snd (spec_cmd (CSet (SetCmd v None keep (Some OnlyIfVacant) false)) cur) = Some (v, None).
Proof.
  cbn [spec_cmd s_val s_check s_ret s_keep s_exp]. destruct (is_nan v); [intros H; discriminate H|]. destruct cur as [x|]; cbn [fst snd]; intros H; [discriminate H|]. split; [reflexivity|]. destruct keep; reflexivity.
Qed.
(* At most one client gets the lock ... *)
Theorem C98_lock_exclusive : forall h ns key k1 c1 x1 keep1 k2 c2 x2 keep2,
  (N.of_nat (length (calls_of k1 h)) <= 2 ^ 32)%N -> (N.of_nat (length (calls_of k2 h)) <= 2 ^ 32)%N -> lock h (full_key ns key) ->
  is_call h k1 c1 ns key (CSet (SetCmd x1 None keep1 (Some OnlyIfVacant) false)) -> is_call h k2 c2 ns key (CSet (SetCmd x2 None keep2 (Some OnlyIfVacant) false)) ->
  returned (after h) k1 c1 (enc (RDone (KOk (OStatus Inserted)))) -> returned (after h) k2 c2 (enc (RDone (KOk (OStatus Inserted)))) ->
  (k1, c1) = (k2, c2).
Proof.
  intros h ns key k1 c1 x1 keep1 k2 c2 x2 keep2 B1 B2 K I1 I2 R1 R2. set (fk := full_key ns key) in *. assert (LA := always_lasting h fk (lock_expiry h fk K)).
  assert (ONE : forall i j k c x keep k' c' x' keep', did h i k c fk (CSet (SetCmd x None keep (Some OnlyIfVacant) false)) (enc (RDone (KOk (OStatus Inserted)))) ->
    did h j k' c' fk (CSet (SetCmd x' None keep' (Some OnlyIfVacant) false)) (enc (RDone (KOk (OStatus Inserted)))) -> ~ i < j).
  { intros i j k c x keep k' c' x' keep' D1 D2 LT. assert (A1 := did_answer _ _ _ _ _ _ _ D1 (LA i)). assert (A2 := did_answer _ _ _ _ _ _ _ D2 (LA j)).
    apply enc_inj in A1, A2. injection A1 as A1. injection A2 as A2. symmetry in A1, A2. apply vacant_inserted in A1, A2. destruct A1 as [_ A1], A2 as [A2 _].
    assert (M : map_at h (S i) fk = Some (x, None)) by (rewrite (cell_S h i fk (LA i)), (did_op _ _ _ _ _ _ _ D1), (proj2 (bytes_eqb_spec fk fk) eq_refl); exact A1).
    assert (X := lock_stays h fk (S i) _ K M (j - S i)). replace (S i + (j - S i)) with j in X by lia. congruence. }
  destruct (returned_did _ _ _ _ _ _ _ B1 I1 R1) as (i & D1). destruct (returned_did _ _ _ _ _ _ _ B2 I2 R2) as (j & D2). fold fk in D1, D2.
  destruct (lt_eq_lt_dec i j) as [[L|L]|L]; [destruct (ONE _ _ _ _ _ _ _ _ _ _ D1 D2 L)| |destruct (ONE _ _ _ _ _ _ _ _ _ _ D2 D1 L)].
  subst j. exact (did_who _ _ _ _ _ _ _ _ _ _ _ _ D1 D2).
Qed.
(* ... and afterwards everybody sees who has it. *)
Theorem C98_lock_visible : forall h1 h2 ns key k c x keep k' c' v',
  (N.of_nat (length (calls_of k h1)) <= 2 ^ 32)%N -> (N.of_nat (length (calls_of k' (h1 ++ h2))) <= 2 ^ 32)%N -> lock (h1 ++ h2) (full_key ns key) ->
  is_call h1 k c ns key (CSet (SetCmd x None keep (Some OnlyIfVacant) false)) -> returned (after h1) k c (enc (RDone (KOk (OStatus Inserted)))) ->
  N.to_nat c' >= length (calls_of k' h1) -> is_call (h1 ++ h2) k' c' ns key (CGet false) -> returned (after (h1 ++ h2)) k' c' v' ->
  v' = enc (RDone (KOk (OValue (Some x)))).
Proof.
  intros h1 h2 ns key k c x keep k' c' v' B B' K I1 R1 NEW I2 R2. set (h := h1 ++ h2) in *. set (fk := full_key ns key) in *. assert (LA := always_lasting h fk (lock_expiry h fk K)).
  destruct (returned_did _ _ _ _ _ _ _ B I1 R1) as (i & D1). destruct (returned_did _ _ _ _ _ _ _ B' I2 R2) as (j & D2). assert (D1' := did_prefix h1 h2 _ _ _ _ _ _ D1). fold h fk in D1', D2.
  assert (LT : i < j) by (eapply did_before; [exact B|exact R1|exact NEW|exact D1'|exact D2]).
  assert (A1 := did_answer _ _ _ _ _ _ _ D1' (LA i)). apply enc_inj in A1. injection A1 as A1. symmetry in A1. apply vacant_inserted in A1. destruct A1 as [_ A1].
  assert (M : map_at h (S i) fk = Some (x, None)) by (rewrite (cell_S h i fk (LA i)), (did_op _ _ _ _ _ _ _ D1'), (proj2 (bytes_eqb_spec fk fk) eq_refl); exact A1).
  assert (X := lock_stays h fk (S i) _ K M (j - S i)). replace (S i + (j - S i)) with j in X by lia.
  rewrite (did_answer _ _ _ _ _ _ _ D2 (LA j)), X. reflexivity.
Qed.

(* ---------- hand-over of one value ---------- *)
(* the key was absent; only call c0 of client k0 sets it (without an expiration); all
   others read it or take it (get and delete) *)
Definition mailbox (h : list Remote.event) (fk : bytes) (k0 c0 : N) : Prop :=
  disk_map d fk = None /\
  forall i e c, nth_error (log (after h)) i = Some e -> op_of e = Some (fk, c) ->
    c = CGet false \/ c = CGet true \/ (e_who e = Some (k0, c0) /\ exists v keep ck ret, c = CSet (SetCmd v None keep ck ret)).
Lemma mailbox_expiry h fk k0 c0 : mailbox h fk k0 c0 -> no_expiry h fk.
Proof.
  intros (A & B). split; [rewrite A; exact Logic.I|]. intros i sc O. unfold op_at in O. destruct (nth_error (log (after h)) i) as [e|] eqn:N1; [|discriminate O].
  destruct (B i e _ N1 O) as [X|[X|(_ & v & keep & ck & ret & X)]]; try discriminate X. injection X as ->. reflexivity.
Qed.
Lemma mailbox_filled h fk k0 c0 a : mailbox h fk k0 c0 -> map_at h a fk = None -> forall n x, map_at h (a + n) fk = Some x -> exists s, a <= s < a + n /\ executed (after h) s k0 c0.
Proof.
  intros K M. induction n as [|n IH]; intros x X; [rewrite Nat.add_0_r in X; congruence|]. rewrite Nat.add_succ_r, (cell_S h (a + n) fk (always_lasting h fk (mailbox_expiry _ _ _ _ K) _)) in X.
  assert (STEP : forall y, map_at h (a + n) fk = Some y -> exists s, a <= s < a + S n /\ executed (after h) s k0 c0) by (intros y Y; destruct (IH y Y) as (s & L & E); exists s; split; [lia|exact E]).
  unfold op_at in X. destruct (nth_error (log (after h)) (a + n)) as [e|] eqn:N1; [|exact (STEP _ X)]. destruct (op_of e) as [[k c]|] eqn:O; [|exact (STEP _ X)]. destruct (bytes_eqb fk k) eqn:Q; [|exact (STEP _ X)].
  apply bytes_eqb_spec in Q. subst k. destruct (proj2 K _ e c N1 O) as [-> |[-> |(W & _)]]; [exact (STEP _ X)|discriminate X|]. exists (a + n). split; [lia|]. exists e. auto.
Qed.
(* The value is taken at most once. *)
Theorem C98_taken_once : forall h ns key k0 c0 k1 c1 v1 k2 c2 v2,
  (N.of_nat (length (calls_of k1 h)) <= 2 ^ 32)%N -> (N.of_nat (length (calls_of k2 h)) <= 2 ^ 32)%N -> mailbox h (full_key ns key) k0 c0 ->
  is_call h k1 c1 ns key (CGet true) -> is_call h k2 c2 ns key (CGet true) ->
  returned (after h) k1 c1 (enc (RDone (KOk (OValue (Some v1))))) -> returned (after h) k2 c2 (enc (RDone (KOk (OValue (Some v2))))) ->
  (k1, c1) = (k2, c2).
Proof.
  intros h ns key k0 c0 k1 c1 v1 k2 c2 v2 B1 B2 K I1 I2 R1 R2. set (fk := full_key ns key) in *. assert (LA := always_lasting h fk (mailbox_expiry _ _ _ _ K)).
  assert (ONE : forall i j k c v k' c' v', did h i k c fk (CGet true) (enc (RDone (KOk (OValue (Some v))))) -> did h j k' c' fk (CGet true) (enc (RDone (KOk (OValue (Some v'))))) -> ~ i < j).
  { intros i j k c v k' c' v' D1 D2 LT. assert (A1 := did_answer _ _ _ _ _ _ _ D1 (LA i)). assert (A2 := did_answer _ _ _ _ _ _ _ D2 (LA j)).
    apply enc_inj in A1, A2. cbn [spec_cmd fst] in A1, A2. injection A1 as A1. injection A2 as A2.
    destruct (map_at h i fk) as [x1|] eqn:M1; [|discriminate A1]. destruct (map_at h j fk) as [x2|] eqn:M2; [|discriminate A2].
    destruct (mailbox_filled h fk k0 c0 0 K (proj1 K) i x1 M1) as (s1 & L1 & E1).
    assert (M : map_at h (S i) fk = None) by (rewrite (cell_S h i fk (LA i)), (did_op _ _ _ _ _ _ _ D1), (proj2 (bytes_eqb_spec fk fk) eq_refl); reflexivity).
    destruct (mailbox_filled h fk k0 c0 (S i) K M (j - S i) x2) as (s2 & L2 & E2); [replace (S i + (j - S i)) with j by lia; exact M2|].
    assert (X := C68_at_most_once server limit tr t workers (St kv0 0) h k0 c0 s1 s2 E1 E2). lia. }
  destruct (returned_did _ _ _ _ _ _ _ B1 I1 R1) as (i & D1). destruct (returned_did _ _ _ _ _ _ _ B2 I2 R2) as (j & D2). fold fk in D1, D2.
  destruct (lt_eq_lt_dec i j) as [[L|L]|L]; [destruct (ONE _ _ _ _ _ _ _ _ D1 D2 L)| |destruct (ONE _ _ _ _ _ _ _ _ D2 D1 L)].
  subst j. exact (did_who _ _ _ _ _ _ _ _ _ _ _ _ D1 D2).
Qed.

(* ---------- reads after writes ---------- *)
(* A value that a client has set is what every read issued afterwards shows, as long as
   nothing else writes the key; operations on other keys, the background worker, writes
   and failures of the disk and a shutdown do not matter. *)
Theorem C98_read_written : forall h1 h2 ns key k c x k' c' v o,
  (N.of_nat (length (calls_of k h1)) <= 2 ^ 32)%N -> (N.of_nat (length (calls_of k' (h1 ++ h2))) <= 2 ^ 32)%N ->
  is_call h1 k c ns key (CSet (SetCmd x None false None false)) -> returned (after h1) k c (enc (RDone (KOk o))) ->
  (forall i e cmd, nth_error (log (after (h1 ++ h2))) i = Some e -> op_of e = Some (full_key ns key, cmd) -> cmd = CGet false \/ e_who e = Some (k, c)) ->
  N.to_nat c' >= length (calls_of k' h1) -> is_call (h1 ++ h2) k' c' ns key (CGet false) -> returned (after (h1 ++ h2)) k' c' v ->
  v = enc (RDone (KOk (OValue (Some x)))).
Proof.
  intros h1 h2 ns key k c x k' c' v o B B' I1 R1 ONLY NEW I2 R2. set (h := h1 ++ h2) in *. set (fk := full_key ns key) in *.
  destruct (returned_did _ _ _ _ _ _ _ B I1 R1) as (i & D1). destruct (returned_did _ _ _ _ _ _ _ B' I2 R2) as (j & D2). assert (D1' := did_prefix h1 h2 _ _ _ _ _ _ D1). fold h fk in D1', D2.
  assert (LT : i < j) by (eapply did_before; [exact B|exact R1|exact NEW|exact D1'|exact D2]).
  destruct D1' as (e & N1 & W & O & A). assert (AN := answer_at h i e N1). rewrite A in AN. apply enc_inj in AN. unfold answer in AN. unfold op_of in O.
  destruct (dec (e_req e)) as [[ns0 key0 cmd0]|] eqn:DE; [|discriminate O]. cbn [q_ns q_key q_cmd] in *. destruct (perm (e_session e) ns0 key0) eqn:P; [|discriminate O]. injection O as FK ->.
  cbn [spec_cmd s_val s_check s_ret s_keep s_exp] in AN. destruct (is_nan x) eqn:NN; [discriminate AN|]. clear AN.
  assert (M : map_at h (S i) fk = Some (x, None)).
  { rewrite (map_at_S h i e N1). unfold on_request. rewrite DE. cbn [q_ns q_key q_cmd]. rewrite P. cbv zeta. unfold put. rewrite FK, (proj2 (bytes_eqb_spec fk fk) eq_refl). cbn [spec_cmd s_val s_check s_ret s_keep s_exp]. rewrite NN. reflexivity. }
  assert (ST : forall n, map_at h (S i + n) fk = Some (x, None)).
  { induction n as [|n IH]; [rewrite Nat.add_0_r; exact M|]. rewrite Nat.add_succ_r, (cell_S h (S i + n) fk); [|rewrite IH; exact Logic.I]. unfold op_at.
    destruct (nth_error (log (after h)) (S i + n)) as [e'|] eqn:N2; [|exact IH]. destruct (op_of e') as [[k2 cmd]|] eqn:O2; [|exact IH]. destruct (bytes_eqb fk k2) eqn:Q; [|exact IH].
    apply bytes_eqb_spec in Q. subst k2. destruct (ONLY _ _ _ N2 O2) as [-> |W2]; [exact IH|]. exfalso.
    assert (X := C68_at_most_once server limit tr t workers (St kv0 0) h k c i (S i + n)). enough (i = S i + n) by lia. apply X; [exists e; auto|exists e'; auto]. }
  specialize (ST (j - S i)). replace (S i + (j - S i)) with j in ST by lia. rewrite (did_answer _ _ _ _ _ _ _ D2); rewrite ST; [reflexivity|exact Logic.I].
Qed.
(* Nothing panics. *)
Theorem C98_no_panic : forall h k c v, (N.of_nat (length (calls_of k h)) <= 2 ^ 32)%N -> returned (after h) k c v -> v <> enc RPanic.
Proof.
  intros h k c v B R. destruct (C68_returned server limit tr t workers (St kv0 0) h k c v B R) as (e & I & W & <-). destruct (In_nth_error _ _ I) as (i & N1).
  rewrite (answer_at h i e N1). unfold answer. intros X. apply enc_inj in X. destruct (dec (e_req e)) as [q|]; [|discriminate X]. destruct (perm _ _ _); discriminate X.
Qed.
End Claims.

(* A wire format meeting [enc_inj], as in PropRemoteDocs.v. *)
Section Wire.
Import PropRemoteDocs.
Local Open Scope N_scope.
Definition w_z (z : Z) : list N := [match z with Z0 => 0 | Zpos q => Npos (xO q) | Zneg q => Npos (xI q) end].
Lemma pf_z : prefix_free w_z. Proof. intros [|a|a] [|b|b] x y H; inversion H; auto. Qed.
Definition w_float (f : spec_float) : list N :=
  match f with S754_nan => [0] | S754_zero s => 1 :: w_bool s | S754_infinity s => 2 :: w_bool s | S754_finite s m e => 3 :: w_bool s ++ w_z (Zpos m) ++ w_z e end.
Lemma pf_float : prefix_free w_float.
Proof.
  intros [a|a| |a m e] [b|b| |b m' e'] x y H; cbn [w_float app] in H; try discriminate H; try (destruct a, b; inversion H; auto; fail); try (inversion H; auto; fail).
  injection H as H1 H2 H3 H. destruct a, b; try discriminate H1; destruct e, e'; try discriminate H3; inversion H2; inversion H3; subst; auto.
Qed.
Definition w_num (n : numeric) : list N := match n with NInt z => 0 :: w_z z | NUInt z => 1 :: w_z z | NFloat f => 2 :: w_float f end.
Lemma pf_num : prefix_free w_num.
Proof.
  intros [a|a|a] [b|b|b] x y H; try discriminate H; [..|injection H as H; apply pf_float in H; destruct H as [-> ->]; auto];
    (assert (Z : w_z a ++ x = w_z b ++ y) by (cbn in H; cbn; congruence)); apply pf_z in Z; destruct Z as [-> ->]; auto.
Qed.
Definition w_val (v : value) : list N := match v with VBytes b => 0 :: w_bytes b | VNum n => 1 :: w_num n end.
Lemma pf_val : prefix_free w_val.
Proof. intros [a|a] [b|b] x y H; cbn [w_val app] in H; try discriminate H; injection H as H; [apply pf_bytes in H|apply pf_num in H]; destruct H as [-> ->]; auto. Qed.
Definition w_res (r : kresult) : list N :=
  match r with
  | KOk (OStatus s) => 0 :: [match s with Inserted => 0 | Updated => 1 | Deleted => 2 | NotChanged => 3 end] | KOk (OValue v) => 1 :: w_opt w_val v
  | KErr ENotANumber => [2] | KErr ENotNumeric => [3]
  end.
Lemma pf_res : prefix_free w_res.
Proof.
  intros [[s|v]|[]] [[s'|v']|[]] x y H; cbn [w_res app] in H; try discriminate H; try (inversion H; auto; fail).
  - injection H as H1 H2. destruct s, s'; try discriminate H1; auto.
  - injection H as H. apply (pf_opt _ pf_val) in H. destruct H as [-> ->]. auto.
Qed.
Definition w_reply (r : RemoteKv.response) : list N := match r with RDone k => 0 :: w_res k | RDenied => [1] | RemoteKv.RMalformed => [2] | RPanic => [3] end.
Definition kv_enc (r : RemoteKv.response) : N := as_number (w_reply r).
Lemma kv_enc_inj : forall x y, kv_enc x = kv_enc y -> x = y.
Proof.
  intros x y H. apply as_number_inj in H. destruct x as [a| | |], y as [b| | |]; try discriminate H; try reflexivity. injection H as H.
  f_equal. apply (pf_res a b [] []). rewrite !app_nil_r. exact H.
Qed.
End Wire.

(* The clients 5 and 9 with one counter, one lock and one mailbox. *)
Definition kx_get (k : N) (del : bool) := Some (RemoteKv.Req None [k] (CGet del)).
Definition kx_req (n : N) : option RemoteKv.request :=
  match n with
  | 0 => Some (RemoteKv.Req None [1%N] (CIncr (NUInt 2) true)) | 1 => Some (RemoteKv.Req None [1%N] (CIncr (NUInt 3) false)) | 2 => kx_get 1 false
  | 3 => Some (RemoteKv.Req None [2%N] (CSet (SetCmd (VBytes [5%N]) None false (Some OnlyIfVacant) false)))
  | 4 => Some (RemoteKv.Req None [2%N] (CSet (SetCmd (VBytes [9%N]) None false (Some OnlyIfVacant) false))) | 5 => kx_get 2 false
  | 6 => Some (RemoteKv.Req None [3%N] (CSet (SetCmd (VBytes [7%N]) None false None false))) | 7 => kx_get 3 true | 9 => kx_get 3 false | _ => None
  end%N.
Definition kx_may (o : option N) (ns : option bytes) (key : bytes) : bool := match o with Some 3%N => true | _ => false end.
Definition kx_before (i : nat) : list Kv.event := [ETick (Ts (N.of_nat i) 0); EWrite; Kv.EFinish].
Definition kx_clock (i : nat) : ts := Ts (N.of_nat i) 5.
Notation kx_server := (RemoteKv.exec kx_before kx_clock kx_may kx_req kv_enc).
Definition kx_kv0 : kst := kv_open PImmediate (Ts 1 0) [].
Notation kx_run h := (sys_run kx_server 16 ws wsc (sys0 2 (St kx_kv0 0)) h).
Definition again (k : N) (se : option N) (n : N) := [ECall k se n; EClient k ClientWorker.Send].
Definition turn5 (n : N) := again 5 (Some 3%N) n ++ serve 0 ++ [EReceive 5].
Definition turn9 (n : N) := again 9 (Some 3%N) n ++ serve 2 ++ [EReceive 9].
Definition kx_h1 := [ECall 5 (Some 3%N) 0%N] ++ connect 5 ++ serve 0 ++ [EReceive 5] ++ [ECall 9 (Some 3%N) 1%N] ++ connect 9 ++ serve 2 ++ [EReceive 9].
Definition kx_h2 := turn5 2 ++ turn9 4 ++ turn5 3 ++ turn5 5.
Definition kx_h3 := turn5 6 ++ turn9 9 ++ turn9 7 ++ turn5 7 ++ again 5 None 7 ++ serve 0 ++ [EReceive 5] ++ turn5 8.
Definition kx_h := kx_h1 ++ kx_h2 ++ kx_h3.
Notation kx_op := (op_of kx_may kx_req).
Definition kx_vac (b : N) := CSet (SetCmd (VBytes [b]) None false (Some OnlyIfVacant) false).
Lemma kx_log : map (fun e => (e_who e, kx_op e)) (log (kx_run kx_h)) =
  [(Some (5, 0), Some ([0; 1], CIncr (NUInt 2) true)); (Some (9, 0), Some ([0; 1], CIncr (NUInt 3) false)); (Some (5, 1), Some ([0; 1], CGet false));
   (Some (9, 1), Some ([0; 2], kx_vac 9)); (Some (5, 2), Some ([0; 2], kx_vac 5)); (Some (5, 3), Some ([0; 2], CGet false));
   (Some (5, 4), Some ([0; 3], CSet (SetCmd (VBytes [7]) None false None false))); (Some (9, 2), Some ([0; 3], CGet false));
   (Some (9, 3), Some ([0; 3], CGet true)); (Some (5, 5), Some ([0; 3], CGet true)); (Some (5, 6), None); (Some (5, 7), None)]%N%Z.
Proof. vm_compute. reflexivity. Qed.
Lemma kx_entry i e : nth_error (log (kx_run kx_h)) i = Some e -> In (e_who e, kx_op e) (map (fun e => (e_who e, kx_op e)) (log (kx_run kx_h))).
Proof. intros H. apply (in_map (fun e => (e_who e, kx_op e))). exact (nth_error_In _ _ H). Qed.
Ltac kx_cases I := rewrite kx_log in I; repeat (destruct I as [I|I]; [injection I; clear I; intros; subst; try discriminate|]); try destruct I.
(* the general hypotheses *)
Example C98_example_setting : (forall i, Forall background (kx_before i)) /\ (forall n q, kx_req n = Some q -> cmd_ok (q_cmd q)) /\
  stored_before (Ts 1 0) [] /\ opened PImmediate (Ts 1 0) (Ts 1 0) [] = Some kx_kv0 /\ (forall x y, kv_enc x = kv_enc y -> x = y).
Proof.
  split; [intros i; repeat constructor|]. split.
  - intros n q H. destruct n as [|n]; [inversion H; subst; cbn; lia|]. destruct n as [[[n|n|]|[n|n|]|]|[[n|n|]|[n|n|]|]|]; cbn in H; try discriminate H; try (inversion H; subst; cbn; auto; lia); try (destruct n; try discriminate H; inversion H; subst; cbn; auto; lia).
  - split; [split; [split; [exact wf_nil|discriminate]|discriminate]|]. split; [reflexivity|exact kv_enc_inj].
Qed.
Local Notation is_call' := (is_call kx_may kx_req).
(* C98_increment, C98_unique_numbers, C98_no_lost_increment: the answers are 2 and 5, and
   the read shows 5 *)
Example C98_example_counter :
  counter kx_before kx_clock kx_may kx_req kv_enc 16 ws wsc 2 [] kx_kv0 kx_h (full_key None [1%N]) /\
  is_call' kx_h 5 0 None [1%N] (CIncr (NUInt 2) true) /\ returned (kx_run kx_h) 5 0 (kv_enc (RDone (KOk (OValue (Some (VNum (NUInt 2))))))) /\
  is_call' kx_h 9 0 None [1%N] (CIncr (NUInt 3) false) /\ returned (kx_run kx_h) 9 0 (kv_enc (RDone (KOk (OValue (Some (VNum (NUInt 5))))))) /\
  (N.to_nat 1 >= length (calls_of 5 kx_h1))%nat /\ is_call' kx_h 5 1 None [1%N] (CGet false) /\
  returned (kx_run kx_h) 5 1 (kv_enc (RDone (KOk (OValue (Some (VNum (NUInt 5)))))))  /\
  returned (kx_run kx_h1) 5 0 (kv_enc (RDone (KOk (OValue (Some (VNum (NUInt 2))))))).
Proof.
  split.
  { split; [reflexivity|]. split; [|vm_compute; discriminate]. intros i c O. unfold op_at in O. destruct (nth_error _ i) as [e|] eqn:N1; [|discriminate O]. assert (I := kx_entry i e N1). rewrite O in I.
    kx_cases I; first [left; reflexivity|right; eexists; eexists; reflexivity]. }
  split; [exists (Some 3%N), 0%N; vm_compute; auto|]. split; [vm_compute; auto 20|]. split; [exists (Some 3%N), 1%N; vm_compute; auto|]. split; [vm_compute; auto 20|].
  split; [vm_compute; lia|]. split; [exists (Some 3%N), 2%N; vm_compute; auto|]. split; vm_compute; auto 20.
Qed.
(* C98_lock_exclusive, C98_lock_visible: 9 gets it, 5 does not *)
Example C98_example_lock :
  lock kx_before kx_clock kx_may kx_req kv_enc 16 ws wsc 2 [] kx_kv0 kx_h (full_key None [2%N]) /\
  is_call' kx_h 9 1 None [2%N] (kx_vac 9) /\ returned (kx_run kx_h) 9 1 (kv_enc (RDone (KOk (OStatus Inserted)))) /\
  is_call' kx_h 5 2 None [2%N] (kx_vac 5) /\ returned (kx_run kx_h) 5 2 (kv_enc (RDone (KOk (OStatus NotChanged)))) /\
  is_call' kx_h 5 3 None [2%N] (CGet false) /\ returned (kx_run kx_h) 5 3 (kv_enc (RDone (KOk (OValue (Some (VBytes [9%N])))))).
Proof.
  split.
  { split; [reflexivity|]. intros i c O. unfold op_at in O. destruct (nth_error _ i) as [e|] eqn:N1; [|discriminate O]. assert (I := kx_entry i e N1). rewrite O in I.
    kx_cases I; first [left; reflexivity|right; eexists; eexists; eexists; reflexivity]. }
  split; [exists (Some 3%N), 4%N; vm_compute; auto|]. split; [vm_compute; auto 20|]. split; [exists (Some 3%N), 3%N; vm_compute; auto|]. split; [vm_compute; auto 20|].
  split; [exists (Some 3%N), 5%N; vm_compute; auto|]. vm_compute. auto 20.
Qed.
(* C98_taken_once, C98_read_written: 9 takes the value, 5 gets nothing; without a
   session the operation is refused *)
Example C98_example_mailbox :
  mailbox kx_before kx_clock kx_may kx_req kv_enc 16 ws wsc 2 [] kx_kv0 kx_h (full_key None [3%N]) 5 4 /\
  is_call' kx_h 9 3 None [3%N] (CGet true) /\ returned (kx_run kx_h) 9 3 (kv_enc (RDone (KOk (OValue (Some (VBytes [7%N])))))) /\
  is_call' kx_h 5 5 None [3%N] (CGet true) /\ returned (kx_run kx_h) 5 5 (kv_enc (RDone (KOk (OValue None)))) /\
  returned (kx_run kx_h) 5 4 (kv_enc (RDone (KOk (OStatus Inserted)))) /\ returned (kx_run kx_h) 9 2 (kv_enc (RDone (KOk (OValue (Some (VBytes [7%N])))))) /\
  returned (kx_run kx_h) 5 6 (kv_enc RDenied) /\ returned (kx_run kx_h) 5 7 (kv_enc RemoteKv.RMalformed).
Proof.
  split.
  { split; [reflexivity|]. intros i e c N1 O. assert (I := kx_entry i e N1). rewrite O in I.
    kx_cases I; first [left; reflexivity|right; left; reflexivity|right; right; split; [congruence|eexists; eexists; eexists; eexists; reflexivity]]. }
  split; [exists (Some 3%N), 7%N; vm_compute; auto|]. split; [vm_compute; auto 20|]. split; [exists (Some 3%N), 7%N; vm_compute; auto|]. split; [vm_compute; auto 20|].
  split; [vm_compute; auto 20|]. split; [vm_compute; auto 20|]. split; vm_compute; auto 20.
Qed.

Print Assumptions C98_store.
Print Assumptions C98_returned.
Print Assumptions C98_increment.
Print Assumptions C98_unique_numbers.
Print Assumptions C98_no_lost_increment.
Print Assumptions C98_lock_exclusive.
Print Assumptions C98_lock_visible.
Print Assumptions C98_taken_once.
Print Assumptions C98_read_written.
Print Assumptions C98_no_panic.
