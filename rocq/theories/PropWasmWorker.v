(* C96: requests of a client in a browser. *)
From Coq Require Import List NArith Bool Lia Permutation ZifyBool.
Import ListNotations.
From Verif Require Import WasmWorker.
Open Scope N_scope.

(* where a call can be *)
Definition held (c : conn) : list call :=
  match c_init c with Some r => [r] | None => [] end ++ c_chan c ++ map snd (c_map c).
Definition places (w : world) : list call := w_queue w ++ flat_map held (w_conns w) ++ map fst (w_results w).
Definition calls (n : N) : list call := map N.of_nat (seq 0 (N.to_nat n)).

Notation cnt := (count_occ N.eq_dec).
Lemma cnt_app (x : N) a b : cnt (a ++ b) x = (cnt a x + cnt b x)%nat.
Proof. apply count_occ_app. Qed.
Lemma cnt_cons (x : N) a b : cnt (a :: b) x = ((if N.eq_dec a x then 1 else 0) + cnt b x)%nat.
Proof. cbn. destruct (N.eq_dec a x); reflexivity. Qed.
Lemma set_nth_count {A} (f : A -> list N) x : forall l k (old c : A), nth_error l k = Some old ->
  (cnt (flat_map f (set_nth k c l)) x + cnt (f old) x = cnt (flat_map f l) x + cnt (f c) x)%nat.
Proof.
  induction l as [|y l IH]; intros [|k] old c H; try discriminate H; cbn [nth_error set_nth flat_map] in *; rewrite !cnt_app.
  - inversion H; subst. lia.
  - specialize (IH k old c H). lia.
Qed.
Lemma take_id_count i x : forall m c r, take_id i m = Some (c, r) -> cnt (map snd m) x = ((if N.eq_dec c x then 1 else 0) + cnt (map snd r) x)%nat.
Proof.
  induction m as [|[j d] m IH]; intros c r; cbn [take_id]; [discriminate|]. destruct (j =? i).
  - intros H. inversion H; subst. cbn [map snd]. apply cnt_cons.
  - destruct (take_id i m) as [[d' r']|]; [|discriminate]. intros H. inversion H; subst. cbn [map snd]. rewrite !cnt_cons, (IH _ _ eq_refl). lia.
Qed.
Lemma put_id_count x r m m' rs : put_id r m = (m', rs) -> (cnt (map snd m') x + cnt (map fst rs) x = cnt (map snd m) x + (if N.eq_dec r x then 1 else 0))%nat.
Proof.
  unfold put_id. destruct (take_id (wire_id r) m) as [[old q]|] eqn:T; intros H; inversion H; subst; cbn [map fst snd]; rewrite ?cnt_cons.
  - rewrite (take_id_count _ x _ _ _ T). cbn. lia.
  - cbn. lia.
Qed.
Lemma drain_count x p m rs p' : drain p m = (rs, p') -> cnt (map fst rs) x = cnt (map snd m) x.
Proof.
  destruct m as [|[j c] m]; cbn [drain]; intros H; inversion H; subst; [reflexivity|]. cbn [map fst snd]. rewrite !cnt_cons, map_map. reflexivity.
Qed.
(* an action on one connection keeps the calls *)
Lemma at_conn_count w k f x : (forall c c' rs, f c = Some (c', rs) -> (cnt (held c') x + cnt (map fst rs) x = cnt (held c) x)%nat) ->
  cnt (places (at_conn w k f)) x = cnt (places w) x.
Proof.
  intros H. unfold at_conn. destruct (nth_error (w_conns w) k) as [c|] eqn:NC; [|reflexivity].
  destruct (f c) as [[c' rs]|] eqn:F; [|reflexivity]. specialize (H c c' rs F).
  unfold places. cbn [w_queue w_conns w_results]. rewrite map_app, !cnt_app.
  assert (S1 := set_nth_count held x _ _ _ c' NC). lia.
Qed.
Lemma at_conn_issued w k f : w_issued (at_conn w k f) = w_issued w.
Proof. unfold at_conn. destruct (nth_error _ _) as [c|]; [destruct (f c) as [[c' rs]|]|]; reflexivity. Qed.
Lemma send_count x c r o init chan c' rs : send c r o init chan = (c', rs) ->
  (cnt (held c') x + cnt (map fst rs) x = cnt (match init with Some q => [q] | None => [] end) x + cnt chan x + cnt (map snd (c_map c)) x + (if N.eq_dec r x then 1 else 0))%nat.
Proof.
  unfold send. destruct o as [|e|e].
  - destruct (put_id r (c_map c)) as [m q] eqn:P. intros H. inversion H; subst. unfold held. cbn [c_init c_chan c_map]. rewrite !cnt_app.
    assert (X := put_id_count x _ _ _ _ P). lia.
  - intros H. inversion H; subst. unfold held. cbn [c_init c_chan c_map map fst]. rewrite !cnt_app, cnt_cons. cbn [count_occ]. lia.
  - intros H. inversion H; subst. unfold held. cbn [c_init c_chan c_map map fst]. rewrite !cnt_app, cnt_cons. cbn [count_occ]. lia.
Qed.
Lemma gone_fst (l : list call) : map fst (map (fun r => (r, Gone)) l) = l.
Proof. rewrite map_map. cbn. apply map_id. Qed.
Lemma gone_snd (l : list (N * call)) : map fst (map (fun x => (snd x, Gone)) l) = map snd l.
Proof. rewrite map_map. reflexivity. Qed.

Ltac held_tac := unfold held, fail_init in *; cbn [c_init c_chan c_map] in *; rewrite ?map_app, ?gone_fst, ?gone_snd, ?cnt_app in *; cbn [map fst count_occ] in *.
Lemma step_count w ev x : cnt (places (step w ev)) x =
  (cnt (places w) x + match ev with Call => if N.eq_dec (w_issued w) x then 1 else 0 | _ => 0 end)%nat.
Proof.
  destruct ev as [| |e|k|k|k|k o|k o|k|k i v|k|k e|k e|k|k|k]; cbn [step]; try rewrite PeanoNat.Nat.add_0_r.
  - unfold places. cbn [w_queue w_conns w_results]. rewrite !cnt_app, cnt_cons. cbn [count_occ]. lia.
  - destruct (w_starter w) as [[e|]|]; destruct (w_queue w) as [|r q] eqn:Q; try reflexivity; unfold places; cbn [w_queue w_conns w_results]; rewrite Q.
    + rewrite map_app, !cnt_app, !cnt_cons. cbn [map fst]. rewrite cnt_cons. cbn [count_occ]. lia.
    + rewrite flat_map_app. cbn [flat_map]. unfold held at 2. cbn [c_init c_chan c_map map]. rewrite ?app_nil_r, !cnt_app, !cnt_cons. cbn [count_occ]. lia.
  - destruct (w_starter w) as [[e1|]|]; destruct (w_queue w) as [|r q] eqn:Q; try reflexivity; unfold places; cbn [w_queue w_conns w_results]; rewrite Q.
    rewrite map_app, !cnt_app, !cnt_cons. cbn [map fst]. rewrite cnt_cons. cbn [count_occ]. lia.
  - destruct (nth_error (w_conns w) k) as [c|] eqn:NC; [|reflexivity]. destruct (w_queue w) as [|r q] eqn:Q; [reflexivity|].
    destruct (c_fwd c); [|reflexivity].
    assert (HC : forall t, held (mkC (c_init c) (c_sock c) true (c_shut c) (c_chan c ++ [r]) t (c_map c) (c_onerror c) (c_close c)) =
                           match c_init c with Some z => [z] | None => [] end ++ (c_chan c ++ [r]) ++ map snd (c_map c)) by reflexivity.
    assert (K : forall t, cnt (places (mkWorld (w_issued w) q (w_starter w) (set_nth k (mkC (c_init c) (c_sock c) true (c_shut c) (c_chan c ++ [r]) t (c_map c) (c_onerror c) (c_close c)) (w_conns w)) (w_results w))) x = cnt (places w) x).
    { intros t. unfold places. cbn [w_queue w_conns w_results]. rewrite Q.
      assert (S1 := set_nth_count held x _ _ _ (mkC (c_init c) (c_sock c) true (c_shut c) (c_chan c ++ [r]) t (c_map c) (c_onerror c) (c_close c)) NC).
      rewrite HC in S1. unfold held at 2 in S1. rewrite !cnt_app in *. cbn [map fst app] in *. rewrite !cnt_cons in *. cbn [count_occ] in *. lia. }
    destruct (c_task c); try apply K.
    unfold places. cbn [w_queue w_conns w_results]. rewrite Q.
    assert (S1 := set_nth_count held x _ _ _ (mkC (c_init c) (c_sock c) false (c_shut c) (c_chan c) TDone (c_map c) (c_onerror c) (c_close c)) NC).
    unfold held at 2 4 in S1. cbn [c_init c_chan c_map] in S1. rewrite map_app, !cnt_app in *. cbn [map fst app] in *. rewrite !cnt_cons in *. cbn [count_occ] in *. lia.
  - apply at_conn_count. intros c c' rs. destruct (c_fwd c && c_shut c); intros H; inversion H; subst. held_tac. lia.
  - apply at_conn_count. intros c c' rs. destruct (c_sock c); try discriminate. destruct (c_task c); intros H; inversion H; subst. held_tac. lia.
  - apply at_conn_count. intros c c' rs. destruct (c_task c); try discriminate. destruct (c_init c) as [r|] eqn:EI.
    + intros H. injection H as H. assert (X := send_count x _ _ _ _ _ _ _ H). unfold held at 2. rewrite EI, !cnt_app, cnt_cons. cbn [count_occ] in *. lia.
    + intros H; inversion H; subst. unfold held. rewrite EI. cbn [c_init c_chan c_map map count_occ]. lia.
  - apply at_conn_count. intros c c' rs. destruct (c_task c); try discriminate. destruct (c_chan c) as [|r q] eqn:EC; [discriminate|].
    intros H. injection H as H. assert (X := send_count x _ _ _ _ _ _ _ H). unfold held at 2. rewrite EC, !cnt_app, cnt_cons. lia.
  - apply at_conn_count. intros c c' rs. destruct (c_task c); try discriminate. destruct (c_chan c) as [|r q] eqn:EC; [|discriminate].
    destruct (c_fwd c); intros H; inversion H; subst. held_tac. rewrite EC. cbn [count_occ]. lia.
  - apply at_conn_count. intros c c' rs. destruct (take_id i (c_map c)) as [[r m]|] eqn:T; intros H; inversion H; subst. held_tac.
    rewrite (take_id_count _ x _ _ _ T). destruct (N.eq_dec r x); lia.
  - apply at_conn_count. intros c c' rs. destruct (c_init c) as [r|] eqn:EI; intros H; inversion H; subst. held_tac. rewrite EI. cbn [map fst count_occ]. lia.
  - apply at_conn_count. intros c c' rs. destruct (c_onerror c); intros H; inversion H; subst. held_tac. destruct (c_init c); cbn [map fst count_occ]; lia.
  - apply at_conn_count. intros c c' rs. destruct (c_close c); intros H; inversion H; subst. held_tac. destruct (c_init c); cbn [map fst count_occ]; lia.
  - destruct (nth_error (w_conns w) k) as [c|] eqn:NC; [|reflexivity]. destruct (c_close c); try reflexivity. destruct (drain p (c_map c)) as [rs p'] eqn:D.
    unfold places. cbn [w_queue w_conns w_results].
    assert (S1 := set_nth_count held x _ _ _ (mkC (c_init c) (c_sock c) (c_fwd c) (c_shut c) (c_chan c) (c_task c) [] (c_onerror c) CDone) NC).
    unfold held at 2 4 in S1. cbn [c_init c_chan c_map map] in S1. rewrite map_app, !cnt_app in *. rewrite (drain_count x _ _ _ _ D). cbn [count_occ] in *. lia.
  - apply at_conn_count. intros c c' rs. destruct (c_task c); try discriminate. destruct (c_fwd c); intros H; inversion H; subst. held_tac. lia.
  - apply at_conn_count. intros c c' rs. destruct (c_close c); try discriminate. destruct (c_fwd c); try discriminate.
    destruct (c_task c); intros H; inversion H; subst; held_tac; lia.
Qed.
Lemma step_issued w ev : w_issued (step w ev) = match ev with Call => w_issued w + 1 | _ => w_issued w end.
Proof.
  destruct ev; cbn [step]; try apply at_conn_issued; try reflexivity.
  - destruct (w_starter w) as [[e|]|]; destruct (w_queue w); reflexivity.
  - destruct (w_starter w) as [[e1|]|]; destruct (w_queue w); reflexivity.
  - destruct (nth_error _ _) as [c|]; [|reflexivity]. destruct (w_queue w); [reflexivity|]. destruct (c_fwd c); [destruct (c_task c)|]; reflexivity.
  - destruct (nth_error _ _) as [c|]; [|reflexivity]. destruct (c_close c); try reflexivity. destruct (drain _ _); reflexivity.
Qed.
Lemma calls_succ n : calls (n + 1) = calls n ++ [n].
Proof. unfold calls. replace (N.to_nat (n + 1)) with (N.to_nat n + 1)%nat by lia. rewrite seq_app, map_app. cbn [seq map plus]. rewrite N2Nat.id. reflexivity. Qed.
Lemma cnt_run h : forall x, cnt (places (run h w_init)) x = cnt (calls (w_issued (run h w_init))) x.
Proof.
  induction h as [|ev h IH] using rev_ind; intros x; [reflexivity|]. unfold run in *. rewrite fold_left_app. cbn [fold_left].
  rewrite step_count, step_issued, IH. destruct ev; try (rewrite PeanoNat.Nat.add_0_r; reflexivity).
  rewrite calls_succ, cnt_app, cnt_cons. cbn [count_occ]. lia.
Qed.

(* No call is lost or doubled: at any time every call made so far is in exactly one
   place - the request queue, a connection (first request, channel or outstanding), or
   it has its result. *)
Theorem C96_accounted : forall h, Permutation (places (run h w_init)) (calls (w_issued (run h w_init))).
Proof. intros h. apply (Permutation_count_occ N.eq_dec). apply cnt_run. Qed.
Lemma calls_NoDup n : NoDup (calls n).
Proof. unfold calls. apply FinFun.Injective_map_NoDup; [intros a b; apply Nat2N.inj|apply seq_NoDup]. Qed.

(* so a caller gets at most one result, and keeps it *)
Theorem C96_one_result : forall h, NoDup (map fst (w_results (run h w_init))) /\
  forall ev, exists later, w_results (run (h ++ [ev]) w_init) = w_results (run h w_init) ++ later.
Proof.
  intros h. split.
  - assert (P := C96_accounted h). apply Permutation_sym in P. assert (ND := Permutation_NoDup P (calls_NoDup _)). unfold places in ND.
    rewrite app_assoc in ND. apply NoDup_rev in ND. rewrite rev_app_distr in ND. rewrite <- (rev_involutive (map fst _)). apply NoDup_rev.
    clear P. revert ND. generalize (rev (map fst (w_results (run h w_init)))) (rev (w_queue (run h w_init) ++ flat_map held (w_conns (run h w_init)))).
    induction l as [|a l IH]; intros b ND; [constructor|]. cbn in ND. inversion_clear ND as [|? ? N1 N2]. constructor; [|apply (IH b N2)].
    intros I. apply N1, in_or_app. left. exact I.
  - intros ev. unfold run. rewrite fold_left_app. cbn [fold_left]. set (w := fold_left step h w_init).
    assert (A : forall k f, exists later, w_results (at_conn w k f) = w_results w ++ later).
    { intros k f. unfold at_conn. destruct (nth_error _ _) as [c|]; [destruct (f c) as [[c' rs]|]|]; try (exists []; rewrite app_nil_r; reflexivity). exists rs. reflexivity. }
    assert (Z : exists later, w_results w = w_results w ++ later) by (exists []; rewrite app_nil_r; reflexivity).
    destruct ev; cbn [step]; try apply A; try exact Z.
    + destruct (w_starter w) as [[e|]|]; destruct (w_queue w); try exact Z. eexists. reflexivity.
    + destruct (w_starter w) as [[e1|]|]; destruct (w_queue w); try exact Z. eexists. reflexivity.
    + destruct (nth_error _ _) as [c|]; [|exact Z]. destruct (w_queue w); [exact Z|]. destruct (c_fwd c); [destruct (c_task c)|]; try exact Z. eexists. reflexivity.
    + destruct (nth_error _ _) as [c|]; [|exact Z]. destruct (c_close c); try exact Z. destruct (drain _ _). eexists. reflexivity.
Qed.

(* An answer comes from a message of a connection on which the call was sent, with the
   call's id. *)
Definition keyed (w : world) : Prop := forall c i r, In c (w_conns w) -> In (i, r) (c_map c) -> i = wire_id r.
Lemma take_id_sub i x : forall m c r, take_id i m = Some (c, r) -> (In x r -> In x m) /\ In (i, c) m.
Proof.
  induction m as [|[j d] m IH]; intros c r; cbn [take_id]; [discriminate|]. destruct (j =? i) eqn:E.
  - intros H. inversion H; subst. apply N.eqb_eq in E. subst. split; [intros I; right; exact I|left; reflexivity].
  - destruct (take_id i m) as [[d' r']|]; [|discriminate]. intros H. inversion H; subst. destruct (IH _ _ eq_refl) as [I1 I2].
    split; [intros [I|I]; [left; exact I|right; apply I1, I]|right; exact I2].
Qed.
Lemma put_id_sub c m m' rs x : put_id c m = (m', rs) -> In x m' -> x = (wire_id c, c) \/ In x m.
Proof.
  unfold put_id. destruct (take_id _ m) as [[old q]|] eqn:T; intros H; inversion H; subst; intros [I|I]; auto.
  right. apply (take_id_sub _ x _ _ _ T), I.
Qed.
Lemma In_set_nth {A} (x c : A) : forall l k, In x (set_nth k c l) -> x = c \/ In x l.
Proof.
  induction l as [|y l IH]; intros [|k]; cbn [set_nth]; intros I; try (destruct I; fail).
  - destruct I as [<-|I]; [left; reflexivity|right; right; exact I].
  - destruct I as [<-|I]; [right; left; reflexivity|]. destruct (IH k I); [left; assumption|right; right; assumption].
Qed.
Lemma at_conn_keyed w k f : keyed w -> (forall c c' rs, In c (w_conns w) -> f c = Some (c', rs) -> forall i r, In (i, r) (c_map c') -> In (i, r) (c_map c) \/ i = wire_id r) ->
  keyed (at_conn w k f).
Proof.
  intros K H. unfold at_conn. destruct (nth_error (w_conns w) k) as [c|] eqn:NC; [|exact K]. destruct (f c) as [[c' rs]|] eqn:F; [|exact K].
  apply nth_error_In in NC. intros d i r I J. cbn in I. apply In_set_nth in I. destruct I as [->|I]; [|eapply K; eassumption].
  destruct (H c c' rs NC F i r J) as [X|X]; [eapply K; eassumption|exact X].
Qed.
Lemma send_keyed c r o init chan c' rs i q : send c r o init chan = (c', rs) -> In (i, q) (c_map c') -> In (i, q) (c_map c) \/ i = wire_id q.
Proof.
  unfold send. destruct o; [destruct (put_id r (c_map c)) as [m z] eqn:P| |]; intros H I; inversion H; subst; cbn in I; auto.
  destruct (put_id_sub _ _ _ _ _ P I) as [X|X]; [inversion X; auto|auto].
Qed.
Lemma step_keyed w ev : keyed w -> keyed (step w ev).
Proof.
  intros K. destruct ev as [| |e|k|k|k|k o|k o|k|k i v|k|k e|k e|k|k|k]; cbn [step].
  - exact K.
  - destruct (w_starter w) as [[e|]|]; destruct (w_queue w); try exact K. intros c i r I J. cbn in I. apply in_app_or in I. destruct I as [I|[<-|[]]]; [eapply K; eassumption|destruct J].
  - destruct (w_starter w) as [[e1|]|]; destruct (w_queue w); exact K.
  - destruct (nth_error _ _) as [c|] eqn:NC; [|exact K]. apply nth_error_In in NC. destruct (w_queue w); [exact K|]. destruct (c_fwd c); [|exact K].
    destruct (c_task c); intros d i r I J; cbn in I; apply In_set_nth in I; destruct I as [->|I]; cbn in J; (eapply K; [|exact J]; assumption).
  - apply at_conn_keyed; [exact K|]. intros c c' rs _. destruct (_ && _); intros H; inversion H; subst; auto.
  - apply at_conn_keyed; [exact K|]. intros c c' rs _. destruct (c_sock c); try discriminate. destruct (c_task c); intros H; inversion H; subst; auto.
  - apply at_conn_keyed; [exact K|]. intros c c' rs _. destruct (c_task c); try discriminate. destruct (c_init c); intros H; injection H as H; [intros i r; eapply send_keyed, H|inversion H; subst; auto].
  - apply at_conn_keyed; [exact K|]. intros c c' rs _. destruct (c_task c); try discriminate. destruct (c_chan c); [discriminate|]. intros H; injection H as H. intros i r; eapply send_keyed, H.
  - apply at_conn_keyed; [exact K|]. intros c c' rs _. destruct (c_task c); try discriminate. destruct (c_chan c); [|discriminate]. destruct (c_fwd c); intros H; inversion H; subst; auto.
  - apply at_conn_keyed; [exact K|]. intros c c' rs _. destruct (take_id i (c_map c)) as [[r m]|] eqn:T; intros H; inversion H; subst. intros j q I. left. apply (take_id_sub _ (j, q) _ _ _ T), I.
  - apply at_conn_keyed; [exact K|]. intros c c' rs _. destruct (c_init c); intros H; inversion H; subst; auto.
  - apply at_conn_keyed; [exact K|]. intros c c' rs _. destruct (c_onerror c); intros H; inversion H; subst; auto.
  - apply at_conn_keyed; [exact K|]. intros c c' rs _. destruct (c_close c); intros H; inversion H; subst; auto.
  - destruct (nth_error _ _) as [c|] eqn:NC; [|exact K]. destruct (c_close c); try exact K. destruct (drain _ _) as [rs p']. intros d i r I J. cbn in I. apply In_set_nth in I.
    destruct I as [->|I]; [destruct J|eapply K; eassumption].
  - apply at_conn_keyed; [exact K|]. intros c c' rs _. destruct (c_task c); try discriminate. destruct (c_fwd c); intros H; inversion H; subst; auto.
  - apply at_conn_keyed; [exact K|]. intros c c' rs _. destruct (c_close c); try discriminate. destruct (c_fwd c); try discriminate. destruct (c_task c); intros H; inversion H; subst; cbn; intros ? ? [].
Qed.
Lemma run_keyed h : keyed (run h w_init).
Proof. induction h as [|ev h IH] using rev_ind; [intros c i r []|]. unfold run in *. rewrite fold_left_app. apply step_keyed, IH. Qed.
Definition not_answer (x : call * result) : Prop := match snd x with Answer _ => False | _ => True end.
Lemma at_conn_results w k f r v : (forall c c' rs, f c = Some (c', rs) -> Forall not_answer rs) -> In (r, Answer v) (w_results (at_conn w k f)) -> In (r, Answer v) (w_results w).
Proof.
  intros H. unfold at_conn. destruct (nth_error _ _) as [c|]; [destruct (f c) as [[c' rs]|] eqn:F|]; auto. cbn. intros I. apply in_app_or in I. destruct I as [I|I]; [exact I|].
  apply H in F. rewrite Forall_forall in F. apply F in I. destruct I.
Qed.
Lemma send_not_answer c r o init chan c' rs : send c r o init chan = (c', rs) -> Forall not_answer rs.
Proof.
  unfold send, put_id. destruct o; [destruct (take_id _ _) as [[old q]|]| |]; intros H; inversion H; subst; repeat constructor.
Qed.
Lemma fail_not_answer c e : Forall not_answer (fail_init c e).
Proof. unfold fail_init. destruct (c_init c); repeat constructor. Qed.
Lemma step_answer w ev r v : In (r, Answer v) (w_results (step w ev)) -> In (r, Answer v) (w_results w) \/
  exists k i c, ev = Message k i v /\ nth_error (w_conns w) k = Some c /\ In (i, r) (c_map c).
Proof.
  destruct ev as [| |e|k|k|k|k o|k o|k|k i v'|k|k e|k e|k|k|k]; cbn [step].
  - auto.
  - destruct (w_starter w) as [[e|]|]; destruct (w_queue w); cbn; auto. rewrite in_app_iff. cbn. intros [I|[I|[]]]; [auto|discriminate I].
  - destruct (w_starter w) as [[e1|]|]; destruct (w_queue w); cbn; auto. rewrite in_app_iff. cbn. intros [I|[I|[]]]; [auto|discriminate I].
  - destruct (nth_error _ _) as [c|]; [|auto]. destruct (w_queue w); [auto|]. destruct (c_fwd c); [|auto]. destruct (c_task c); cbn; auto.
    rewrite in_app_iff. cbn. intros [I|[I|[]]]; [auto|discriminate I].
  - intros I. left. revert I. apply at_conn_results. intros c c' rs. destruct (_ && _); intros H; inversion H; subst; constructor.
  - intros I. left. revert I. apply at_conn_results. intros c c' rs. destruct (c_sock c); try discriminate. destruct (c_task c); intros H; inversion H; subst; constructor.
  - intros I. left. revert I. apply at_conn_results. intros c c' rs. destruct (c_task c); try discriminate. destruct (c_init c); intros H; injection H as H; [eapply send_not_answer, H|subst; constructor].
  - intros I. left. revert I. apply at_conn_results. intros c c' rs. destruct (c_task c); try discriminate. destruct (c_chan c); [discriminate|]. intros H; injection H as H. eapply send_not_answer, H.
  - intros I. left. revert I. apply at_conn_results. intros c c' rs. destruct (c_task c); try discriminate. destruct (c_chan c); [|discriminate]. destruct (c_fwd c); intros H; inversion H; subst; constructor.
  - unfold at_conn. destruct (nth_error (w_conns w) k) as [c|] eqn:NC; [|auto]. destruct (take_id i (c_map c)) as [[r' m]|] eqn:T; [|auto]. cbn. rewrite in_app_iff. cbn.
    intros [I|[I|[]]]; [auto|]. inversion I; subst. right. exists k, i, c. split; [reflexivity|]. split; [exact NC|]. apply (take_id_sub _ (i, r) _ _ _ T).
  - intros I. left. revert I. apply at_conn_results. intros c c' rs. destruct (c_init c); intros H; inversion H; subst. apply fail_not_answer.
  - intros I. left. revert I. apply at_conn_results. intros c c' rs. destruct (c_onerror c); intros H; inversion H; subst. apply fail_not_answer.
  - intros I. left. revert I. apply at_conn_results. intros c c' rs. destruct (c_close c); intros H; inversion H; subst. apply fail_not_answer.
  - destruct (nth_error _ _) as [c|]; [|auto]. destruct (c_close c); auto. destruct (drain p (c_map c)) as [rs p'] eqn:D. cbn. rewrite in_app_iff. intros [I|I]; [auto|exfalso].
    unfold drain in D. destruct (c_map c) as [|[j d] m]; inversion D; subst; [destruct I|]. destruct I as [I|I]; [discriminate I|]. apply in_map_iff in I. destruct I as (y & Y & _). discriminate Y.
  - intros I. left. revert I. apply at_conn_results. intros c c' rs. destruct (c_task c); try discriminate. destruct (c_fwd c); intros H; inversion H; subst.
    apply Forall_forall. intros y Y. apply in_map_iff in Y. destruct Y as (z & <- & _). exact Logic.I.
  - intros I. left. revert I. apply at_conn_results. intros c c' rs. destruct (c_close c); try discriminate. destruct (c_fwd c); try discriminate.
    destruct (c_task c); intros H; inversion H; subst; apply Forall_forall; intros y Y; apply in_app_or in Y; destruct Y as [Y|Y]; apply in_map_iff in Y; destruct Y as (z & <- & _); exact Logic.I.
Qed.
Theorem C96_answer_origin : forall h r v, In (r, Answer v) (w_results (run h w_init)) ->
  exists h1 k i c h2, h = h1 ++ Message k i v :: h2 /\ nth_error (w_conns (run h1 w_init)) k = Some c /\ In (i, r) (c_map c) /\ i = wire_id r.
Proof.
  induction h as [|ev h IH] using rev_ind; intros r v I; [destruct I|]. unfold run in *. rewrite fold_left_app in I. cbn [fold_left] in I.
  apply step_answer in I. destruct I as [I|(k & i & c & -> & NC & I)].
  - destruct (IH r v I) as (h1 & k & i & c & h2 & -> & X). exists h1, k, i, c, (h2 ++ [ev]). rewrite <- app_assoc. split; [reflexivity|exact X].
  - exists h, k, i, c, []. split; [reflexivity|]. split; [exact NC|]. split; [exact I|]. eapply (run_keyed h); [eapply nth_error_In, NC|exact I].
Qed.

(* One starter or one connection that has not been replaced, never both, never none:
   there is always something that takes care of further calls. *)
Definition live (c : conn) : bool := match c_close c with CDone => false | _ => true end.
Definition actors (w : world) : nat := ((match w_starter w with Some _ => 1 | None => 0 end) + length (filter live (w_conns w)))%nat.
Lemma set_nth_live : forall l k (old c : conn), nth_error l k = Some old ->
  ((if live old then 1 else 0) + length (filter live (set_nth k c l)) = (if live c then 1 else 0) + length (filter live l))%nat.
Proof.
  induction l as [|y l IH]; intros [|k] old c H; try discriminate H; cbn [nth_error set_nth filter] in *.
  - inversion H; subst. destruct (live old), (live c); cbn [length]; lia.
  - specialize (IH k old c H). destruct (live y); cbn [length]; lia.
Qed.
Lemma at_conn_actors w k f : (forall c c' rs, f c = Some (c', rs) -> live c' = live c) -> actors (at_conn w k f) = actors w.
Proof.
  intros H. unfold at_conn. destruct (nth_error (w_conns w) k) as [c|] eqn:NC; [|reflexivity]. destruct (f c) as [[c' rs]|] eqn:F; [|reflexivity].
  unfold actors. cbn [w_starter w_conns]. assert (X := set_nth_live _ _ _ c' NC). rewrite (H _ _ _ F) in X. lia.
Qed.
Lemma send_live c r o init chan c' rs : send c r o init chan = (c', rs) -> live c' = live c.
Proof. unfold send. destruct o; [destruct (put_id _ _)| |]; intros H; inversion H; reflexivity. Qed.
Theorem C96_one_actor : forall h, actors (run h w_init) = 1%nat.
Proof.
  induction h as [|ev h IH] using rev_ind; [reflexivity|]. unfold run in *. rewrite fold_left_app. cbn [fold_left]. revert IH. generalize (fold_left step h w_init). intros w IH.
  destruct ev as [| |e|k|k|k|k o|k o|k|k i v|k|k e|k e|k|k|k]; cbn [step].
  - exact IH.
  - unfold actors in *. destruct (w_starter w) as [[e|]|] eqn:S1; destruct (w_queue w); cbn [w_starter w_conns] in *; rewrite ?S1; try exact IH.
    rewrite filter_app, app_length. cbn [filter live c_close length]. lia.
  - unfold actors in *. destruct (w_starter w) as [[e1|]|] eqn:S1; destruct (w_queue w); cbn [w_starter w_conns] in *; rewrite ?S1; exact IH.
  - destruct (nth_error _ _) as [c|] eqn:NC; [|exact IH]. destruct (w_queue w); [exact IH|]. destruct (c_fwd c); [|exact IH].
    destruct (c_task c); unfold actors in *; cbn [w_starter w_conns];
      match goal with |- context [set_nth k ?d _] => assert (X := set_nth_live _ _ _ d NC) end; unfold live in X at 1 3; cbn [c_close] in X; lia.
  - rewrite at_conn_actors; [exact IH|]. intros c c' rs. destruct (_ && _); intros H; inversion H; reflexivity.
  - rewrite at_conn_actors; [exact IH|]. intros c c' rs. destruct (c_sock c); try discriminate. destruct (c_task c); intros H; inversion H; reflexivity.
  - rewrite at_conn_actors; [exact IH|]. intros c c' rs. destruct (c_task c); try discriminate. destruct (c_init c); intros H; injection H as H; [eapply send_live, H|subst; reflexivity].
  - rewrite at_conn_actors; [exact IH|]. intros c c' rs. destruct (c_task c); try discriminate. destruct (c_chan c); [discriminate|]. intros H; injection H as H. eapply send_live, H.
  - rewrite at_conn_actors; [exact IH|]. intros c c' rs. destruct (c_task c); try discriminate. destruct (c_chan c); [|discriminate]. destruct (c_fwd c); intros H; inversion H; reflexivity.
  - rewrite at_conn_actors; [exact IH|]. intros c c' rs. destruct (take_id i (c_map c)) as [[r m]|]; intros H; inversion H; reflexivity.
  - rewrite at_conn_actors; [exact IH|]. intros c c' rs. destruct (c_init c); intros H; inversion H; reflexivity.
  - rewrite at_conn_actors; [exact IH|]. intros c c' rs. destruct (c_onerror c); intros H; inversion H; reflexivity.
  - rewrite at_conn_actors; [exact IH|]. intros c c' rs. unfold live. destruct (c_close c); intros H; inversion H; reflexivity.
  - destruct (nth_error _ _) as [c|] eqn:NC; [|exact IH]. destruct (c_close c) as [|p|] eqn:CC; try exact IH. destruct (drain _ _) as [rs p'].
    unfold actors in *. cbn [w_starter w_conns].
    match goal with |- context [set_nth k ?d _] => assert (X := set_nth_live _ _ _ d NC) end. unfold live in X at 1 3. cbn [c_close] in X. rewrite CC in X.
    destruct (w_starter w); lia.
  - rewrite at_conn_actors; [exact IH|]. intros c c' rs. destruct (c_task c); try discriminate. destruct (c_fwd c); intros H; inversion H; reflexivity.
  - rewrite at_conn_actors; [exact IH|]. intros c c' rs. unfold live. destruct (c_close c); try discriminate. destruct (c_fwd c); try discriminate. destruct (c_task c); intros H; inversion H; reflexivity.
Qed.

(* The calls that are handed to the socket, in order. *)
Definition sent_by (w : world) (ev : event) : list call :=
  match ev with
  | First k SOk => match nth_error (w_conns w) k with
                   | Some c => match c_task c, c_init c with TFirst, Some r => [r] | _, _ => [] end
                   | None => []
                   end
  | Next k SOk => match nth_error (w_conns w) k with
                  | Some c => match c_task c, c_chan c with TLoop, r :: _ => [r] | _, _ => [] end
                  | None => []
                  end
  | _ => []
  end.
Fixpoint sent (h : list event) (w : world) : list call :=
  match h with [] => [] | ev :: r => sent_by w ev ++ sent r (step w ev) end.
Definition waiting (c : conn) : list call := match c_init c with Some r => [r] | None => [] end ++ c_chan c.
Definition unsent (w : world) : list call := w_queue w ++ flat_map waiting (w_conns w).
Lemma at_conn_unsent w k f x n : (forall c c' rs, nth_error (w_conns w) k = Some c -> f c = Some (c', rs) -> (cnt (waiting c') x + n <= cnt (waiting c) x)%nat) ->
  (forall c, nth_error (w_conns w) k = Some c -> f c = None -> n = O) -> (nth_error (w_conns w) k = None -> n = O) ->
  (cnt (unsent (at_conn w k f)) x + n <= cnt (unsent w) x)%nat.
Proof.
  intros H Z0 Z1. unfold at_conn. destruct (nth_error (w_conns w) k) as [c|] eqn:NC; [|rewrite (Z1 eq_refl); lia].
  destruct (f c) as [[c' rs]|] eqn:F; [|rewrite (Z0 c eq_refl F); lia]. specialize (H c c' rs eq_refl F).
  unfold unsent. cbn [w_queue w_conns]. rewrite !cnt_app. assert (S1 := set_nth_count waiting x _ _ _ c' NC). lia.
Qed.
Lemma send_unsent x c r o init chan c' rs : send c r o init chan = (c', rs) ->
  cnt (waiting c') x = (cnt (match init with Some q => [q] | None => [] end) x + cnt chan x)%nat.
Proof. unfold send. destruct o; [destruct (put_id _ _)| |]; intros H; inversion H; subst; unfold waiting; cbn [c_init c_chan]; apply cnt_app. Qed.
Lemma at_conn_unsent0 w k f x : (forall c c' rs, nth_error (w_conns w) k = Some c -> f c = Some (c', rs) -> (cnt (waiting c') x <= cnt (waiting c) x)%nat) ->
  (cnt (unsent (at_conn w k f)) x + 0 <= cnt (unsent w) x)%nat.
Proof. intros H. apply at_conn_unsent; auto. intros c c' rs NC F. rewrite PeanoNat.Nat.add_0_r. eapply H; eassumption. Qed.
Lemma step_unsent w ev x : (cnt (unsent (step w ev)) x + cnt (sent_by w ev) x <=
  cnt (unsent w) x + match ev with Call => if N.eq_dec (w_issued w) x then 1 else 0 | _ => 0 end)%nat.
Proof.
  destruct ev as [| |e|k|k|k|k o|k o|k|k i v|k|k e|k e|k|k|k]; cbn [step sent_by count_occ]; try rewrite (PeanoNat.Nat.add_0_r (cnt (unsent w) x)).
  - unfold unsent. cbn [w_queue w_conns]. rewrite !cnt_app, cnt_cons. cbn [count_occ]. lia.
  - destruct (w_starter w) as [[e|]|]; destruct (w_queue w) as [|r q] eqn:Q; try lia; unfold unsent; cbn [w_queue w_conns]; rewrite Q.
    + rewrite !cnt_app, !cnt_cons. lia.
    + rewrite flat_map_app. cbn [flat_map]. unfold waiting at 2. cbn [c_init c_chan]. rewrite ?app_nil_r, !cnt_app, !cnt_cons. cbn [count_occ]. lia.
  - destruct (w_starter w) as [[e1|]|]; destruct (w_queue w) as [|r q] eqn:Q; try lia; unfold unsent; cbn [w_queue w_conns]; rewrite Q.
    rewrite !cnt_app, !cnt_cons. lia.
  - destruct (nth_error (w_conns w) k) as [c|] eqn:NC; [|lia]. destruct (w_queue w) as [|r q] eqn:Q; [lia|]. destruct (c_fwd c); [|lia].
    destruct (c_task c); unfold unsent; cbn [w_queue w_conns]; rewrite Q;
      match goal with |- context [set_nth k ?d _] => assert (S1 := set_nth_count waiting x _ _ _ d NC); unfold waiting at 2 4 in S1 end;
      cbn [c_init c_chan] in S1; rewrite !cnt_app in *; cbn [app] in *; rewrite !cnt_cons in *; cbn [count_occ] in *; lia.
  - apply at_conn_unsent0. intros c c' rs _. destruct (c_fwd c && c_shut c); intros H; inversion H; subst. apply PeanoNat.Nat.le_refl.
  - apply at_conn_unsent0. intros c c' rs _. destruct (c_sock c); try discriminate. destruct (c_task c); intros H; inversion H; subst. apply PeanoNat.Nat.le_refl.
  - apply at_conn_unsent.
    + intros c c' rs NC. rewrite NC. destruct (c_task c); try discriminate. destruct (c_init c) as [r|] eqn:EI.
      * intros H. injection H as H. assert (X := send_unsent x _ _ _ _ _ _ _ H). unfold waiting at 2. rewrite EI, cnt_app, cnt_cons. cbn [count_occ] in *.
        destruct o; rewrite ?cnt_cons; cbn [count_occ]; lia.
      * intros H. injection H as <- <-. unfold waiting. rewrite EI. cbn [c_init c_chan]. destruct o; cbn [count_occ]; lia.
    + intros c NC. rewrite NC. destruct (c_task c); try discriminate; destruct o; try reflexivity. destruct (c_init c); discriminate.
    + intros NC. rewrite NC. destruct o; reflexivity.
  - apply at_conn_unsent.
    + intros c c' rs NC. rewrite NC. destruct (c_task c); try discriminate. destruct (c_chan c) as [|r q] eqn:EC; [discriminate|].
      intros H. injection H as H. assert (X := send_unsent x _ _ _ _ _ _ _ H). unfold waiting at 2. rewrite EC, cnt_app, cnt_cons.
      destruct o; rewrite ?cnt_cons; cbn [count_occ]; lia.
    + intros c NC. rewrite NC. destruct (c_task c); try discriminate; destruct o; try reflexivity. destruct (c_chan c); [reflexivity|discriminate].
    + intros NC. rewrite NC. destruct o; reflexivity.
  - apply at_conn_unsent0. intros c c' rs _. destruct (c_task c); try discriminate. destruct (c_chan c) as [|r q] eqn:EC; [|discriminate].
    destruct (c_fwd c); intros H; inversion H; subst. unfold waiting. rewrite EC. apply PeanoNat.Nat.le_refl.
  - apply at_conn_unsent0. intros c c' rs _. destruct (take_id i (c_map c)) as [[r m]|]; intros H; inversion H; subst. apply PeanoNat.Nat.le_refl.
  - apply at_conn_unsent0. intros c c' rs _. destruct (c_init c) as [r|] eqn:EI; intros H; inversion H; subst. unfold waiting. cbn [c_init c_chan]. rewrite !cnt_app. cbn [count_occ]. lia.
  - apply at_conn_unsent0. intros c c' rs _. destruct (c_onerror c); intros H; inversion H; subst. unfold waiting. cbn [c_init c_chan]. rewrite !cnt_app. cbn [count_occ]. lia.
  - apply at_conn_unsent0. intros c c' rs _. destruct (c_close c); intros H; inversion H; subst. unfold waiting. cbn [c_init c_chan]. rewrite !cnt_app. cbn [count_occ]. lia.
  - destruct (nth_error (w_conns w) k) as [c|] eqn:NC; [|lia]. destruct (c_close c); try lia. destruct (drain p (c_map c)) as [rs p'].
    unfold unsent. cbn [w_queue w_conns].
    match goal with |- context [set_nth k ?d _] => assert (S1 := set_nth_count waiting x _ _ _ d NC); unfold waiting at 2 4 in S1 end.
    cbn [c_init c_chan] in S1. rewrite !cnt_app in *. lia.
  - apply at_conn_unsent0. intros c c' rs _. destruct (c_task c); try discriminate. destruct (c_fwd c); intros H; inversion H; subst. unfold waiting. cbn [c_init c_chan]. rewrite !cnt_app. cbn [count_occ]. lia.
  - apply at_conn_unsent0. intros c c' rs _. destruct (c_close c); try discriminate. destruct (c_fwd c); try discriminate.
    destruct (c_task c); intros H; inversion H; subst; unfold waiting; cbn [c_init c_chan]; rewrite !cnt_app; cbn [count_occ]; lia.
Qed.
Lemma sent_app h1 : forall h2 w, sent (h1 ++ h2) w = sent h1 w ++ sent h2 (run h1 w).
Proof. induction h1 as [|ev h1 IH]; intros h2 w; [reflexivity|]. cbn [app sent]. rewrite IH, <- app_assoc. reflexivity. Qed.
Lemma sent_count h x : (cnt (unsent (run h w_init)) x + cnt (sent h w_init) x <= cnt (calls (w_issued (run h w_init))) x)%nat.
Proof.
  induction h as [|ev h IH] using rev_ind; [apply PeanoNat.Nat.le_refl|]. rewrite sent_app, cnt_app. cbn [sent]. rewrite app_nil_r.
  unfold run in *. rewrite fold_left_app. cbn [fold_left]. assert (X := step_unsent (fold_left step h w_init) ev x). rewrite step_issued.
  destruct ev; try lia. rewrite calls_succ, cnt_app, cnt_cons. cbn [count_occ]. lia.
Qed.
(* Every call is handed to a socket at most once, whatever fails and however often the
   client reconnects. *)
Theorem C96_sent_once : forall h, NoDup (sent h w_init).
Proof.
  intros h. apply (NoDup_count_occ N.eq_dec). intros x. assert (X := sent_count h x).
  assert (Y := proj1 (NoDup_count_occ N.eq_dec (calls (w_issued (run h w_init)))) (calls_NoDup _) x). lia.
Qed.

(* A request that was taken over by a connection that never opens is stuck: whatever
   happens afterwards, its caller gets no result from the client - except that the
   browser may collect the closures, which drops the result channel. *)
Definition collects (ev : event) : bool := match ev with Collect _ => true | _ => false end.
Lemma nth_set_same {A} (x : A) : forall l k old, nth_error l k = Some old -> nth_error (set_nth k x l) k = Some x.
Proof. induction l as [|y l IH]; intros [|k] old H; try discriminate H; cbn [set_nth nth_error] in *; [reflexivity|eapply IH, H]. Qed.
Lemma nth_set_other {A} (x : A) : forall l k j, k <> j -> nth_error (set_nth k x l) j = nth_error l j.
Proof.
  induction l as [|y l IH]; intros [|k] [|j] D; try reflexivity; [destruct D; reflexivity|]. cbn [set_nth nth_error]. apply IH. intros ->. apply D. reflexivity.
Qed.
Definition stuck (r : call) (c : conn) : Prop := c_sock c = Closed /\ c_task c = TWait /\ In r (c_chan c).
Lemma at_conn_stuck w k f r j c : nth_error (w_conns w) j = Some c -> stuck r c ->
  (forall c c' rs, stuck r c -> f c = Some (c', rs) -> stuck r c') -> exists c', nth_error (w_conns (at_conn w k f)) j = Some c' /\ stuck r c'.
Proof.
  intros NJ SJ H. unfold at_conn. destruct (nth_error (w_conns w) k) as [d|] eqn:NC; [|exists c; auto].
  destruct (f d) as [[d' rs]|] eqn:F; [|exists c; auto]. cbn [w_conns]. destruct (PeanoNat.Nat.eq_dec k j) as [->|D].
  - exists d'. split; [eapply nth_set_same, NC|]. rewrite NC in NJ. inversion NJ; subst. eapply H; eassumption.
  - exists c. rewrite nth_set_other by exact D. auto.
Qed.
Lemma step_stuck w ev r j c : nth_error (w_conns w) j = Some c -> stuck r c -> collects ev = false ->
  exists c', nth_error (w_conns (step w ev)) j = Some c' /\ stuck r c'.
Proof.
  intros NJ SJ NCo. destruct ev as [| |e|k|k|k|k o|k o|k|k i v|k|k e|k e|k|k|k]; cbn [step]; try discriminate NCo.
  - exists c. auto.
  - destruct (w_starter w) as [[e|]|]; destruct (w_queue w) as [|q0 q]; exists c; auto. split; [|exact SJ]. cbn [w_conns].
    rewrite nth_error_app1; [exact NJ|]. apply nth_error_Some. rewrite NJ. discriminate.
  - destruct (w_starter w) as [[e1|]|]; destruct (w_queue w) as [|q0 q]; exists c; auto.
  - destruct (nth_error (w_conns w) k) as [d|] eqn:NC; [|exists c; auto]. destruct (w_queue w) as [|q0 q]; [exists c; auto|]. destruct (c_fwd d); [|exists c; auto].
    destruct (PeanoNat.Nat.eq_dec k j) as [->|D].
    + rewrite NC in NJ. inversion NJ; subst. destruct SJ as (S1 & S2 & S3). rewrite S2. cbn [w_conns]. eexists. split; [eapply nth_set_same, NC|].
      repeat split; cbn; auto. apply in_or_app. left. exact S3.
    + exists c. split; [|exact SJ]. destruct (c_task d); cbn [w_conns]; rewrite nth_set_other by exact D; exact NJ.
  - eapply at_conn_stuck; [exact NJ|exact SJ|]. intros d d' rs (S1 & S2 & S3). destruct (_ && _); intros H; inversion H; subst. repeat split; assumption.
  - eapply at_conn_stuck; [exact NJ|exact SJ|]. intros d d' rs (S1 & S2 & S3). rewrite S1. discriminate.
  - eapply at_conn_stuck; [exact NJ|exact SJ|]. intros d d' rs (S1 & S2 & S3). rewrite S2. discriminate.
  - eapply at_conn_stuck; [exact NJ|exact SJ|]. intros d d' rs (S1 & S2 & S3). rewrite S2. discriminate.
  - eapply at_conn_stuck; [exact NJ|exact SJ|]. intros d d' rs (S1 & S2 & S3). rewrite S2. discriminate.
  - eapply at_conn_stuck; [exact NJ|exact SJ|]. intros d d' rs (S1 & S2 & S3). destruct (take_id i (c_map d)) as [[z m]|]; intros H; inversion H; subst. repeat split; assumption.
  - eapply at_conn_stuck; [exact NJ|exact SJ|]. intros d d' rs (S1 & S2 & S3). destruct (c_init d); intros H; inversion H; subst. repeat split; assumption.
  - eapply at_conn_stuck; [exact NJ|exact SJ|]. intros d d' rs (S1 & S2 & S3). destruct (c_onerror d); intros H; inversion H; subst. repeat split; assumption.
  - eapply at_conn_stuck; [exact NJ|exact SJ|]. intros d d' rs (S1 & S2 & S3). destruct (c_close d); intros H; inversion H; subst. repeat split; assumption.
  - destruct (nth_error (w_conns w) k) as [d|] eqn:NC; [|exists c; auto]. destruct (c_close d); try (exists c; auto; fail). destruct (drain _ _) as [rs p']. cbn [w_conns].
    destruct (PeanoNat.Nat.eq_dec k j) as [->|D].
    + rewrite NC in NJ. inversion NJ; subst. eexists. split; [eapply nth_set_same, NC|]. destruct SJ as (S1 & S2 & S3). repeat split; assumption.
    + exists c. rewrite nth_set_other by exact D. auto.
  - eapply at_conn_stuck; [exact NJ|exact SJ|]. intros d d' rs (S1 & S2 & S3). rewrite S2. discriminate.
Qed.
Lemma held_no_result h j c r : nth_error (w_conns (run h w_init)) j = Some c -> In r (held c) -> forall o, ~ In (r, o) (w_results (run h w_init)).
Proof.
  intros NJ I o J. apply nth_error_In in NJ. assert (X := cnt_run h r).
  assert (Y := proj1 (NoDup_count_occ N.eq_dec (calls (w_issued (run h w_init)))) (calls_NoDup _) r).
  unfold places in X. rewrite !cnt_app in X.
  assert (A : In r (flat_map held (w_conns (run h w_init)))) by (apply in_flat_map; exists c; auto).
  apply (count_occ_In N.eq_dec) in A. apply (in_map fst) in J. cbn [fst] in J. apply (count_occ_In N.eq_dec) in J. lia.
Qed.
Theorem C96_stuck_in_connecting : forall h k c r, nth_error (w_conns (run h w_init)) k = Some c -> c_sock c = Closed -> c_task c = TWait -> In r (c_chan c) ->
  forall later, forallb (fun ev => negb (collects ev)) later = true -> forall o, ~ In (r, o) (w_results (run (h ++ later) w_init)).
Proof.
  intros h k c r NK S1 S2 S3 later L o.
  assert (G : exists c', nth_error (w_conns (run (h ++ later) w_init)) k = Some c' /\ stuck r c').
  { revert L. induction later as [|ev later IH] using rev_ind; intros L.
    - rewrite app_nil_r. exists c. split; [exact NK|]. repeat split; assumption.
    - rewrite forallb_app in L. apply andb_prop in L. destruct L as [L1 L2]. destruct (IH L1) as (c' & N1 & SS). rewrite app_assoc. unfold run in *. rewrite fold_left_app.
      cbn [fold_left forallb] in *. rewrite andb_true_r in L2. apply negb_true_iff in L2. eapply step_stuck; eassumption. }
  destruct G as (c' & N1 & (_ & _ & I)). apply (held_no_result _ _ _ _ N1). unfold held. apply in_or_app. right. apply in_or_app. left. exact I.
Qed.
(* A first call starts a connection, a second one is handed to it, the connection times
   out: the first caller gets the timeout, the second nothing, although the client goes
   on and answers a third. *)
Definition ex_hang : list event := [Call; Start; Call; Forward 0; Timeout 0; Stop 0; Close 0 7; Drain 0].
Example C96_stuck_example :
  (exists c, nth_error (w_conns (run ex_hang w_init)) 0 = Some c /\ stuck 1 c) /\
  w_results (run (ex_hang ++ [Call; Start; Call; Start; Opened 1; First 1 SOk; Message 1 3 42]) w_init) =
    [(0, Failed connect_timeout); (2, Failed 7); (3, Answer 42)].
Proof. split; [eexists; split; [vm_compute; reflexivity|repeat split; left; reflexivity]|vm_compute; reflexivity]. Qed.
Theorem C96_always_answered_refuted : exists h r, r < w_issued (run h w_init) /\
  forall later, forallb (fun ev => negb (collects ev)) later = true -> forall o, ~ In (r, o) (w_results (run (h ++ later) w_init)).
Proof.
  exists ex_hang, 1. split; [reflexivity|]. destruct C96_stuck_example as [(c & NC & S1 & S2 & S3) _]. exact (C96_stuck_in_connecting _ _ _ _ NC S1 S2 S3).
Qed.

(* These are the only places: when the connections are over and the queue is empty,
   every call has its result or is in the channel or among the outstanding requests of
   a connection that is over, and collecting the connections gives it one. *)
Definition over (w : world) : Prop := w_queue w = [] /\ forall c, In c (w_conns w) -> c_close c = CDone /\ c_fwd c = false /\ (c_task c = TWait \/ c_task c = TDone).
Definition closed_empty (w : world) : Prop := forall c, In c (w_conns w) -> c_close c <> CNo -> c_init c = None.
Lemma at_conn_closed w k f : closed_empty w -> (forall c c' rs, In c (w_conns w) -> f c = Some (c', rs) -> c_close c' <> CNo -> c_init c' = None) -> closed_empty (at_conn w k f).
Proof.
  intros K H. unfold at_conn. destruct (nth_error (w_conns w) k) as [c|] eqn:NC; [|exact K]. destruct (f c) as [[c' rs]|] eqn:F; [|exact K].
  apply nth_error_In in NC. intros d I. cbn in I. apply In_set_nth in I. destruct I as [->|I]; [eapply H; eassumption|exact (K d I)].
Qed.
Lemma send_closed c r o init chan c' rs : send c r o init chan = (c', rs) -> c_init c' = init /\ c_close c' = c_close c.
Proof. unfold send. destruct o; [destruct (put_id _ _)| |]; intros H; inversion H; split; reflexivity. Qed.
Lemma step_closed w ev : closed_empty w -> closed_empty (step w ev).
Proof.
  intros K. destruct ev as [| |e|k|k|k|k o|k o|k|k i v|k|k e|k e|k|k|k]; cbn [step].
  - exact K.
  - destruct (w_starter w) as [[e|]|]; destruct (w_queue w); try exact K. intros c I. cbn in I. apply in_app_or in I. destruct I as [I|[<-|[]]]; [exact (K c I)|]. intros X. destruct X. reflexivity.
  - destruct (w_starter w) as [[e1|]|]; destruct (w_queue w); exact K.
  - destruct (nth_error _ _) as [c|] eqn:NC; [|exact K]. apply nth_error_In in NC. destruct (w_queue w); [exact K|]. destruct (c_fwd c); [|exact K].
    destruct (c_task c); intros d I; cbn in I; apply In_set_nth in I; (destruct I as [->|I]; [exact (K c NC)|exact (K d I)]).
  - apply at_conn_closed; [exact K|]. intros c c' rs I. destruct (_ && _); intros H; inversion H; subst. exact (K c I).
  - apply at_conn_closed; [exact K|]. intros c c' rs I. destruct (c_sock c); try discriminate. destruct (c_task c); intros H; inversion H; subst. exact (K c I).
  - apply at_conn_closed; [exact K|]. intros c c' rs I. destruct (c_task c); try discriminate. destruct (c_init c); intros H; injection H as H; [|subst; reflexivity].
    destruct (send_closed _ _ _ _ _ _ _ H) as [-> _]. reflexivity.
  - apply at_conn_closed; [exact K|]. intros c c' rs I. destruct (c_task c); try discriminate. destruct (c_chan c); [discriminate|]. intros H; injection H as H.
    destruct (send_closed _ _ _ _ _ _ _ H) as [-> ->]. exact (K c I).
  - apply at_conn_closed; [exact K|]. intros c c' rs I. destruct (c_task c); try discriminate. destruct (c_chan c); [|discriminate]. destruct (c_fwd c); intros H; inversion H; subst. exact (K c I).
  - apply at_conn_closed; [exact K|]. intros c c' rs I. destruct (take_id i (c_map c)) as [[r m]|]; intros H; inversion H; subst. exact (K c I).
  - apply at_conn_closed; [exact K|]. intros c c' rs I. destruct (c_init c); intros H; inversion H; subst. reflexivity.
  - apply at_conn_closed; [exact K|]. intros c c' rs I. destruct (c_onerror c); intros H; inversion H; subst. reflexivity.
  - apply at_conn_closed; [exact K|]. intros c c' rs I. destruct (c_close c); intros H; inversion H; subst. reflexivity.
  - destruct (nth_error _ _) as [c|] eqn:NC; [|exact K]. apply nth_error_In in NC. destruct (c_close c) as [|p|] eqn:CC; try exact K. destruct (drain _ _) as [rs p']. intros d I. cbn in I. apply In_set_nth in I.
    destruct I as [->|I]; [|exact (K d I)]. intros _. cbn [c_init]. apply (K c NC). rewrite CC. discriminate.
  - apply at_conn_closed; [exact K|]. intros c c' rs I. destruct (c_task c); try discriminate. destruct (c_fwd c); intros H; inversion H; subst. exact (K c I).
  - apply at_conn_closed; [exact K|]. intros c c' rs I. destruct (c_close c) eqn:CC; try discriminate. destruct (c_fwd c); try discriminate.
    destruct (c_task c); intros H; inversion H; subst; intros _; cbn [c_init]; apply (K c I); rewrite CC; discriminate.
Qed.
Lemma run_closed h : closed_empty (run h w_init).
Proof. induction h as [|ev h IH] using rev_ind; [intros c []|]. unfold run in *. rewrite fold_left_app. apply step_closed, IH. Qed.
Lemma placed h r : r < w_issued (run h w_init) -> In r (places (run h w_init)).
Proof.
  intros L. apply (Permutation_in _ (Permutation_sym (C96_accounted h))). unfold calls. apply in_map_iff. exists (N.to_nat r). split; [apply N2Nat.id|apply in_seq; lia].
Qed.
Theorem C96_rest : forall h r, over (run h w_init) -> r < w_issued (run h w_init) ->
  (exists o, In (r, o) (w_results (run h w_init))) \/
  exists c, In c (w_conns (run h w_init)) /\ (In r (c_chan c) \/ exists i, In (i, r) (c_map c)).
Proof.
  intros h r [Q O] L. assert (P := placed h r L). unfold places in P. rewrite Q in P. cbn [app] in P. apply in_app_or in P. destruct P as [P|P].
  - right. apply in_flat_map in P. destruct P as (c & I & P). exists c. split; [exact I|]. unfold held in P. rewrite (run_closed h c I) in P; [|destruct (O c I) as (-> & _); discriminate].
    cbn [app] in P. apply in_app_or in P. destruct P as [P|P]; [left; exact P|right]. apply in_map_iff in P. destruct P as ([i z] & <- & P). exists i. exact P.
  - left. apply in_map_iff in P. destruct P as ([z o] & <- & P). exists o. exact P.
Qed.
Lemma collect_all n : forall w, (n <= length (w_conns w))%nat -> (forall k c, (k < n)%nat -> nth_error (w_conns w) k = Some c -> c_close c = CDone /\ c_fwd c = false /\ (c_task c = TWait \/ c_task c = TDone)) ->
  let w' := run (map Collect (seq 0 n)) w in
  w_queue w' = w_queue w /\ length (w_conns w') = length (w_conns w) /\ w_issued w' = w_issued w /\
  (forall k c, (k < n)%nat -> nth_error (w_conns w') k = Some c -> c_chan c = [] /\ c_map c = []) /\ (forall k, (n <= k)%nat -> nth_error (w_conns w') k = nth_error (w_conns w) k).
Proof.
  induction n as [|n IH]; intros w L H; cbv zeta.
  - cbn. repeat split; auto; intros; lia.
  - rewrite seq_S, map_app. unfold run. rewrite fold_left_app. cbn [map fold_left plus]. fold (run (map Collect (seq 0 n)) w).
    destruct (IH w) as (Q & LE & IS & D & O); [lia|intros k c K; apply H; lia|]. cbv zeta in *.
    set (w1 := run (map Collect (seq 0 n)) w) in *. cbn [step]. unfold at_conn.
    destruct (nth_error (w_conns w1) n) as [c|] eqn:NC; [|apply nth_error_None in NC; lia].
    assert (NC0 := NC). rewrite O in NC by lia. destruct (H n c ltac:(lia) NC) as (C1 & C2 & C3). rewrite C1, C2.
    assert (LS : forall x : conn, length (set_nth n x (w_conns w1)) = length (w_conns w1)).
    { intros x. generalize n at 1. generalize (w_conns w1). induction l as [|y l IHl]; intros [|m]; cbn; auto. }
    destruct C3 as [-> | ->]; cbn [w_queue w_conns w_issued]; rewrite LS.
    all: (split; [exact Q|]); (split; [exact LE|]); (split; [exact IS|]); split;
      [intros k d K; destruct (PeanoNat.Nat.eq_dec n k) as [<-|NE]; [rewrite (nth_set_same _ _ _ _ NC0); intros X; inversion X; subst; split; reflexivity
        |rewrite nth_set_other by exact NE; apply D; lia]
      |intros k K; rewrite nth_set_other by lia; apply O; lia].
Qed.
Lemma collect_done w k : (forall c, In c (w_conns w) -> c_close c = CDone) -> forall m c, nth_error (w_conns (run (map Collect (seq 0 m)) w)) k = Some c -> c_close c = CDone.
Proof.
  intros O. induction m as [|m IH]; intros d ND; [apply O; eapply nth_error_In, ND|]. rewrite seq_S, map_app in ND. unfold run in *. rewrite fold_left_app in ND. cbn [map fold_left plus step] in ND.
  set (w1 := fold_left step (map Collect (seq 0 m)) w) in *. unfold at_conn in ND. destruct (nth_error (w_conns w1) m) as [x|] eqn:NX; [|apply IH, ND].
  destruct (c_close x) eqn:CX; try (apply IH, ND). destruct (c_fwd x); try (apply IH, ND).
  destruct (c_task x); try (apply IH, ND); cbn [w_conns] in ND;
    (destruct (PeanoNat.Nat.eq_dec m k) as [<-|NE]; [rewrite (nth_set_same _ _ _ _ NX) in ND; inversion ND; reflexivity|rewrite nth_set_other in ND by exact NE; apply IH, ND]).
Qed.
Theorem C96_collected : forall h, over (run h w_init) ->
  forall r, r < w_issued (run h w_init) -> exists o, In (r, o) (w_results (run (h ++ map Collect (seq 0 (length (w_conns (run h w_init))))) w_init)).
Proof.
  intros h [Q O] r L. set (w := run h w_init) in *. set (cs := map Collect (seq 0 (length (w_conns w)))).
  assert (R : run (h ++ cs) w_init = run cs w) by (unfold run at 1; rewrite fold_left_app; reflexivity).
  destruct (collect_all (length (w_conns w)) w (PeanoNat.Nat.le_refl _)) as (Q' & LE & IS & D & _).
  { intros k c _ NC. apply O. eapply nth_error_In, NC. }
  fold cs in Q', LE, IS, D. cbv zeta in *. rewrite <- R in *.
  assert (P := placed (h ++ cs) r). rewrite IS in P. specialize (P L). unfold places in P. rewrite Q', Q in P. cbn [app] in P.
  apply in_app_or in P. destruct P as [P|P].
  - exfalso. apply in_flat_map in P. destruct P as (c & I & P). assert (I0 := I). apply In_nth_error in I. destruct I as (k & NK).
    assert (KL : (k < length (w_conns w))%nat) by (rewrite <- LE; apply nth_error_Some; rewrite NK; discriminate).
    destruct (D k c KL NK) as [E1 E2]. unfold held in P. rewrite E1, E2 in P. cbn [app map] in P. rewrite app_nil_r in P.
    destruct (c_init c) as [z|] eqn:EI; [|destruct P].
    assert (Z : c_close c = CDone).
    { rewrite R in NK. exact (collect_done w k (fun c I => proj1 (O c I)) _ c NK). }
    assert (W := run_closed (h ++ cs) c I0). rewrite Z, EI in W. discriminate (W ltac:(discriminate)).
  - apply in_map_iff in P. destruct P as ([z o] & <- & P). exists o. exact P.
Qed.
Example C96_rest_example : over (run ex_hang w_init) /\
  w_results (run (ex_hang ++ [Collect 0]) w_init) = [(0, Failed connect_timeout); (1, Gone)].
Proof. split; [split; [reflexivity|]|vm_compute; reflexivity]. intros c [<-|[]]. vm_compute. auto. Qed.

(* The error with which an idle connection closed hits the next call, which is not
   sent, and only that one: then the client is at rest without a pending error. *)
Theorem C96_stale_error : forall h k c e, let w := run h w_init in
  nth_error (w_conns w) k = Some c -> c_close c = CNo -> c_init c = None -> c_map c = [] -> w_queue w = [] ->
  let w' := run [Close k e; Drain k; Call; Start] w in
  In (w_issued w, Failed e) (w_results w') /\ length (w_conns w') = length (w_conns w) /\ sent [Close k e; Drain k; Call; Start] w = [] /\ w_starter w' = Some None /\ w_queue w' = [].
Proof.
  intros h k c e w NK CC EI EM Q. cbv zeta.
  assert (E1 : exists cs, length cs = length (w_conns w) /\ run [Close k e; Drain k] w = mkWorld (w_issued w) [] (Some (Some e)) cs (w_results w)).
  { unfold run. cbn [fold_left step]. unfold at_conn. rewrite NK, CC. unfold fail_init. rewrite EI. cbn [w_conns].
    rewrite (nth_set_same _ _ _ _ NK). cbn [c_close c_map]. rewrite EM. cbn [drain w_issued w_queue w_results w_conns]. rewrite Q, !app_nil_r. eexists. split; [|reflexivity].
    assert (LS : forall (x : conn) n l, length (set_nth n x l) = length l).
    { intros x n l. revert n. induction l as [|y l IHl]; intros [|m]; cbn; auto. }
    rewrite !LS. reflexivity. }
  destruct E1 as (cs & LC & E1). split; [|split; [|split]].
  - change [Close k e; Drain k; Call; Start] with ([Close k e; Drain k] ++ [Call; Start]). unfold run in *. rewrite fold_left_app, E1. cbn. apply in_or_app. right. left. reflexivity.
  - change [Close k e; Drain k; Call; Start] with ([Close k e; Drain k] ++ [Call; Start]). unfold run in *. rewrite fold_left_app, E1. cbn. exact LC.
  - reflexivity.
  - change [Close k e; Drain k; Call; Start] with ([Close k e; Drain k] ++ [Call; Start]). unfold run in *. rewrite fold_left_app, E1. cbn. auto.
Qed.
Definition ex_idle : list event := [Call; Start; Opened 0; First 0 SOk; Message 0 0 11].
Example C96_stale_example :
  w_results (run (ex_idle ++ [Close 0 9; Drain 0; Call; Start; Call; Start; Opened 1; First 1 SOk; Message 1 2 5]) w_init) =
    [(0, Answer 11); (1, Failed 9); (2, Answer 5)] /\
  sent (ex_idle ++ [Close 0 9; Drain 0; Call; Start; Call; Start; Opened 1; First 1 SOk; Message 1 2 5]) w_init = [0; 2].
Proof. split; vm_compute; reflexivity. Qed.

(* Whatever happened before, a client at rest serves the next call when the server can
   be reached. *)
Theorem C96_recovers : forall h v, let w := run h w_init in w_starter w = Some None -> w_queue w = [] ->
  let n := length (w_conns w) in
  In (w_issued w, Answer v) (w_results (run (h ++ [Call; Start; Opened n; First n SOk; Message n (wire_id (w_issued w)) v]) w_init)).
Proof.
  intros h v w ST Q n. unfold run. rewrite fold_left_app. fold (run h w_init). fold w. cbn [fold_left step]. rewrite ST. cbn [w_starter w_queue]. rewrite Q. cbn [app].
  unfold at_conn. cbn [w_conns w_issued w_queue w_starter w_results].
  assert (N1 : forall x : conn, nth_error (w_conns w ++ [x]) n = Some x) by (intros x; unfold n; rewrite nth_error_app2, PeanoNat.Nat.sub_diag by lia; reflexivity).
  assert (S1 : forall x y : conn, set_nth n y (w_conns w ++ [x]) = w_conns w ++ [y]).
  { intros x y. unfold n. generalize (w_conns w). induction l as [|z l IH]; [reflexivity|]. cbn. rewrite IH. reflexivity. }
  rewrite N1. cbn [c_sock c_task w_conns w_results]. rewrite S1, N1. cbn [c_task c_init send c_map put_id take_id w_conns w_results]. rewrite S1, N1. cbn [c_map take_id].
  rewrite N.eqb_refl. cbn [w_results]. apply in_or_app. right. left. reflexivity.
Qed.
Example C96_recovers_example : w_starter (run ex_hang w_init) = Some (Some 7) /\ w_starter (run (ex_hang ++ [Call; Start]) w_init) = Some None /\ w_queue (run (ex_hang ++ [Call; Start]) w_init) = [].
Proof. vm_compute. auto. Qed.
(* What explains a result: the event that gave it, in the state before. *)
Definition explains (w : world) (ev : event) (r : call) (o : result) : Prop :=
  match ev, o with
  (* a message with the id of an outstanding request *)
  | Message k i v, Answer v' => v' = v /\ exists c, nth_error (w_conns w) k = Some c /\ In (i, r) (c_map c)
  (* the connection could not be made, or the last one closed with this error *)
  | StartFail e, Failed e' => e' = e /\ exists q, w_queue w = r :: q
  | Start, Failed e' => w_starter w = Some (Some e') /\ exists q, w_queue w = r :: q
  (* the request was not serializable or the socket refused it *)
  | First k (SBad e), Failed e' | First k (SErr e), Failed e' => e' = e /\ exists c, nth_error (w_conns w) k = Some c /\ c_init c = Some r
  | Next k (SBad e), Failed e' | Next k (SErr e), Failed e' => e' = e /\ exists c q, nth_error (w_conns w) k = Some c /\ c_chan c = r :: q
  (* the first request of a connection that did not open *)
  | Timeout k, Failed e' => e' = connect_timeout /\ exists c, nth_error (w_conns w) k = Some c /\ c_init c = Some r
  | Error_ k e, Failed e' | Close k e, Failed e' => e' = e /\ exists c, nth_error (w_conns w) k = Some c /\ c_init c = Some r
  (* outstanding when the connection closed: one gets the reason *)
  | Drain k, Failed e' => exists c i, nth_error (w_conns w) k = Some c /\ In (i, r) (c_map c) /\ (e' = disconnected \/ c_close c = CDrain (Some e'))
  (* the result channel is dropped: another outstanding request has the same id on the
     wire, the sending task is over, or the browser collected the connection *)
  | First k SOk, Gone | Next k SOk, Gone => exists c r', nth_error (w_conns w) k = Some c /\ In (wire_id r', r) (c_map c) /\ (c_init c = Some r' \/ exists q, c_chan c = r' :: q)
  | Forward k, Gone => exists c q, nth_error (w_conns w) k = Some c /\ c_task c = TDone /\ w_queue w = r :: q
  | DropChan k, Gone => exists c, nth_error (w_conns w) k = Some c /\ c_task c = TDone /\ In r (c_chan c)
  | Collect k, Gone => exists c, nth_error (w_conns w) k = Some c /\ c_close c = CDone /\ In r (held c)
  | _, _ => False
  end.
Lemma at_conn_gives w k f x : In x (w_results (at_conn w k f)) -> In x (w_results w) \/ exists c c' rs, nth_error (w_conns w) k = Some c /\ f c = Some (c', rs) /\ In x rs.
Proof.
  unfold at_conn. destruct (nth_error (w_conns w) k) as [c|]; [|auto]. destruct (f c) as [[c' rs]|] eqn:F; [|auto]. cbn. intros I. apply in_app_or in I. destruct I as [I|I]; [auto|].
  right. exists c, c', rs. auto.
Qed.
Lemma fail_init_In c e r o : In (r, o) (fail_init c e) -> o = Failed e /\ c_init c = Some r.
Proof. unfold fail_init. destruct (c_init c); [|intros []]. intros [X|[]]. inversion X. auto. Qed.
Lemma send_gives c z sd init chan c' rs r o : send c z sd init chan = (c', rs) -> In (r, o) rs ->
  match sd with SOk => o = Gone /\ In (wire_id z, r) (c_map c) | SBad e | SErr e => o = Failed e /\ r = z end.
Proof.
  unfold send, put_id. destruct sd; [destruct (take_id _ _) as [[old q]|] eqn:T| |]; intros H; inversion H; subst; intros I; try (destruct I; fail); destruct I as [X|[]]; inversion X; subst; auto.
  split; [reflexivity|]. apply (take_id_sub _ (0, 0) _ _ _ T).
Qed.
Lemma step_explained w ev r o : In (r, o) (w_results (step w ev)) -> In (r, o) (w_results w) \/ explains w ev r o.
Proof.
  destruct ev as [| |e|k|k|k|k sd|k sd|k|k i v|k|k e|k e|k|k|k]; cbn [step].
  - auto.
  - destruct (w_starter w) as [[e|]|] eqn:ST; destruct (w_queue w) eqn:Q; cbn [w_results]; auto. rewrite in_app_iff. intros [I|[I|[]]]; [auto|]. inversion I; subst. right. cbn. rewrite Q. eauto.
  - destruct (w_starter w) as [[e1|]|] eqn:ST; destruct (w_queue w) eqn:Q; cbn [w_results]; auto. rewrite in_app_iff. intros [I|[I|[]]]; [auto|]. inversion I; subst. right. cbn. rewrite Q. eauto.
  - destruct (nth_error _ _) as [c|] eqn:NC; [|auto]. destruct (w_queue w) eqn:Q; [auto|]. destruct (c_fwd c); [|auto]. destruct (c_task c) eqn:T; cbn [w_results]; auto.
    rewrite in_app_iff. intros [I|[I|[]]]; [auto|]. inversion I; subst. right. cbn. rewrite NC, Q. eauto.
  - intros I. apply at_conn_gives in I. destruct I as [I|(c & c' & rs & NC & F & I)]; [auto|]. destruct (_ && _); inversion F; subst. destruct I.
  - intros I. apply at_conn_gives in I. destruct I as [I|(c & c' & rs & NC & F & I)]; [auto|]. destruct (c_sock c); try discriminate F. destruct (c_task c); inversion F; subst. destruct I.
  - intros I. apply at_conn_gives in I. destruct I as [I|(c & c' & rs & NC & F & I)]; [auto|]. right. destruct (c_task c); try discriminate F. destruct (c_init c) as [z|] eqn:EI; injection F as F; [|subst; destruct I].
    assert (G := send_gives _ _ _ _ _ _ _ _ _ F I). destruct sd; destruct G as [-> G]; cbn; rewrite NC.
    + exists c, z. auto.
    + subst. eauto.
    + subst. eauto.
  - intros I. apply at_conn_gives in I. destruct I as [I|(c & c' & rs & NC & F & I)]; [auto|]. right. destruct (c_task c); try discriminate F. destruct (c_chan c) as [|z q] eqn:EC; [discriminate F|]. injection F as F.
    assert (G := send_gives _ _ _ _ _ _ _ _ _ F I). destruct sd; destruct G as [-> G]; cbn; rewrite NC.
    + exists c, z. eauto 6.
    + subst. eauto 6.
    + subst. eauto 6.
  - intros I. apply at_conn_gives in I. destruct I as [I|(c & c' & rs & NC & F & I)]; [auto|]. destruct (c_task c); try discriminate F. destruct (c_chan c); [|discriminate F]. destruct (c_fwd c); inversion F; subst. destruct I.
  - intros I. apply at_conn_gives in I. destruct I as [I|(c & c' & rs & NC & F & I)]; [auto|]. right. destruct (take_id i (c_map c)) as [[z m]|] eqn:T; inversion F; subst. destruct I as [I|[]]. inversion I; subst. cbn. rewrite NC.
    split; [reflexivity|]. exists c. split; [reflexivity|]. apply (take_id_sub _ (0, 0) _ _ _ T).
  - intros I. apply at_conn_gives in I. destruct I as [I|(c & c' & rs & NC & F & I)]; [auto|]. right. destruct (c_init c) eqn:EI; [|discriminate F]. injection F as _ <-. apply fail_init_In in I. destruct I as [-> I]. cbn. rewrite NC. eauto.
  - intros I. apply at_conn_gives in I. destruct I as [I|(c & c' & rs & NC & F & I)]; [auto|]. right. destruct (c_onerror c); [|discriminate F]. injection F as _ <-. apply fail_init_In in I. destruct I as [-> I]. cbn. rewrite NC. eauto.
  - intros I. apply at_conn_gives in I. destruct I as [I|(c & c' & rs & NC & F & I)]; [auto|]. right. destruct (c_close c); try discriminate F. injection F as _ <-. apply fail_init_In in I. destruct I as [-> I]. cbn. rewrite NC. eauto.
  - destruct (nth_error _ _) as [c|] eqn:NC; [|auto]. destruct (c_close c) as [|p|] eqn:CC; auto. destruct (drain p (c_map c)) as [rs p'] eqn:D. cbn [w_results]. rewrite in_app_iff. intros [I|I]; [auto|]. right.
    unfold drain in D. destruct (c_map c) as [|[j d] m] eqn:EM; inversion D; subst; [destruct I|]. destruct I as [I|I].
    + inversion I; subst. cbn. rewrite NC. exists c, j. rewrite EM. split; [reflexivity|]. split; [left; reflexivity|]. destruct p; auto.
    + apply in_map_iff in I. destruct I as ([j' z] & X & I). cbn [snd] in X. inversion X; subst. cbn. rewrite NC. exists c, j'. rewrite EM. split; [reflexivity|]. split; [right; exact I|]. auto.
  - intros I. apply at_conn_gives in I. destruct I as [I|(c & c' & rs & NC & F & I)]; [auto|]. right. destruct (c_task c) eqn:T; try discriminate F. destruct (c_fwd c); inversion F; subst.
    apply in_map_iff in I. destruct I as (z & X & I). inversion X; subst. cbn. rewrite NC. eauto.
  - intros I. apply at_conn_gives in I. destruct I as [I|(c & c' & rs & NC & F & I)]; [auto|]. right. destruct (c_close c) eqn:CC; try discriminate F. destruct (c_fwd c); try discriminate F.
    assert (G : In (r, o) (map (fun r => (r, Gone)) (c_chan c) ++ map (fun x => (snd x, Gone)) (c_map c))) by (destruct (c_task c); inversion F; subst; exact I).
    clear I F. apply in_app_or in G. destruct G as [G|G]; apply in_map_iff in G; destruct G as (z & X & I); inversion X; subst; cbn; rewrite NC; exists c; (split; [reflexivity|]); (split; [exact CC|]); unfold held; apply in_or_app; right; apply in_or_app.
    + left. exact I.
    + right. apply in_map_iff. exists z. auto.
Qed.
Theorem C96_explained : forall h r o, In (r, o) (w_results (run h w_init)) ->
  exists h1 ev h2, h = h1 ++ ev :: h2 /\ explains (run h1 w_init) ev r o.
Proof.
  induction h as [|ev h IH] using rev_ind; intros r o I; [destruct I|]. unfold run in *. rewrite fold_left_app in I. cbn [fold_left] in I. apply step_explained in I. destruct I as [I|I].
  - destruct (IH r o I) as (h1 & ev' & h2 & -> & X). exists h1, ev', (h2 ++ [ev]). rewrite <- app_assoc. split; [reflexivity|exact X].
  - exists h, ev, []. split; [reflexivity|exact I].
Qed.
(* the pending error of a starter or of a closing connection is that of a connection
   that closed *)
Definition from_close (h : list event) (w : world) : Prop :=
  (forall e, w_starter w = Some (Some e) -> exists k, In (Close k e) h) /\ (forall c e, In c (w_conns w) -> c_close c = CDrain (Some e) -> exists k, In (Close k e) h).
Lemma at_conn_from h w k f : from_close h w -> (forall c c' rs e, In c (w_conns w) -> f c = Some (c', rs) -> c_close c' = CDrain (Some e) -> c_close c = CDrain (Some e) \/ exists k, In (Close k e) h) -> from_close h (at_conn w k f).
Proof.
  intros [K1 K2] H. unfold at_conn. destruct (nth_error (w_conns w) k) as [c|] eqn:NC; [|split; assumption]. destruct (f c) as [[c' rs]|] eqn:F; [|split; assumption].
  apply nth_error_In in NC. split; [exact K1|]. intros d e I J. cbn in I. apply In_set_nth in I. destruct I as [->|I]; [|eapply K2; eassumption].
  destruct (H c c' rs e NC F J) as [X|X]; [eapply K2; eassumption|exact X].
Qed.
Lemma step_from h w ev : from_close h w -> from_close (h ++ [ev]) (step w ev).
Proof.
  intros K0. assert (K : from_close (h ++ [ev]) w).
  { destruct K0 as [K1 K2]. split; [intros e E; destruct (K1 e E) as (k & I)|intros c e I1 E; destruct (K2 c e I1 E) as (k & I)]; exists k; apply in_or_app; left; exact I. }
  clear K0. destruct ev as [| |e|k|k|k|k o|k o|k|k i v|k|k e|k e|k|k|k]; cbn [step].
  - exact K.
  - destruct K as [K1 K2]. destruct (w_starter w) as [[e|]|] eqn:ST; destruct (w_queue w); split; cbn [w_starter w_conns]; rewrite ?ST; try exact K1; try exact K2; try (intros; discriminate).
    intros c e I. apply in_app_or in I. destruct I as [I|[<-|[]]]; [exact (K2 c e I)|discriminate].
  - destruct K as [K1 K2]. destruct (w_starter w) as [[e1|]|] eqn:ST; destruct (w_queue w); split; cbn [w_starter w_conns]; rewrite ?ST; try exact K1; try exact K2; intros; discriminate.
  - destruct (nth_error _ _) as [c|] eqn:NC; [|exact K]. apply nth_error_In in NC. destruct (w_queue w); [exact K|]. destruct (c_fwd c); [|exact K]. destruct K as [K1 K2].
    destruct (c_task c); (split; [exact K1|]); intros d e I; cbn [w_conns] in I; apply In_set_nth in I; (destruct I as [->|I]; [exact (K2 c e NC)|exact (K2 d e I)]).
  - apply at_conn_from; [exact K|]. intros c c' rs e _. destruct (_ && _); intros H; inversion H; subst; auto.
  - apply at_conn_from; [exact K|]. intros c c' rs e _. destruct (c_sock c); try discriminate. destruct (c_task c); intros H; inversion H; subst; auto.
  - apply at_conn_from; [exact K|]. intros c c' rs e _. destruct (c_task c); try discriminate. destruct (c_init c); intros H; injection H as H; [destruct (send_closed _ _ _ _ _ _ _ H) as [_ ->]; auto|subst; auto].
  - apply at_conn_from; [exact K|]. intros c c' rs e _. destruct (c_task c); try discriminate. destruct (c_chan c); [discriminate|]. intros H; injection H as H. destruct (send_closed _ _ _ _ _ _ _ H) as [_ ->]; auto.
  - apply at_conn_from; [exact K|]. intros c c' rs e _. destruct (c_task c); try discriminate. destruct (c_chan c); [|discriminate]. destruct (c_fwd c); intros H; inversion H; subst; auto.
  - apply at_conn_from; [exact K|]. intros c c' rs e _. destruct (take_id i (c_map c)) as [[r m]|]; intros H; inversion H; subst; auto.
  - apply at_conn_from; [exact K|]. intros c c' rs e _. destruct (c_init c); intros H; inversion H; subst; auto.
  - apply at_conn_from; [exact K|]. intros c c' rs e1 _. destruct (c_onerror c); intros H; inversion H; subst; auto.
  - apply at_conn_from; [exact K|]. intros c c' rs e1 _. destruct (c_close c); try discriminate. intros H; inversion H; subst. cbn [c_close]. destruct (c_init c); intros X; inversion X; subst. right. exists k. apply in_or_app. right. left. reflexivity.
  - destruct (nth_error _ _) as [c|] eqn:NC; [|exact K]. apply nth_error_In in NC. destruct (c_close c) as [|p|] eqn:CC; try exact K. destruct (drain _ _) as [rs p'] eqn:D. destruct K as [K1 K2]. split; cbn [w_starter w_conns].
    + intros e E. injection E as ->. unfold drain in D. destruct (c_map c) as [|[j d] m]; inversion D; subst. exact (K2 c e NC CC).
    + intros d e I. apply In_set_nth in I. destruct I as [->|I]; [discriminate|exact (K2 d e I)].
  - apply at_conn_from; [exact K|]. intros c c' rs e _. destruct (c_task c); try discriminate. destruct (c_fwd c); intros H; inversion H; subst; auto.
  - apply at_conn_from; [exact K|]. intros c c' rs e _. destruct (c_close c) eqn:CC; try discriminate. destruct (c_fwd c); try discriminate. destruct (c_task c); intros H; inversion H; subst; cbn [c_close]; discriminate.
Qed.
Theorem C96_stale_origin : forall h, (forall e, w_starter (run h w_init) = Some (Some e) -> exists k, In (Close k e) h) /\
  (forall c e, In c (w_conns (run h w_init)) -> c_close c = CDrain (Some e) -> exists k, In (Close k e) h).
Proof.
  intros h. change (from_close h (run h w_init)). induction h as [|ev h IH] using rev_ind; [split; [discriminate|intros c e []]|]. unfold run in *. rewrite fold_left_app. apply step_from, IH.
Qed.

(* Ids are not reused before 2^32 calls: until then no result channel is dropped
   because of another request. *)
Lemma issued_mono h2 : forall h1, w_issued (run h1 w_init) <= w_issued (run (h1 ++ h2) w_init).
Proof.
  induction h2 as [|ev h2 IH] using rev_ind; intros h1; [rewrite app_nil_r; lia|]. rewrite app_assoc. specialize (IH h1). unfold run in *. rewrite (fold_left_app _ (h1 ++ h2)).
  cbn [fold_left]. rewrite step_issued. destruct ev; lia.
Qed.
Lemma place_issued h r : In r (places (run h w_init)) -> r < w_issued (run h w_init).
Proof.
  intros I. apply (Permutation_in _ (C96_accounted h)) in I. unfold calls in I. apply in_map_iff in I. destruct I as (n & <- & I). apply in_seq in I. lia.
Qed.
Lemma no_collision h k c r r' : w_issued (run h w_init) <= 4294967296 -> nth_error (w_conns (run h w_init)) k = Some c ->
  In (wire_id r', r) (c_map c) -> c_init c = Some r' \/ (exists q, c_chan c = r' :: q) -> False.
Proof.
  intros B NC IM IW. assert (NI := nth_error_In _ _ NC). assert (E := run_keyed h c _ _ NI IM).
  assert (H1 : In r (map snd (c_map c))) by (apply in_map_iff; exists (wire_id r', r); auto).
  assert (H2 : In r' (match c_init c with Some z => [z] | None => [] end ++ c_chan c)) by (apply in_or_app; destruct IW as [-> |(q & ->)]; [left|right]; left; reflexivity).
  assert (P : forall z, In z (held c) -> z < w_issued (run h w_init)) by (intros z Z; apply place_issued; unfold places; apply in_or_app; right; apply in_or_app; left; apply in_flat_map; exists c; auto).
  assert (L1 : r < w_issued (run h w_init)) by (apply P; unfold held; rewrite app_assoc; apply in_or_app; right; exact H1).
  assert (L2 : r' < w_issued (run h w_init)) by (apply P; unfold held; rewrite app_assoc; apply in_or_app; left; exact H2).
  unfold wire_id in E. rewrite !N.mod_small in E by lia. subst r'.
  assert (X := cnt_run h r). assert (Y := proj1 (NoDup_count_occ N.eq_dec (calls (w_issued (run h w_init)))) (calls_NoDup _) r). unfold places in X. rewrite !cnt_app in X.
  assert (Z : (cnt (held c) r <= cnt (flat_map held (w_conns (run h w_init))) r)%nat).
  { clear - NI. induction (w_conns (run h w_init)) as [|d l IH]; [destruct NI|]. cbn [flat_map]. rewrite cnt_app. destruct NI as [->|NI]; [lia|specialize (IH NI); lia]. }
  unfold held at 1 in Z. rewrite app_assoc, cnt_app in Z. apply (count_occ_In N.eq_dec) in H1. apply (count_occ_In N.eq_dec) in H2. lia.
Qed.
Theorem C96_never_displaced : forall h r, w_issued (run h w_init) <= 4294967296 -> In (r, Gone) (w_results (run h w_init)) ->
  exists h1 k h2, (h = h1 ++ Forward k :: h2 \/ h = h1 ++ DropChan k :: h2 \/ h = h1 ++ Collect k :: h2).
Proof.
  intros h r B I. destruct (C96_explained h r Gone I) as (h1 & ev & h2 & E & X).
  assert (B1 : w_issued (run h1 w_init) <= 4294967296) by (assert (M := issued_mono (ev :: h2) h1); rewrite <- E in M; lia).
  destruct ev as [| |e|k|k|k|k o|k o|k|k i v|k|k e|k e|k|k|k]; try (destruct X; fail); try (exists h1, k, h2; auto; fail);
    destruct o; try (destruct X; fail); destruct X as (c & r' & NC & IM & IW); destruct (no_collision h1 k c r r' B1 NC IM IW).
Qed.
(* a history with every kind of place: a call in the queue, one in the channel, one
   outstanding, three with results *)
Definition ex_mixed : list event :=
  ex_idle ++ [Close 0 9; Drain 0; Call; Start; Call; Start; Opened 1; Call; Forward 1; First 1 (SBad 3); Next 1 SOk; Call; Forward 1; Call].
Example C96_mixed_example : let w := run ex_mixed w_init in
  w_queue w = [5] /\ flat_map held (w_conns w) = [4; 3] /\ w_results w = [(0, Answer 11); (1, Failed 9); (2, Failed 3)] /\
  sent ex_mixed w_init = [0; 3] /\ actors w = 1%nat.
Proof. vm_compute. auto. Qed.
Print Assumptions C96_accounted.
Print Assumptions C96_one_result.
Print Assumptions C96_answer_origin.
Print Assumptions C96_explained.
Print Assumptions C96_stale_origin.
Print Assumptions C96_never_displaced.
Print Assumptions C96_one_actor.
Print Assumptions C96_sent_once.
Print Assumptions C96_stuck_in_connecting.
Print Assumptions C96_always_answered_refuted.
Print Assumptions C96_rest.
Print Assumptions C96_collected.
Print Assumptions C96_stale_error.
Print Assumptions C96_recovers.
