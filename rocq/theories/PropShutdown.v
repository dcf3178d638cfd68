(* C79: shutting a server down. *)
From Verif Require Import Base Shutdown.
From Coq Require Import ZifyBool Lia Arith.
Local Open Scope N_scope.

Definition reach (s : state) : Prop := exists es, s = run new es.
Lemma reach_step s e : reach s -> reach (step s e).
Proof. intros [es ->]. exists (es ++ [e]). unfold run. rewrite fold_left_app. reflexivity. Qed.
Lemma reach_run s es : reach s -> reach (run s es).
Proof. intros [es0 ->]. exists (es0 ++ es). unfold run. rewrite fold_left_app. reflexivity. Qed.

(* a call that has got past stop_watching *)
Definition stopped (c : phase) : Prop := match c with GStop => False | FStop => False | _ => True end.
Record inv (s : state) : Prop := {
  i_running : value s = Running <-> version s = 0;
  i_seen : forall w, In w (watchers s) -> w_seen w <= version s /\ w_id w < next_id s;
  i_spare : forall x, spare s = Some x -> x = 0 /\ version s = 0;
  i_stopped : forall c, In c (calls s) -> stopped c -> spare s = None;
  i_told : forall w, In w (watchers s) -> w_seen w = version s -> version s <> 0 -> w_kind w = QuicDraining \/ w_kind w = WsReader /\ value s = GracefulShutdown;
  i_forced : value s = ForcedShutdown -> In (Returned true) (calls s);
  i_clean : In (Returned false) (calls s) -> watchers s = [];
  i_ids : NoDup (map w_id (watchers s))
}.

Lemma in_set_nth {A} (l : list A) : forall n x y, In y (set_nth l n x) -> y = x \/ In y l.
Proof. induction l as [|z l IH]; intros [|n] x y; cbn; try tauto. - intros [->|I]; auto. - intros [->|I]; auto. destruct (IH _ _ _ I); auto. Qed.
Lemma in_set_nth_eq {A} (l : list A) : forall n x y, nth_error l n = Some y -> In x (set_nth l n x).
Proof. induction l as [|z l IH]; intros [|n] x y; cbn; try discriminate; auto. intros E. right. exact (IH n x y E). Qed.
Lemma in_set_nth_keep {A} (l : list A) : forall n x y z, nth_error l n = Some z -> In y l -> y = z \/ In y (set_nth l n x).
Proof.
  induction l as [|w l IH]; intros [|n] x y z; cbn; try discriminate; try tauto.
  - intros [= ->] [->|I]; auto.
  - intros E [->|I]; auto. destruct (IH n x y z E I); auto.
Qed.
Lemma nth_set_nth {A} (l : list A) : forall n x y, nth_error l n = Some y -> nth_error (set_nth l n x) n = Some x.
Proof. induction l as [|z l IH]; intros [|n] x y; cbn; try discriminate; auto. apply IH. Qed.
Lemma receivers_0 s : receivers s = 0%nat <-> watchers s = [] /\ spare s = None.
Proof. unfold receivers. destruct (watchers s), (spare s); cbn; split; try lia; try intros [? ?]; try discriminate; auto. Qed.
Lemma find_watcher_some s i w : find_watcher s i = Some w -> In w (watchers s) /\ w_id w = i.
Proof. intros H. apply find_some in H as [I E]. apply N.eqb_eq in E. auto. Qed.
Lemma find_watcher_in s w : NoDup (map w_id (watchers s)) -> In w (watchers s) -> find_watcher s (w_id w) = Some w.
Proof.
  unfold find_watcher. induction (watchers s) as [|x l IH]; intros ND J; [destruct J|]. destruct J as [->|I]; cbn in *; [rewrite N.eqb_refl; reflexivity|].
  inversion ND; subst. destruct (N.eqb_spec (w_id x) (w_id w)) as [E|E]; [|apply IH; assumption].
  exfalso. apply H1. rewrite E. apply in_map. exact I.
Qed.
Lemma map_ids f l : (forall w : watcher, w_id (f w) = w_id w) -> map w_id (map f l) = map w_id l.
Proof. intros H. rewrite map_map. apply map_ext. exact H. Qed.
Lemma NoDup_ids_filter f l : NoDup (map w_id l) -> NoDup (map w_id (filter f l)).
Proof.
  induction l as [|x l IH]; intros ND; [constructor|]. inversion ND; subst. cbn. destruct (f x); [|auto]. cbn. constructor; [|auto].
  intros I. apply H1. apply in_map_iff in I as (y & E & I). apply filter_In in I as [I _]. rewrite <- E. apply in_map, I.
Qed.
Lemma NoDup_snoc {A} (l : list A) x : NoDup l -> ~ In x l -> NoDup (l ++ [x]).
Proof.
  intros ND NI. induction l as [|y l IH]; cbn; [constructor; [intros []|constructor]|]. inversion ND; subst. constructor.
  - intros I. apply in_app_or in I as [I|[->|[]]]; [auto|]. apply NI. left. reflexivity.
  - apply IH; auto. intros I. apply NI. right. exact I.
Qed.

Lemma inv_new : inv new.
Proof. constructor; cbn; try tauto; try discriminate; try constructor; try lia; try congruence; try (intros x [= <-]; auto). Qed.
Lemma inv_finish s i : inv s -> inv (finish s i).
Proof.
  intros [A B C D E F G H]. constructor; cbn; auto.
  - intros w I. apply filter_In in I as [I _]. auto.
  - intros w I. apply filter_In in I as [I _]. auto.
  - intros I. rewrite (G I). reflexivity.
  - apply NoDup_ids_filter, H.
Qed.
(* a watcher that has been told [value s] and stays, or turns into [k] *)
Lemma inv_retell s i (f : kind -> kind) w : inv s -> find_watcher s i = Some w -> w_seen w <> version s ->
  (f (w_kind w) = QuicDraining \/ f (w_kind w) = WsReader /\ value s = GracefulShutdown) ->
  inv (set_watchers s (map (fun x => if w_id x =? i then mk_watcher i (f (w_kind x)) (version s) else x) (watchers s))).
Proof.
  intros [A B C D E F G H] W U K. destruct (find_watcher_some _ _ _ W) as [I <-].
  assert (V : version s <> 0) by (pose proof (B w I); intros Z; lia).
  constructor; cbn; auto.
  - intros x J. apply in_map_iff in J as (y & <- & J). pose proof (B y J). destruct (N.eqb_spec (w_id y) (w_id w)); cbn; [split; [lia|]|auto]. pose proof (B w I). lia.
  - intros x J. apply in_map_iff in J as (y & <- & J). destruct (N.eqb_spec (w_id y) (w_id w)) as [Z|Z]; cbn; [|auto]. intros _ _.
    assert (y = w) as ->; [|exact K]. pose proof (find_watcher_in s y H J) as Q. rewrite Z, W in Q. congruence.
  - intros J. rewrite (G J). reflexivity.
  - rewrite map_ids; [exact H|]. intros x. destruct (N.eqb_spec (w_id x) (w_id w)); cbn; congruence.
Qed.
Lemma inv_poll s i : inv s -> inv (fst (poll s i)).
Proof.
  intros I. unfold poll. destruct (find_watcher s i) as [w|] eqn:W; [|exact I].
  destruct (polls (w_kind w)) eqn:P; [|exact I]. destruct (N.eqb_spec (w_seen w) (version s)) as [U|U]; [exact I|]. cbn [andb negb fst].
  assert (R : value s <> Running). { destruct (find_watcher_some _ _ _ W) as [J _]. pose proof (i_seen s I w J). rewrite (i_running s I). lia. }
  destruct (react (w_kind w) (value s)) as [|k|] eqn:K; [apply inv_finish, I| |].
  - apply (inv_retell s i (fun _ => k) w I W U). left. destruct (w_kind w), (value s); cbn in K; congruence.
  - apply (inv_retell s i (fun k => k) w I W U). destruct (w_kind w), (value s); cbn in K, P; try congruence. right. auto.
Qed.
Lemma inv_grow s k seen : inv s -> seen = 0 -> (spare s <> None \/ version s <> 0) -> ~ In (Returned false) (calls s) ->
  inv (mk_state (value s) (version s) (spare s) (watchers s ++ [mk_watcher (next_id s) k seen]) (calls s) (next_id s + 1)).
Proof.
  intros [A B C D E F G H] Z X NR. constructor; cbn; auto.
  - intros w I. apply in_app_or in I as [I|[<-|[]]]; cbn; [pose proof (B w I); lia|lia].
  - intros w I U V. apply in_app_or in I as [I|[<-|[]]]; cbn in *; [auto|]. lia.
  - intros I. contradiction.
  - rewrite map_app. cbn. apply NoDup_snoc; [exact H|]. intros I. apply in_map_iff in I as (w & Q & I). pose proof (B w I). lia.
Qed.
Lemma inv_stop s : inv s -> inv (stop_watching s).
Proof. intros [A B C D E F G H]. constructor; cbn; auto; discriminate. Qed.
Lemma inv_calls s l : inv s -> (forall c, In c l -> stopped c -> spare s = None) -> (value s = ForcedShutdown -> In (Returned true) l) ->
  (In (Returned false) l -> watchers s = []) -> inv (set_calls s l).
Proof. intros [A B C D E F G H] X Y Z. constructor; cbn; auto. Qed.

Lemma inv_advance s n : inv s -> inv (advance s n).
Proof.
  intros I. unfold advance. destruct (nth_error (calls s) n) as [c|] eqn:Nn; [|exact I].
  pose proof (nth_error_In _ _ Nn) as Cn.
  assert (keep : forall x, (forall b, c <> Returned b) -> value s = ForcedShutdown -> In (Returned true) (set_nth (calls s) n x)).
  { intros x X V. destruct (in_set_nth_keep _ n x _ _ Nn (i_forced s I V)) as [Q|Q]; [congruence|exact Q]. }
  destruct c.
  - apply inv_calls; [apply inv_stop, I|reflexivity|apply keep; discriminate|]. intros J. apply in_set_nth in J as [J|J]; [discriminate|]. exact (i_clean s I J).
  - assert (SP := i_stopped s I _ Cn Logic.I). unfold send. destruct (receivers s) as [|m] eqn:Rc.
    + apply receivers_0 in Rc as [W0 _]. apply inv_calls; [exact I|intros; exact SP|apply keep; discriminate|intros _; exact W0].
    + pose proof I as [A B C D E F G H]. constructor; cbn; auto; try discriminate.
      * split; [discriminate|lia].
      * intros w J. pose proof (B w J). lia.
      * intros x J. congruence.
      * intros w J U _. pose proof (B w J). lia.
      * intros J. apply in_set_nth in J as [J|J]; [discriminate|auto].
  - assert (SP := i_stopped s I _ Cn Logic.I). destruct (Nat.eqb_spec (receivers s) 0) as [Rc|Rc]; [|exact I]. apply receivers_0 in Rc as [W0 _].
    apply inv_calls; [exact I|intros; exact SP|apply keep; discriminate|intros _; exact W0].
  - apply inv_calls; [apply inv_stop, I|reflexivity|apply keep; discriminate|]. intros J. apply in_set_nth in J as [J|J]; [discriminate|]. exact (i_clean s I J).
  - assert (SP := i_stopped s I _ Cn Logic.I). unfold send. destruct (receivers s) as [|m] eqn:Rc; cbn [fst].
    + apply receivers_0 in Rc as [W0 _]. apply inv_calls; [exact I|intros; exact SP|intros _; eapply in_set_nth_eq, Nn|intros _; exact W0].
    + pose proof I as [A B C D E F G H]. constructor; cbn; auto; try discriminate.
      * split; [discriminate|lia].
      * intros w J. pose proof (B w J). lia.
      * intros x J. congruence.
      * intros w J U _. pose proof (B w J). lia.
      * intros _. eapply in_set_nth_eq, Nn.
      * intros J. apply in_set_nth in J as [J|J]; [discriminate|auto].
  - exact I.
Qed.
Lemma inv_step s e : inv s -> inv (step s e).
Proof.
  intros I. destruct e; cbn [step].
  - unfold new_watcher. destruct (spare s) as [x|] eqn:Sp; [|exact I]. cbn [fst]. destruct (i_spare s I x Sp) as [-> _].
    rewrite <- Sp. apply inv_grow; auto; [left; congruence|]. intros J. pose proof (i_stopped s I _ J Logic.I). congruence.
  - unfold clone_watcher. destruct (find_watcher s i) as [w|] eqn:W; [|exact I]. destruct (clones (w_kind w) k); [|exact I]. destruct (N.eqb_spec (w_seen w) 0) as [Z|Z]; [|exact I]. cbn [andb fst].
    destruct (find_watcher_some _ _ _ W) as [J _].
    pose proof (i_clean s I) as Cl. destruct I as [A B C D E F G H]. constructor; cbn; auto.
    + intros x K. apply in_app_or in K as [K|[<-|[]]]; cbn; [pose proof (B x K); lia|lia].
    + intros x K U V. apply in_app_or in K as [K|[<-|[]]]; cbn in *; [auto|]. lia.
    + intros K. rewrite (Cl K) in J. destruct J.
    + rewrite map_app. cbn. apply NoDup_snoc; [exact H|]. intros K. apply in_map_iff in K as (x & Q & K). pose proof (B x K). lia.
  - apply inv_finish, I.
  - apply inv_poll, I.
  - apply inv_calls; [exact I| | |]; pose proof I as [A B C D E F G H].
    + intros c J S. apply in_app_or in J as [J|[<-|[]]]; [eauto|destruct S].
    + intros V. apply in_or_app. left. auto.
    + intros J. apply in_app_or in J as [J|[J|[]]]; [auto|discriminate].
  - apply inv_calls; [exact I| | |]; pose proof I as [A B C D E F G H].
    + intros c J S. apply in_app_or in J as [J|[<-|[]]]; [eauto|destruct S].
    + intros V. apply in_or_app. left. auto.
    + intros J. apply in_app_or in J as [J|[J|[]]]; [auto|discriminate].
  - apply inv_advance, I.
  - unfold time_out. destruct (nth_error (calls s) n) as [[]|] eqn:Nn; try exact I. apply inv_calls; [exact I| | |]; pose proof I as [A B C D E F G H].
    + intros c J S. apply in_set_nth in J as [->|J]; [destruct S|eauto].
    + intros V. destruct (in_set_nth_keep _ n FStop _ _ Nn (F V)) as [Q|Q]; [discriminate|exact Q].
    + intros J. apply in_set_nth in J as [J|J]; [discriminate|auto].
Qed.
Lemma inv_reach s : reach s -> inv s.
Proof. intros [es ->]. assert (G : forall es s, inv s -> inv (run s es)) by (induction es0 as [|e es0 IH]; intros s0 I0; [exact I0|exact (IH _ (inv_step _ e I0))]). apply G, inv_new. Qed.

(* ================= the announcement ================= *)
(* once a shutdown call has returned no task gets a watcher any more: no new connection is served *)
Theorem C79_no_new_watchers : forall s k b, reach s -> In (Returned b) (calls s) -> new_watcher k s = (s, None).
Proof. intros s k b R I. unfold new_watcher. rewrite (i_stopped s (inv_reach s R) _ I Logic.I). reflexivity. Qed.
(* nobody is told to stop unless a shutdown was asked for, nor to stop at once unless a
   forced shutdown was carried out *)
Theorem C79_not_spurious : forall s i v, reach s -> snd (poll s i) = Some v ->
  v <> Running /\ (v = ForcedShutdown -> In (Returned true) (calls s)).
Proof.
  intros s i v R P. apply inv_reach in R. unfold poll in P. destruct (find_watcher s i) as [w|] eqn:W; [|discriminate].
  destruct (polls (w_kind w)); [|discriminate]. destruct (N.eqb_spec (w_seen w) (version s)) as [U|U]; [discriminate|]. cbn in P. injection P as <-.
  split; [|apply (i_forced s R)]. destruct (find_watcher_some _ _ _ W) as [J _]. pose proof (i_seen s R w J). rewrite (i_running s R). lia.
Qed.
(* a task that is not told anything when it looks has been told already and is one of the two that may go on *)
Lemma poll_fresh s w : inv s -> In w (watchers s) -> polls (w_kind w) = true -> version s <> 0 ->
  (w_seen w = version s /\ w_kind w = WsReader /\ value s = GracefulShutdown) \/
  w_seen w <> version s /\ snd (poll s (w_id w)) = Some (value s) /\
    (react (w_kind w) (value s) = Ends -> fst (poll s (w_id w)) = finish s (w_id w)).
Proof.
  intros I J P V. destruct (N.eq_dec (w_seen w) (version s)) as [U|U].
  - left. destruct (i_told s I w J U V) as [K|[K G]]; [rewrite K in P; discriminate|auto].
  - right. split; [exact U|]. unfold poll. rewrite (find_watcher_in s w (i_ids s I) J), P. destruct (N.eqb_spec (w_seen w) (version s)); [congruence|]. cbn.
    split; [reflexivity|]. intros E. rewrite E. reflexivity.
Qed.
(* A forced shutdown reaches every task: whatever happens afterwards, short of asking for a
   graceful shutdown again, a task that looks is told and ends. *)
Definition quiet (s : state) : Prop := forall c, In c (calls s) -> c <> GStop /\ c <> GSend.
Lemma quiet_step s e : e <> CallGraceful -> quiet s -> quiet (step s e) /\ (version s <> 0 -> version (step s e) <> 0) /\ (value s = ForcedShutdown -> value (step s e) = ForcedShutdown).
Proof.
  intros NE Q.
  assert (A : forall n, quiet (advance s n) /\ (version s <> 0 -> version (advance s n) <> 0) /\ (value s = ForcedShutdown -> value (advance s n) = ForcedShutdown)).
  { intros n. unfold advance. destruct (nth_error (calls s) n) as [c|] eqn:Nn; [|auto]. pose proof (nth_error_In _ _ Nn) as J. destruct (Q c J) as [Q1 Q2].
    assert (QS : forall t x, calls t = calls s -> x <> GStop -> x <> GSend -> quiet (set_calls t (set_nth (calls t) n x))).
    { intros t x Ct X Y c' K. cbn in K. rewrite Ct in K. apply in_set_nth in K as [->|K]; [auto|apply Q, K]. }
    destruct c; try congruence.
    - destruct (Nat.eqb (receivers s) 0); [|auto]. split; [apply QS; [reflexivity|discriminate|discriminate]|cbn; auto].
    - split; [apply QS; [reflexivity|discriminate|discriminate]|cbn; auto].
    - unfold send. destruct (receivers s); cbn [fst]; (split; [apply QS; [reflexivity|discriminate|discriminate]|cbn; split; [lia|auto]]).
    - auto. }
  destruct e; cbn [step]; try congruence; auto.
  - unfold new_watcher. destruct (spare s); cbn; auto.
  - unfold clone_watcher. destruct (find_watcher s i) as [w|]; [|auto]. destruct (_ && _); cbn; auto.
  - unfold poll. destruct (find_watcher s i) as [w|]; [|auto]. destruct (_ && _); [|auto]. cbn [fst]. destruct (react _ _); cbn; auto.
  - cbn. split; [|auto]. intros c K. cbn in K. apply in_app_or in K as [K|[<-|[]]]; [apply Q, K|split; discriminate].
  - unfold time_out. destruct (nth_error (calls s) n) as [[]|]; auto. cbn. split; [|auto]. intros c K. apply in_set_nth in K as [->|K]; [split; discriminate|apply Q, K].
Qed.
Theorem C79_forced_ends : forall s n es t w, reach s -> nth_error (calls s) n = Some FSend ->
  quiet s -> ~ In CallGraceful es -> t = run (advance s n) es -> In w (watchers t) -> w_kind w <> QuicDraining ->
  poll t (w_id w) = (finish t (w_id w), Some ForcedShutdown).
Proof.
  intros s n es t w R Nn Q NG Et J K.
  assert (St : watchers (advance s n) <> [] -> value (advance s n) = ForcedShutdown /\ version (advance s n) <> 0).
  { unfold advance. rewrite Nn. unfold send. destruct (receivers s) as [|m] eqn:Rc; cbn; [|intros _; split; [reflexivity|lia]].
    apply receivers_0 in Rc as [W0 _]. rewrite W0. congruence. }
  assert (Qa : quiet (advance s n)) by (apply (quiet_step s (Advance n)); [discriminate|exact Q]).
  assert (Ra : reach (advance s n)) by exact (reach_step s (Advance n) R).
  assert (SPa : spare (advance s n) = None).
  { unfold advance. rewrite Nn. unfold send. pose proof (i_stopped s (inv_reach s R) _ (nth_error_In _ _ Nn) Logic.I) as SP. destruct (receivers s); exact SP. }
  assert (G : forall es u, reach u -> quiet u -> spare u = None -> ~ In CallGraceful es -> (watchers u <> [] -> value u = ForcedShutdown /\ version u <> 0) ->
     let t := run u es in reach t /\ (watchers t <> [] -> value t = ForcedShutdown /\ version t <> 0)).
  { clear. induction es as [|e es IH]; intros u R Q SP NG H; [split; assumption|]. cbn. apply IH.
    - apply reach_step, R.
    - apply quiet_step; [intros ->; apply NG; left; reflexivity|exact Q].
    - pose proof (inv_reach _ (reach_step u e R)) as I2. clear - SP. destruct e; cbn [step]; auto.
      + unfold new_watcher. rewrite SP. exact SP.
      + unfold clone_watcher. destruct (find_watcher u i); [|exact SP]. destruct (_ && _); exact SP.
      + unfold poll. destruct (find_watcher u i); [|exact SP]. destruct (_ && _); [|exact SP]. cbn. destruct (react _ _); exact SP.
      + unfold advance. destruct (nth_error (calls u) n) as [[]|]; auto; unfold send; repeat match goal with |- context [receivers u] => destruct (receivers u) end; cbn; auto.
      + unfold time_out. destruct (nth_error (calls u) n) as [[]|]; auto.
    - intros X. apply NG. right. exact X.
    - intros W. assert (W0 : watchers u <> []).
      { intros Z. apply W. clear - Z SP. destruct e; cbn [step]; auto.
        + unfold new_watcher. rewrite SP. exact Z.
        + unfold clone_watcher, find_watcher. rewrite Z. exact Z.
        + cbn. rewrite Z. reflexivity.
        + unfold poll, find_watcher. rewrite Z. exact Z.
        + unfold advance. destruct (nth_error (calls u) n) as [[]|]; auto; unfold send; repeat match goal with |- context [receivers u] => destruct (receivers u) end; cbn; auto.
        + unfold time_out. destruct (nth_error (calls u) n) as [[]|]; auto. }
      destruct (H W0) as [V1 V2]. destruct (quiet_step u e) as (_ & A & B); [intros ->; apply NG; left; reflexivity|exact Q|]. auto. }
  destruct (G es (advance s n) Ra Qa SPa NG St) as [Rt H]. rewrite <- Et in *.
  destruct H as [V1 V2]; [intros Z; rewrite Z in J; destruct J|].
  assert (P : polls (w_kind w) = true) by (destruct (w_kind w); cbn; congruence).
  destruct (poll_fresh t w (inv_reach t Rt) J P V2) as [(_ & _ & X)|(_ & X & Y)]; [congruence|].
  rewrite V1 in X, Y. assert (E : react (w_kind w) ForcedShutdown = Ends) by (destruct (w_kind w); cbn; congruence).
  destruct (poll t (w_id w)) as [t' o]. cbn in X, Y. rewrite (Y E), X. reflexivity.
Qed.
(* After an announcement only two kinds of task go on once they have looked: a listener
   waiting for its connections, and, unless the shutdown is forced, a websocket *)
Theorem C79_remaining : forall s w, reach s -> value s <> Running -> In w (watchers s) -> snd (poll s (w_id w)) = None ->
  w_kind w = QuicDraining \/ w_kind w = WsReader /\ value s = GracefulShutdown.
Proof.
  intros s w R V J P. apply inv_reach in R. rewrite (i_running s R) in V. destruct (polls (w_kind w)) eqn:Po; [|left; destruct (w_kind w); cbn in Po; congruence].
  destruct (poll_fresh s w R J Po V) as [(_ & A & B)|(_ & X & _)]; [right; auto|congruence].
Qed.
(* every other task that looks ends; the QUIC listener stops accepting *)
Theorem C79_graceful_ends : forall s w, reach s -> value s <> Running -> In w (watchers s) ->
  match w_kind w with
  | TcpListener | StreamReader | StreamWriter | Requests => poll s (w_id w) = (finish s (w_id w), Some (value s))
  | QuicListener => forall x, In x (watchers (fst (poll s (w_id w)))) -> w_id x = w_id w -> w_kind x = QuicDraining /\ value s = GracefulShutdown
  | _ => True
  end.
Proof.
  intros s w R V J. pose proof (inv_reach s R) as I. pose proof V as V0. rewrite (i_running s I) in V0.
  destruct (w_kind w) eqn:K; auto.
  - intros x X E. destruct (poll_fresh s w I J) as [(_ & A & _)|(U & A & B)]; [rewrite K; reflexivity|exact V0|congruence|].
    unfold poll in X. rewrite (find_watcher_in s w (i_ids s I) J), K in X. destruct (N.eqb_spec (w_seen w) (version s)); [congruence|]. cbn in X.
    destruct (value s); cbn in X; try congruence.
    + apply in_map_iff in X as (y & <- & Y). destruct (N.eqb_spec (w_id y) (w_id w)); [auto|]. congruence.
    + apply filter_In in X as [_ X]. rewrite E, N.eqb_refl in X. discriminate.
  - destruct (poll_fresh s w I J) as [(_ & A & _)|(U & A & B)]; [rewrite K; reflexivity|exact V0|congruence|].
    rewrite K in B. destruct (poll s (w_id w)); cbn in *. rewrite A, B; auto.
  - destruct (poll_fresh s w I J) as [(_ & A & _)|(U & A & B)]; [rewrite K; reflexivity|exact V0|congruence|].
    rewrite K in B. destruct (poll s (w_id w)); cbn in *. rewrite A, B; auto. destruct (value s); congruence.
  - destruct (poll_fresh s w I J) as [(_ & A & _)|(U & A & B)]; [rewrite K; reflexivity|exact V0|congruence|].
    rewrite K in B. destruct (poll s (w_id w)); cbn in *. rewrite A, B; auto. destruct (value s); congruence.
  - destruct (poll_fresh s w I J) as [(_ & A & _)|(U & A & B)]; [rewrite K; reflexivity|exact V0|congruence|].
    rewrite K in B. destruct (poll s (w_id w)); cbn in *. rewrite A, B; auto. destruct (value s); congruence.
Qed.

(* ================= returning ================= *)
(* A graceful shutdown that has announced itself returns as soon as no task is left, and
   not before unless its time is up; then it becomes a forced one. *)
Theorem C79_graceful_waits : forall s n, reach s -> nth_error (calls s) n = Some GWait ->
  (watchers s = [] -> nth_error (calls (advance s n)) n = Some (Returned false)) /\
  (watchers s <> [] -> advance s n = s /\
     nth_error (calls (run s [TimeOut n; Advance n; Advance n])) n = Some (Returned true) /\
     should_shutdown (run s [TimeOut n; Advance n; Advance n]) = true).
Proof.
  intros s n R Nn. pose proof (i_stopped s (inv_reach s R) _ (nth_error_In _ _ Nn) Logic.I) as SP. split; intros W.
  - unfold advance. rewrite Nn. assert (Z : receivers s = 0%nat) by (apply receivers_0; auto). rewrite Z. cbn. eapply nth_set_nth, Nn.
  - split.
    + unfold advance. rewrite Nn. destruct (Nat.eqb_spec (receivers s) 0) as [Z|Z]; [|reflexivity]. apply receivers_0 in Z as [Z _]. congruence.
    + assert (E1 : time_out s n = set_calls s (set_nth (calls s) n FStop)) by (unfold time_out; rewrite Nn; reflexivity).
      set (u := set_calls s (set_nth (calls s) n FStop)) in *.
      assert (N1 : nth_error (calls u) n = Some FStop) by (cbn; eapply nth_set_nth, Nn).
      assert (E2 : advance u n = set_calls (stop_watching u) (set_nth (calls u) n FSend)) by (unfold advance; rewrite N1; reflexivity).
      set (v := set_calls (stop_watching u) (set_nth (calls u) n FSend)) in *.
      assert (N2 : nth_error (calls v) n = Some FSend) by (cbn; cbn in N1; eapply nth_set_nth, N1).
      assert (E3 : run s [TimeOut n; Advance n; Advance n] = advance v n) by (cbn [run fold_left step]; rewrite E1, E2; reflexivity).
      rewrite E3. unfold advance. rewrite N2. unfold send. destruct (receivers v) eqn:Rc; [apply receivers_0 in Rc as [Rc _]; exfalso; apply W, Rc|].
      split; [|reflexivity]. cbn [fst calls set_calls]. eapply nth_set_nth, N2.
Qed.
(* when it has returned in time, no task is left and none will come *)
Theorem C79_clean_return : forall s es, reach s -> In (Returned false) (calls s) -> watchers (run s es) = [].
Proof.
  intros s es R I. assert (K : forall e u, In (Returned false) (calls u) -> In (Returned false) (calls (step u e))).
  { intros e u J.
    assert (P : forall l n x z, nth_error l n = Some z -> z <> Returned false -> In (Returned false) l -> In (Returned false) (set_nth l n x)).
    { intros l n x z E Z Q. destruct (in_set_nth_keep l n x _ z E Q); [congruence|assumption]. }
    destruct e; cbn [step]; auto.
    - unfold new_watcher. destruct (spare u); auto.
    - unfold clone_watcher. destruct (find_watcher u i); [|auto]. destruct (_ && _); auto.
    - unfold poll. destruct (find_watcher u i); [|auto]. destruct (_ && _); [|auto]. cbn. destruct (react _ _); auto.
    - cbn. apply in_or_app. auto.
    - cbn. apply in_or_app. auto.
    - unfold advance. destruct (nth_error (calls u) n) as [c|] eqn:Nn; [|auto]. destruct c; auto; unfold send; try destruct (receivers u); cbn; eauto using (P (calls u) n);
        try (eapply P; [exact Nn|discriminate|exact J]).
    - unfold time_out. destruct (nth_error (calls u) n) as [c|] eqn:Nn; [|auto]. destruct c; auto. cbn. eapply P; [exact Nn|discriminate|exact J]. }
  assert (G : forall es u, In (Returned false) (calls u) -> In (Returned false) (calls (run u es))).
  { induction es0 as [|e es0 IH]; intros u J; [exact J|]. cbn. apply IH, K, J. }
  apply (i_clean _ (inv_reach _ (reach_run s es R))), G, I.
Qed.
(* a graceful call that waits has announced the shutdown *)
Lemma waiting_announced s : reach s -> In GWait (calls s) -> value s <> Running.
Proof.
  intros R. rewrite (i_running s (inv_reach s R)). destruct R as [es ->].
  assert (G : forall es u, (In GWait (calls u) -> version u <> 0) -> In GWait (calls (run u es)) -> version (run u es) <> 0); [|apply G; intros []].
  clear es. induction es as [|e es IH]; intros u H; [exact H|]. cbn. apply IH. clear IH. destruct e; cbn [step]; auto.
  - unfold new_watcher. destruct (spare u); auto.
  - unfold clone_watcher. destruct (find_watcher u i); [|auto]. destruct (_ && _); auto.
  - unfold poll. destruct (find_watcher u i); [|auto]. destruct (_ && _); [|auto]. cbn. destruct (react _ _); auto.
  - cbn. intros I. apply in_app_or in I as [I|[I|[]]]; [auto|discriminate].
  - cbn. intros I. apply in_app_or in I as [I|[I|[]]]; [auto|discriminate].
  - unfold advance. destruct (nth_error (calls u) n) as [c|]; [|auto].
    destruct c; auto; unfold send; repeat match goal with |- context [receivers u] => destruct (receivers u) end; cbn; auto; intros I; apply in_set_nth in I as [I|I]; try discriminate; auto; try lia.
  - unfold time_out. destruct (nth_error (calls u) n) as [[]|]; auto. cbn. intros I. apply in_set_nth in I as [I|I]; [discriminate|auto].
Qed.
Lemma finish_first s w l : watchers s = w :: l -> NoDup (map w_id (watchers s)) -> finish s (w_id w) = set_watchers s l.
Proof.
  intros E ND. unfold finish. rewrite E in *. cbn. rewrite N.eqb_refl. cbn. f_equal. inversion ND; subst.
  clear ND H2 E. induction l as [|x l IH]; [reflexivity|]. cbn. destruct (N.eqb_spec (w_id x) (w_id w)) as [Q|Q].
  - exfalso. apply H1. left. exact Q.
  - cbn. f_equal. apply IH. intros I. apply H1. right. exact I.
Qed.
(* if no listener drains and no websocket is open, a graceful shutdown is over once every
   task has looked, whatever has been announced in the meantime *)
Theorem C79_graceful_completes : forall s n, reach s -> nth_error (calls s) n = Some GWait ->
  (forall w, In w (watchers s) -> match w_kind w with TcpListener | StreamReader | StreamWriter | Requests => True | _ => False end) ->
  let t := run s (map (fun w => Poll (w_id w)) (watchers s) ++ [Advance n]) in
  watchers t = [] /\ nth_error (calls t) n = Some (Returned false).
Proof.
  intros s n R Nn K.
  assert (G : forall l u, reach u -> watchers u = l -> value u <> Running -> (forall w, In w l -> match w_kind w with TcpListener | StreamReader | StreamWriter | Requests => True | _ => False end) ->
     run u (map (fun w => Poll (w_id w)) l) = set_watchers u []).
  { clear. induction l as [|w l IH]; intros u R E V K; [cbn; destruct u; cbn in E; subst; reflexivity|]. cbn.
    assert (P : poll u (w_id w) = (finish u (w_id w), Some (value u))).
    { pose proof (C79_graceful_ends u w R V) as X. rewrite E in X. specialize (X (or_introl eq_refl)). specialize (K w (or_introl eq_refl)). destruct (w_kind w); tauto. }
    rewrite P. cbn [fst]. rewrite (finish_first u w l E (i_ids u (inv_reach u R))).
    change (fold_left step ?a ?b) with (run b a). rewrite IH; [reflexivity| |reflexivity|exact V|intros x J; apply K; right; exact J].
    rewrite <- (finish_first u w l E (i_ids u (inv_reach u R))). exact (reach_step u (Finish (w_id w)) R). }
  pose proof (waiting_announced s R (nth_error_In _ _ Nn)) as V.
  unfold run. rewrite fold_left_app. change (fold_left step ?a s) with (run s a). rewrite (G (watchers s) s R eq_refl V K). cbn [fold_left step].
  unfold advance. cbn [calls set_watchers]. rewrite Nn. unfold receivers. cbn [watchers spare set_watchers].
  rewrite (i_stopped s (inv_reach s R) _ (nth_error_In _ _ Nn) Logic.I). cbn. split; [reflexivity|eapply nth_set_nth, Nn].
Qed.

(* ================= what does not hold ================= *)
(* "a task that has not ended by the time shutdown(None) returns ends when it looks" fails
   if somebody asks for a graceful shutdown afterwards: it overwrites the announcement *)
Theorem C79_overtaken_refuted :
  ~ (forall s w, reach s -> In (Returned true) (calls s) -> In w (watchers s) -> w_kind w <> QuicDraining ->
       watchers (fst (poll s (w_id w))) = watchers (finish s (w_id w))).
Proof.
  intros H. set (s := run new [Watch WsReader; CallForced; Advance 0; Advance 0; CallGraceful; Advance 1; Advance 1]).
  specialize (H s (mk_watcher 0 WsReader 0) (ex_intro _ _ eq_refl) (or_introl eq_refl) (or_introl eq_refl)).
  cbn in H. assert (Z : WsReader <> QuicDraining) by discriminate. specialize (H Z). discriminate.
Qed.
(* a listener that waits for its connections to go idle is not told of a force *)
Theorem C79_draining_refuted : forall s w es, reach s -> In w (watchers s) -> w_kind w = QuicDraining ->
  ~ In (Finish (w_id w)) es -> In w (watchers (run s es)).
Proof.
  intros s w es R J K. revert s R J. induction es as [|e es IH]; intros s R J N; [exact J|]. cbn. apply IH.
  - apply reach_step, R.
  - pose proof (inv_reach s R) as I. destruct e; cbn [step].
    + unfold new_watcher. destruct (spare s); [|exact J]. cbn. apply in_or_app. auto.
    + unfold clone_watcher. destruct (find_watcher s i); [|exact J]. destruct (_ && _); [|exact J]. cbn. apply in_or_app. auto.
    + cbn. apply filter_In. split; [exact J|]. destruct (N.eqb_spec (w_id w) i) as [<-|]; [|reflexivity]. exfalso. apply N. left. reflexivity.
    + unfold poll. destruct (find_watcher s i) as [x|] eqn:W; [|exact J]. destruct (find_watcher_some _ _ _ W) as [Jx <-].
      destruct (polls (w_kind x) && _) eqn:P; [|exact J]. cbn [fst].
      assert (X : w_id w <> w_id x). { intros E. pose proof (find_watcher_in s w (i_ids s I) J) as Q. rewrite E, W in Q. injection Q as ->. rewrite K in P. discriminate. }
      destruct (react _ _); cbn; [apply filter_In; split; [exact J|]; destruct (N.eqb_spec (w_id w) (w_id x)); [congruence|reflexivity]| |];
        (apply in_map_iff; exists w; split; [|exact J]; destruct (N.eqb_spec (w_id w) (w_id x)); [congruence|reflexivity]).
    + exact J.
    + exact J.
    + unfold advance. destruct (nth_error (calls s) n) as [[]|]; auto; unfold send; repeat match goal with |- context [receivers s] => destruct (receivers s) end; cbn; auto.
    + unfold time_out. destruct (nth_error (calls s) n) as [[]|]; auto.
  - intros X. apply N. right. exact X.
Qed.
(* an open websocket takes a graceful shutdown for nothing: it goes on reading, so the call
   waits until its time is up, although nobody serves the websocket's requests any more *)
Theorem C79_websocket_refuted :
  let s := run new [Watch WsReader; Clone 0 Requests; CallGraceful; Advance 0; Advance 0; Poll 0; Poll 1] in
  reach s /\ map w_kind (watchers s) = [WsReader] /\ value s = GracefulShutdown /\ poll s 0 = (s, None) /\ advance s 0 = s.
Proof. split; [eexists; reflexivity|]. vm_compute. auto. Qed.
(* once a shutdown has returned with no task left and no force announced (a graceful one that
   was in time, or any of a server without listeners) should_shutdown() is false for ever,
   so listen_for_shutdown does not return *)
Theorem C79_should_shutdown_refuted : forall s es b, reach s -> In (Returned b) (calls s) -> watchers s = [] -> value s <> ForcedShutdown ->
  should_shutdown (run s es) = false.
Proof.
  intros s es b R I W V. pose proof (i_stopped s (inv_reach s R) _ I Logic.I) as SP.
  assert (G : forall es u, spare u = None -> watchers u = [] -> value u <> ForcedShutdown -> value (run u es) <> ForcedShutdown).
  { clear. induction es as [|e es IH]; intros u SP W V; [exact V|]. cbn.
    assert (Z : receivers u = 0%nat) by (apply receivers_0; auto).
    assert (X : spare (step u e) = None /\ watchers (step u e) = [] /\ value (step u e) = value u).
    { destruct e; cbn [step]; auto.
      - unfold new_watcher. rewrite SP. auto.
      - unfold clone_watcher, find_watcher. rewrite W. auto.
      - cbn. rewrite W. auto.
      - unfold poll, find_watcher. rewrite W. auto.
      - unfold advance. destruct (nth_error (calls u) n) as [c|]; [|auto]. destruct c; unfold send; rewrite ?Z; cbn; auto.
      - unfold time_out. destruct (nth_error (calls u) n) as [c|]; [|auto]. destruct c; auto. }
    destruct X as (X1 & X2 & X3). apply IH; congruence. }
  unfold should_shutdown. destruct (value (run s es)) eqn:E; auto. exfalso. apply (G es s SP W V E).
Qed.

(* ================= signals ================= *)
Definition sig_new : listener := mk_listener 0 SigRunning false.
Definition verdicts (es : list sig_event) : list verdict := snd (sig_run sig_new es).
Lemma sig_idle n es l : flag l = 0 -> sig l = SigRunning ->
  sig_run l (repeat (Iterate false false) n ++ es) = (fst (sig_run l es), repeat Again n ++ snd (sig_run l es)).
Proof.
  intros F S. induction n as [|n IH]; cbn [repeat app]; [destruct (sig_run l es); reflexivity|]. cbn [sig_run sig_step]. unfold iteration at 1. rewrite F, S. cbn.
  rewrite IH. reflexivity.
Qed.
(* without a signal and without a forced shutdown it goes on for ever; when a shutdown was
   forced it returns; SIGTERM forces one at once, even while a graceful one is under way *)
Theorem C79_listen : forall n q,
  verdicts (repeat (Iterate false false) n) = repeat Again n /\
  verdicts (repeat (Iterate false false) n ++ [Iterate true q]) = repeat Again n ++ [Return] /\
  (forall h, verdicts (repeat (Iterate false false) n ++ [Terminate; Iterate h q]) = repeat Again n ++ [Force]) /\
  (forall h, verdicts (repeat (Iterate false false) n ++ [Interrupt; Iterate h false; Terminate; Iterate h q]) = repeat Again n ++ [StartGraceful; Force]) /\
  (* an interrupt asks for a graceful shutdown; if that is over at once it returns *)
  (forall h, verdicts (repeat (Iterate false false) n ++ [Interrupt; Iterate h false]) = repeat Again n ++ [StartGraceful]) /\
  (forall h, verdicts (repeat (Iterate false false) n ++ [Interrupt; Iterate h true]) = repeat Again n ++ [Return]).
Proof.
  intros n q. unfold verdicts. repeat split; intros; try (rewrite sig_idle by reflexivity; reflexivity).
  rewrite <- (app_nil_r (repeat (Iterate false false) n)), sig_idle by reflexivity. cbn. apply app_nil_r.
Qed.
(* "a single interrupt lets a graceful shutdown have its 30 seconds": the flag is not reset, so the
   next look, 300 ms later, takes the same interrupt for a second one, even if the
   graceful shutdown is over *)
Theorem C79_one_interrupt_refuted : forall n h h' q (done : bool),
  verdicts (repeat (Iterate false false) n ++ [Interrupt; Iterate h false] ++ (if done then [GracefulDone] else []) ++ [Iterate h' q]) =
  repeat Again n ++ [StartGraceful; Force].
Proof. intros n h h' q done. unfold verdicts. rewrite sig_idle by reflexivity. destruct done, h, h', q; reflexivity. Qed.

(* ================= one stream ================= *)
Definition stream_reach (s : stream) : Prop := exists es, s = stream_run stream_new es.
Definition reads_of (es : list stream_event) : list N := flat_map (fun e => match e with Read r => [r] | _ => [] end) es.
Record sinv (s : stream) (es : list stream_event) : Prop := {
  (* everything a stage holds was asked for *)
  s_asked : forall r, In r (sent s) \/ In r (responses s) \/ In r (processing s) \/ In r (requests s) -> In r (reads_of es);
  (* before the announcement nothing is lost *)
  s_kept : told s = false -> reader s = true /\ handler s = true /\ writer s = true /\
     forall r, In r (reads_of es) -> In r (sent s) \/ In r (responses s) \/ In r (processing s) \/ In r (requests s)
}.
Lemma reads_of_app a b : reads_of (a ++ b) = reads_of a ++ reads_of b.
Proof. apply flat_map_app. Qed.
Lemma sinv_step s es e : sinv s es -> sinv (stream_step s e) (es ++ [e]).
Proof.
  intros [A B].
  assert (M : forall r, In r (reads_of es) -> In r (reads_of (es ++ [e]))) by (intros r I; rewrite reads_of_app; apply in_or_app; auto).
  assert (L : forall r, In r (reads_of (es ++ [e])) -> In r (reads_of es) \/ e = Read r).
  { intros r I. rewrite reads_of_app in I. apply in_app_or in I as [I|I]; [auto|]. destruct e; cbn in I; try tauto. destruct I as [->|[]]. auto. }
  constructor.
  - intros r I. destruct e; cbn [stream_step] in I.
    + apply M, A, I.
    + destruct (reader s); [|apply M, A, I]. cbn in I. destruct (handler s); [|apply M, A, I].
      destruct I as [I|[I|[I|I]]]; try (apply M, A; tauto). apply in_app_or in I as [I|[<-|[]]]; [apply M, A; tauto|]. rewrite reads_of_app. apply in_or_app. right. left. reflexivity.
    + destruct (handler s); [|apply M, A, I]. destruct (requests s) as [|x rs] eqn:Q; [rewrite Q in I; apply M, A, I|]. cbn in I. apply M, A.
      destruct I as [I|[I|[I|I]]]; auto; [|cbn; auto]. apply in_app_or in I as [I|[<-|[]]]; auto. cbn. auto.
    + destruct (existsb (N.eqb r0) (processing s)) eqn:X; [|apply M, A, I]. cbn in I. apply M, A.
      assert (P : In r0 (processing s)) by (apply existsb_exists in X as (y & Y & E); apply N.eqb_eq in E; subst; exact Y).
      destruct I as [I|[I|[I|I]]]; auto.
      * destruct (writer s); [|auto]. apply in_app_or in I as [I|[<-|[]]]; auto.
      * apply filter_In in I as [I _]. auto.
    + destruct (writer s); [|apply M, A, I]. destruct (responses s) as [|x rs] eqn:Q; [rewrite Q in I; apply M, A, I|]. cbn in I. apply M, A.
      destruct I as [I|[I|[I|I]]]; auto; [|cbn; auto]. apply in_app_or in I as [I|[<-|[]]]; auto. cbn. auto.
    + destruct (told s); apply M, A, I.
    + destruct (told s); [|apply M, A, I]. cbn in I. apply M, A. tauto.
    + destruct (told s); [|apply M, A, I]. cbn in I. apply M, A. tauto.
  - destruct e; cbn [stream_step]; try (destruct (told s) eqn:T; cbn; try congruence; intros _; destruct (B eq_refl) as (R1 & R2 & R3 & K);
      split; [exact R1|split; [exact R2|split; [exact R3|]]]; intros r I; apply L in I as [I|I]; [auto|discriminate]).
    + cbn. discriminate.
    + intros T. assert (T0 : told s = false) by (destruct (reader s); exact T). destruct (B T0) as (R1 & R2 & R3 & K). rewrite R1, R2. cbn.
      split; [reflexivity|split; [reflexivity|split; [exact R3|]]]. intros x I. apply L in I as [I|I].
      * destruct (K x I) as [?|[?|[?|?]]]; auto. do 3 right. apply in_or_app. auto.
      * injection I as ->. do 3 right. apply in_or_app. right. left. reflexivity.
    + intros T. assert (T0 : told s = false) by (destruct (handler s); [destruct (requests s)|]; exact T). destruct (B T0) as (R1 & R2 & R3 & K). rewrite R2.
      destruct (requests s) as [|y rs] eqn:Q; cbn.
      * split; [exact R1|split; [exact R2|split; [exact R3|]]]. intros x I. apply L in I as [I|I]; [rewrite Q|discriminate]. auto.
      * split; [exact R1|split; [reflexivity|split; [exact R3|]]]. intros x I. apply L in I as [I|I]; [|discriminate].
        destruct (K x I) as [?|[?|[?|[?|?]]]]; auto; right; right; left; apply in_or_app; cbn; auto.
    + intros T. assert (T0 : told s = false) by (destruct (existsb _ _); exact T). destruct (B T0) as (R1 & R2 & R3 & K). rewrite R3.
      destruct (existsb (N.eqb r) (processing s)) eqn:X; cbn.
      * split; [exact R1|split; [exact R2|split; [reflexivity|]]]. intros x I. apply L in I as [I|I]; [|discriminate].
        destruct (K x I) as [?|[?|[?|?]]]; auto; [right; left; apply in_or_app; auto|]. destruct (N.eqb_spec x r) as [->|Ne].
        -- right. left. apply in_or_app. cbn. auto.
        -- right. right. left. apply filter_In. split; [assumption|]. destruct (N.eqb_spec x r); [congruence|reflexivity].
      * split; [exact R1|split; [exact R2|split; [exact R3|]]]. intros x I. apply L in I as [I|I]; [auto|discriminate].
    + intros T. assert (T0 : told s = false) by (destruct (writer s); [destruct (responses s)|]; exact T). destruct (B T0) as (R1 & R2 & R3 & K). rewrite R3.
      destruct (responses s) as [|y rs] eqn:Q; cbn.
      * split; [exact R1|split; [exact R2|split; [exact R3|]]]. intros x I. apply L in I as [I|I]; [rewrite Q|discriminate]. auto.
      * split; [exact R1|split; [exact R2|split; [reflexivity|]]]. intros x I. apply L in I as [I|I]; [|discriminate].
        destruct (K x I) as [?|[[?|?]|[?|?]]]; auto; left; apply in_or_app; cbn; auto.
Qed.
Lemma sinv_run es : sinv (stream_run stream_new es) es.
Proof.
  assert (G : forall es s pre, sinv s pre -> sinv (stream_run s es) (pre ++ es)).
  { clear. induction es as [|e es IH]; intros s pre I; [rewrite app_nil_r; exact I|]. cbn. replace (pre ++ e :: es) with ((pre ++ [e]) ++ es) by (rewrite <- app_assoc; reflexivity).
    apply IH, sinv_step, I. }
  apply (G es stream_new []). constructor; cbn; [intros r; tauto|]. intros _. repeat split; auto.
Qed.
(* every answer answers a request, and until a shutdown is announced every request is
   answered or on its way *)
Theorem C79_stream : forall es, let s := stream_run stream_new es in
  (forall r, In r (sent s) -> In (Read r) es) /\
  (~ In Told es -> forall r, In (Read r) es -> In r (sent s) \/ In r (responses s) \/ In r (processing s) \/ In r (requests s)).
Proof.
  intros es s. pose proof (sinv_run es) as [A B]. fold s in A, B.
  assert (E : forall r, In r (reads_of es) <-> In (Read r) es).
  { intros r. unfold reads_of. rewrite in_flat_map. split.
    - intros ([] & I & J); cbn in J; try tauto. destruct J as [<-|[]]. exact I.
    - intros I. exists (Read r). split; [exact I|left; reflexivity]. }
  split.
  - intros r I. apply E, A. auto.
  - intros N r I. apply B; [|apply E, I]. clear - N. unfold s. clear s.
    assert (G : forall es s, ~ In Told es -> told s = false -> told (stream_run s es) = false); [|apply G; [exact N|reflexivity]].
    clear. induction es as [|e es IH]; intros s N T; [exact T|]. cbn. apply IH; [intros X; apply N; right; exact X|].
    destruct e; cbn [stream_step]; try (rewrite T; exact T).
    + exfalso. apply N. left. reflexivity.
    + destruct (reader s); exact T.
    + destruct (handler s); [destruct (requests s)|]; exact T.
    + destruct (existsb _ _); exact T.
    + destruct (writer s); [destruct (responses s)|]; exact T.
Qed.
Lemma writer_gone es : forall s, writer s = false -> sent (stream_run s es) = sent s.
Proof.
  induction es as [|e es IH]; intros s W; [reflexivity|]. cbn. assert (X : writer (stream_step s e) = false /\ sent (stream_step s e) = sent s); [|change (fold_left stream_step es ?x) with (stream_run x es); destruct X as [X <-]; exact (IH _ X)].
  destruct e; cbn [stream_step]; rewrite ?W;
    repeat match goal with |- context [if ?b then _ else _] => destruct b end; try destruct (requests s); cbn; auto.
Qed.
(* "outstanding requests are answered during a graceful shutdown": as soon as the writer
   has seen the announcement nothing more is sent, neither what is being worked on nor
   the responses that are ready *)
Theorem C79_outstanding_refuted :
  (forall s es, told s = true -> sent (stream_run (stream_step s WriterSees) es) = sent s) /\
  exists s, stream_reach s /\ told s = true /\ processing s = [1] /\ responses s = [2] /\ sent s = [].
Proof.
  split.
  - intros s es T. rewrite writer_gone; cbn [stream_step]; rewrite T; reflexivity.
  - exists (stream_run stream_new [Read 1; Read 2; Take; Take; Process 2; Told]). split; [eexists; reflexivity|]. vm_compute. auto.
Qed.
(* and a request that was read but not taken yet is never worked on *)
Theorem C79_queued_refuted :
  (forall s es r, told s = true -> ~ In r (processing s) -> In r (processing (stream_run (stream_step s HandlerSees) es)) -> False) /\
  exists s, stream_reach s /\ told s = true /\ requests s = [1].
Proof.
  split.
  - intros s es r T NP. assert (H : handler (stream_step s HandlerSees) = false) by (cbn [stream_step]; rewrite T; reflexivity).
    assert (P : processing (stream_step s HandlerSees) = processing s) by (cbn [stream_step]; rewrite T; reflexivity).
    rewrite <- P in NP. revert H NP. generalize (stream_step s HandlerSees). clear. induction es as [|e es IH]; intros s H NP I; [auto|]. cbn in I. apply (IH (stream_step s e)); auto.
    + destruct e; cbn [stream_step]; rewrite ?H;
        repeat match goal with |- context [if ?b then _ else _] => destruct b end; try destruct (responses s); cbn; auto.
    + destruct e; cbn [stream_step]; rewrite ?H;
        repeat match goal with |- context [if ?b then _ else _] => destruct b end; try destruct (responses s); cbn; auto;
        intros J; apply filter_In in J as [J _]; auto.
  - exists (stream_run stream_new [Read 1; Told]). split; [eexists; reflexivity|]. vm_compute. auto.
Qed.

(* ================= an execution ================= *)
(* two listeners, a QUIC stream with its three tasks and a websocket; graceful, then the timeout *)
Definition ex_shutdown : list event :=
  [Watch QuicListener; Watch TcpListener; Watch StreamReader; Clone 2 StreamWriter; Clone 2 Requests; Watch WsReader;
   CallGraceful; Advance 0; Advance 0; Poll 0; Poll 1; Poll 2; Poll 3; Poll 4; Poll 5].
Example C79_example :
  let s := run new ex_shutdown in
  map w_kind (watchers s) = [QuicDraining; WsReader] /\ calls s = [GWait] /\ snd (poll s 5) = None /\
  let t := run s [TimeOut 0; Advance 0; Advance 0] in
  calls t = [Returned true] /\ poll t 5 = (finish t 5, Some ForcedShutdown) /\ map w_kind (watchers (fst (poll t 5))) = [QuicDraining] /\
  should_shutdown t = true /\ new_watcher TcpListener t = (t, None).
Proof. vm_compute. repeat split; reflexivity. Qed.
(* the cases of the theorems: a forced call about to send; a graceful one that is over when all have looked *)
Example C79_example_forced :
  let s := run new [Watch TcpListener; Watch WsReader; CallForced; Advance 0] in
  nth_error (calls s) 0 = Some FSend /\ quiet s /\ poll (advance s 0) 1 = (finish (advance s 0) 1, Some ForcedShutdown).
Proof. vm_compute. split; [reflexivity|]. split; [|reflexivity]. intros c [<-|[]]. split; discriminate. Qed.
Example C79_example_graceful :
  let s := run new [Watch TcpListener; Watch StreamReader; Clone 1 StreamWriter; Clone 1 Requests; CallGraceful; Advance 0; Advance 0] in
  nth_error (calls s) 0 = Some GWait /\ length (watchers s) = 4%nat /\
  calls (run s (map (fun w => Poll (w_id w)) (watchers s) ++ [Advance 0])) = [Returned false].
Proof. vm_compute. auto. Qed.
Example C79_example_should :
  let s := run new [CallForced; Advance 0; Advance 0] in
  calls s = [Returned true] /\ watchers s = [] /\ value s = Running.
Proof. vm_compute. auto. Qed.
Example C79_example_draining :
  let s := run new (ex_shutdown ++ [TimeOut 0; Advance 0; Advance 0; CallForced; Advance 1; Advance 1; Poll 0; Poll 5]) in
  map w_kind (watchers s) = [QuicDraining] /\ value s = ForcedShutdown.
Proof. vm_compute. auto. Qed.

Print Assumptions C79_no_new_watchers.
Print Assumptions C79_not_spurious.
Print Assumptions C79_forced_ends.
Print Assumptions C79_remaining.
Print Assumptions C79_graceful_ends.
Print Assumptions C79_graceful_waits.
Print Assumptions C79_clean_return.
Print Assumptions C79_graceful_completes.
Print Assumptions C79_overtaken_refuted.
Print Assumptions C79_draining_refuted.
Print Assumptions C79_websocket_refuted.
Print Assumptions C79_should_shutdown_refuted.
Print Assumptions C79_listen.
Print Assumptions C79_one_interrupt_refuted.
Print Assumptions C79_stream.
Print Assumptions C79_outstanding_refuted.
Print Assumptions C79_queued_refuted.
