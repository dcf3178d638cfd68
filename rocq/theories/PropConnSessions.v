(* C65: a request is processed with the session it names only if that session was opened on the
   same connection and has not ended; otherwise with the unauthenticated session.
   C66: remote subscribers belong to one session of one connection, and each published message
   reaches exactly the subscribers following its topic.

   Specification: ConnSessionsProofs.active, owned and follows read the answer off the list of
   what happened (newest first); `recorded` below says, from the request and the reply alone,
   what is entered into that list. *)
From Coq Require Import List NArith Arith Bool Lia ZifyBool.
From Verif Require Import ConnSessions ConnSessionsProofs.
Import ListNotations.
Open Scope N_scope.

(* Every history of events from a server without connections. *)
Definition reached (dflt : perms) (h : list event) : state := run dflt init h.

(* What handling a request of session s (permissions p) of connection c enters into the list, by
   its reply.  up: the connection still exists; here: session s of it is still active;
   owner: what the subscriber named in the request belongs to. *)
Definition recorded (c : N) (s : option N) (p : perms) (cmd : command) (grant : option perms)
  (up here : bool) (owner : option (N * perms)) (r : reply) : list entry :=
  match cmd, r, owner with
  | Login, Session i, _ => match grant with Some q => if up then [ELogin c i q] else [] | None => [] end
  | LogOut i, Ok, _ => [ELogout c i]
  | CreateSubscriber db, Subscriber id, _ => if here then [ESub c s id db p] else []
  | SubscribeTo id t, Ok, Some (db, _) => [ETopic c s id db t]
  | UnsubscribeFrom id t, Ok, Some (db, _) => [EUntopic c s id db t]
  | Unregister id, Ok, _ => [EDrop c s id]
  | _, _, _ => []
  end.
Definition names (cmd : command) : N :=
  match cmd with SubscribeTo id _ | UnsubscribeFrom id _ | Unregister id => id | _ => 0 end.
Definition is_some {A} (x : option A) : bool := match x with Some _ => true | None => false end.

(* the storage still knows the session *)
Definition known (st : state) (s : option N) : Prop :=
  s = None \/ exists i q, s = Some i /\ In (i, q) (table st).

(* ---------- helpers ---------- *)
Lemma agree_sub : forall dflt st c s id, wf dflt st ->
  owned (log st) c s id =
  match find_session (c, s) (sessions st) with
  | Some x => match find_sub id x with Some b => Some (s_db b, s_perms b) | None => None end
  | None => None
  end.
Proof.
  intros dflt st c s id W. pose proof (wf_agrees _ _ W c s) as A.
  destruct (find_session (c, s) (sessions st)) as [x|]; [|apply A].
  destruct A as [_ A]. specialize (A id). destruct (find_sub id x); [apply A|exact A].
Qed.
Lemma agree_active : forall dflt st c s, wf dflt st ->
  active dflt (log st) c s = option_map c_perms (find_session (c, s) (sessions st)).
Proof.
  intros dflt st c s W. pose proof (wf_agrees _ _ W c s) as A.
  destruct (find_session (c, s) (sessions st)) as [x|]; apply A.
Qed.
Lemma lookup_in : forall i t q, lookup i t = Some q -> In (i, q) t.
Proof.
  intros i t q H. unfold lookup in H. destruct (find _ t) as [[j y]|] eqn:F; [|discriminate].
  inversion H; subst. apply find_some in F. destruct F as [F1 F2]. cbn in F2. apply N.eqb_eq in F2. subst. exact F1.
Qed.
Lemma lookup_none : forall i t q, lookup i t = None -> ~ In (i, q) t.
Proof.
  intros i t q H C. unfold lookup in H. destruct (find _ t) as [e|] eqn:F; [discriminate|].
  pose proof (find_none _ _ F _ C) as G. cbn in G. rewrite N.eqb_refl in G. discriminate.
Qed.

(* the permissions a handled request runs with are those it was accepted with *)
Lemma assumed : forall dflt st k j, wf dflt st -> nth_error (pending st) k = Some j ->
  (known st (j_sid j) /\ exists p, assume (table st) (j_sid j) (j_perms j) = Some p /\ forall a, p a = j_perms j a) \/
  (~ known st (j_sid j) /\ assume (table st) (j_sid j) (j_perms j) = None).
Proof.
  intros dflt st k j W H. apply nth_error_In in H. unfold assume, known.
  destruct (j_sid j) as [i|] eqn:S.
  - destruct (lookup i (table st)) as [q|] eqn:L.
    + left. pose proof (lookup_in _ _ _ L) as I. split; [right; eauto|].
      exists (merged (j_perms j) q). split; [reflexivity|]. intros a. unfold merged.
      rewrite (wf_tperm2 _ _ W i q j I H S). apply orb_diag.
    + right. split; [|reflexivity]. intros [C|(i' & q & E & C)]; [discriminate|]. inversion E; subst i'.
      exact (lookup_none _ _ _ L C).
  - left. split; [auto|]. exists (j_perms j). auto.
Qed.

Lemma step_handle : forall dflt st k grant j, nth_error (pending st) k = Some j ->
  step dflt st (Handle k grant) =
  let st' := mkSt (sessions st) (table st) (last_sid st) (last_sub st) (remove_nth k (pending st)) (sent st) (log st) in
  match assume (table st) (j_sid j) (j_perms j) with
  | None => (st', Some Err)
  | Some p => let (st2, r) := handle st' (j_conn j) (j_sid j) p (j_cmd j) grant in (st2, Some r)
  end.
Proof. intros. cbn [step]. rewrite H. reflexivity. Qed.

(* ================= C65 ================= *)

(* A request is accepted with the session it names if that is active on its connection, with
   the permissions of that login; otherwise it becomes unauthenticated. *)
Theorem C65_accepted_as : forall dflt h c s cmd st, st = reached dflt h ->
  (active dflt (log st) c None = None -> fst (step dflt st (Request c s cmd)) = st) /\
  (active dflt (log st) c None <> None ->
   exists j, pending (fst (step dflt st (Request c s cmd))) = pending st ++ [j] /\
     j_conn j = c /\ j_cmd j = cmd /\
     (forall p, active dflt (log st) c s = Some p -> j_sid j = s /\ j_perms j = p) /\
     (active dflt (log st) c s = None -> j_sid j = None /\ j_perms j = dflt)).
Proof.
  intros dflt h c s cmd st ->. pose proof (wf_reach dflt h) as W. unfold reached in *. set (st := run dflt init h) in *. clearbody st.
  rewrite !(agree_active _ _ _ _ W). cbn [step]. split.
  - intros H. destruct (find_session (c, None) (sessions st)); [discriminate|reflexivity].
  - intros H. destruct (find_session (c, None) (sessions st)) eqn:E; [|exfalso; apply H; reflexivity]. cbn [fst pending].
    eexists. split; [reflexivity|]. destruct (find_session (c, s) (sessions st)); cbn [option_map j_conn j_cmd j_sid j_perms]; repeat apply conj; auto; try discriminate.
    intros p Q. inversion Q. auto.
Qed.

(* A handled request is allowed what it was accepted with, and nothing else: the reply to a
   request needing action a is Ok exactly if the permissions it was accepted with allow a and
   the storage still knows its session. *)
Theorem C65_allowed_exactly : forall dflt h k grant j a st, st = reached dflt h ->
  nth_error (pending st) k = Some j -> j_cmd j = Other a ->
  snd (step dflt st (Handle k grant)) = Some (if j_perms j a then Ok else Err) /\ known st (j_sid j) \/
  snd (step dflt st (Handle k grant)) = Some Err /\ ~ known st (j_sid j).
Proof.
  intros dflt h k grant j a st -> H C. pose proof (wf_reach dflt h) as W. unfold reached in *. set (st := run dflt init h) in *. clearbody st.
  rewrite (step_handle _ _ _ _ _ H). cbv zeta.
  destruct (assumed _ _ _ _ W H) as [(K & p & A & P)|(K & A)]; rewrite A.
  - left. rewrite C. cbn [handle]. cbn [snd]. rewrite P. auto.
  - right. auto.
Qed.

(* Whatever session a request was accepted with: it is unauthenticated with the default
   permissions, or a login on that very connection granted exactly these permissions. *)
Theorem C65_from_own_login : forall dflt h c s p st, st = reached dflt h ->
  active dflt (log st) c s = Some p ->
  (s = None /\ p = dflt) \/ exists i, s = Some i /\ In (ELogin c i p) (log st).
Proof.
  intros dflt h c s p st _. induction (log st) as [|e l IH]; cbn [active]; intros H; [discriminate|].
  assert (G : active dflt l c s = Some p -> (s = None /\ p = dflt) \/ exists i, s = Some i /\ In (ELogin c i p) (e :: l)).
  { intros H'. destruct (IH H') as [?|(i & ? & ?)]; [auto|]. right. exists i. split; [assumption|]. right. assumption. }
  destruct e as [d|d|d i q|d i|d s' id db q|d s' id|d s' id db t|d s' id db t]; auto.
  - destruct (_ && _) eqn:E in H; auto. apply andb_true_iff in E. destruct E as [_ E]. apply opt_eqb_eq in E. inversion H. auto.
  - destruct (_ =? _) in H; [discriminate|auto].
  - destruct (_ && _) eqn:E in H; auto. apply andb_true_iff in E. destruct E as [E1 E]. apply opt_eqb_eq in E.
    apply N.eqb_eq in E1. inversion H; subst. right. exists i. split; [reflexivity|left; reflexivity].
  - destruct (_ && _) in H; [discriminate|auto].
Qed.

(* What handling a request records, from the request and its reply. *)
Theorem C65_recorded : forall dflt h k grant j r st st', st = reached dflt h ->
  nth_error (pending st) k = Some j -> step dflt st (Handle k grant) = (st', Some r) ->
  exists p, (forall a, p a = j_perms j a) /\
  log st' = recorded (j_conn j) (j_sid j) p (j_cmd j) grant
              (is_some (active dflt (log st) (j_conn j) None))
              (is_some (active dflt (log st) (j_conn j) (j_sid j)))
              (owned (log st) (j_conn j) (j_sid j) (names (j_cmd j))) r ++ log st.
Proof.
  intros dflt h k grant j r st st' -> H S. pose proof (wf_reach dflt h) as W. unfold reached in *. set (st := run dflt init h) in *. clearbody st.
  rewrite (step_handle _ _ _ _ _ H) in S. cbv zeta in S. rewrite !(agree_active _ _ _ _ W), (agree_sub _ _ _ _ _ W).
  destruct (assumed _ _ _ _ W H) as [(K & p & A & P)|(K & A)]; rewrite A in S.
  - exists p. split; [exact P|]. destruct (j_cmd j) as [|i|db|id t|id t|id|db t m|a]; cbn [handle sessions names] in *.
    + destruct grant as [q|]; [|inversion S; subst; reflexivity].
      destruct (find_session (j_conn j, None) (sessions st)) eqn:F; inversion S; subst; reflexivity.
    + inversion S; subst. reflexivity.
    + destruct (p (ACreate db)); [|inversion S; subst; reflexivity].
      destruct (find_session (j_conn j, j_sid j) (sessions st)) eqn:F; inversion S; subst; reflexivity.
    + destruct (find_session (j_conn j, j_sid j) (sessions st)) eqn:F; [|inversion S; subst; reflexivity].
      destruct (find_sub id _) as [b|] eqn:FS; [|inversion S; subst; reflexivity].
      destruct (s_perms b _) eqn:Z; inversion S; subst; reflexivity.
    + destruct (find_session (j_conn j, j_sid j) (sessions st)) eqn:F; [|inversion S; subst; reflexivity].
      destruct (find_sub id _) as [b|] eqn:FS; [|inversion S; subst; reflexivity].
      destruct (s_perms b _) eqn:Z; inversion S; subst; reflexivity.
    + destruct (find_session (j_conn j, j_sid j) (sessions st)) eqn:F; [|inversion S; subst; reflexivity].
      destruct (find_sub id _) as [b|] eqn:FS; inversion S; subst; reflexivity.
    + destruct (p (APublish db t)); inversion S; subst; reflexivity.
    + destruct (p a); inversion S; subst; reflexivity.
  - exists (j_perms j). split; [auto|]. inversion S; subst. cbn [log]. destruct (j_cmd j); reflexivity.
Qed.

(* A request is always answered; login and subscriber creation tell success by an id. *)
Theorem C65_answers : forall dflt h k grant j st, st = reached dflt h ->
  nth_error (pending st) k = Some j ->
  exists r, snd (step dflt st (Handle k grant)) = Some r /\
    pending (fst (step dflt st (Handle k grant))) = remove_nth k (pending st) /\
  (known st (j_sid j) ->
   match j_cmd j with
   | Login => if is_some grant then exists i, r = Session i else r = Err
   | LogOut _ => r = Ok
   | CreateSubscriber db => if j_perms j (ACreate db) then exists id, r = Subscriber id else r = Err
   | SubscribeTo id t => r = match owned (log st) (j_conn j) (j_sid j) id with
                             | Some (db, p) => if p (ASubscribe db t) then Ok else Err | None => Err end
   | UnsubscribeFrom id t => r = match owned (log st) (j_conn j) (j_sid j) id with
                             | Some (db, p) => if p (AUnsubscribe db t) then Ok else Err | None => Err end
   | Unregister id => r = if is_some (owned (log st) (j_conn j) (j_sid j) id) then Ok else Err
   | Publish db t _ => r = if j_perms j (APublish db t) then Ok else Err
   | Other a => r = if j_perms j a then Ok else Err
   end) /\ (~ known st (j_sid j) -> r = Err).
Proof.
  intros dflt h k grant j st -> H. pose proof (wf_reach dflt h) as W. unfold reached in *. set (st := run dflt init h) in *. clearbody st.
  rewrite (step_handle _ _ _ _ _ H). cbv zeta.
  destruct (assumed _ _ _ _ W H) as [(K & p & A & P)|(K & A)]; rewrite A.
  2:{ exists Err. cbn [fst snd pending]. repeat apply conj; auto. intros C. contradiction. }
  pose proof (agree_sub _ _ (j_conn j) (j_sid j) (names (j_cmd j)) W) as O.
  destruct (j_cmd j) as [|i|db|id t|id t|id|db t m|a]; cbn [handle sessions names] in *; try rewrite O; try rewrite <- (P (ACreate db)); try rewrite <- P.
  - destruct grant as [q|]; [|exists Err; cbn; repeat apply conj; auto; contradiction].
    destruct (find_session (j_conn j, None) (sessions st)); eexists; cbn; repeat apply conj; eauto; contradiction.
  - eexists; cbn; repeat apply conj; eauto; contradiction.
  - destruct (p (ACreate db)); [|eexists; cbn; repeat apply conj; eauto; contradiction].
    destruct (find_session (j_conn j, j_sid j) (sessions st)); eexists; cbn; repeat apply conj; eauto; contradiction.
  - destruct (find_session (j_conn j, j_sid j) (sessions st)); [destruct (find_sub id _) as [b|]; [destruct (s_perms b _)|]|];
      eexists; cbn; repeat apply conj; eauto; contradiction.
  - destruct (find_session (j_conn j, j_sid j) (sessions st)); [destruct (find_sub id _) as [b|]; [destruct (s_perms b _)|]|];
      eexists; cbn; repeat apply conj; eauto; contradiction.
  - destruct (find_session (j_conn j, j_sid j) (sessions st)); [destruct (find_sub id _) as [b|]|];
      eexists; cbn; repeat apply conj; eauto; contradiction.
  - destruct (p (APublish db t)); eexists; cbn; repeat apply conj; eauto; contradiction.
  - destruct (p a); eexists; cbn; repeat apply conj; eauto; contradiction.
Qed.

(* A login hands out an id that never was a session of any connection; from then on exactly
   that connection has it, with the granted permissions. *)
Theorem C65_login_fresh : forall dflt h k q j i st st', st = reached dflt h ->
  nth_error (pending st) k = Some j -> j_cmd j = Login ->
  step dflt st (Handle k (Some q)) = (st', Some (Session i)) ->
  (forall c p, ~ In (ELogin c i p) (log st)) /\ (forall c, active dflt (log st) c (Some i) = None) /\
  (active dflt (log st) (j_conn j) None <> None -> active dflt (log st') (j_conn j) (Some i) = Some q) /\
  (forall c, c <> j_conn j -> active dflt (log st') c (Some i) = None) /\
  (forall c s, s <> Some i -> active dflt (log st') c s = active dflt (log st) c s).
Proof.
  intros dflt h k q j i st st' -> H C S. pose proof (C65_recorded _ _ _ _ _ _ _ _ eq_refl H S) as (p & P & L).
  pose proof (wf_reach dflt h) as W. unfold reached in *. set (st := run dflt init h) in *. clearbody st.
  assert (I : i = last_sid st + 1).
  { rewrite (step_handle _ _ _ _ _ H) in S. cbv zeta in S. destruct (assume _ _ _); [|discriminate]. rewrite C in S. cbn [handle] in S.
    destruct (find_session _ (sessions st)); inversion S; reflexivity. }
  rewrite C in L. cbn [recorded app] in L.
  assert (A : forall c, active dflt (log st) c (Some i) = None).
  { intros c. rewrite (agree_active _ _ _ _ W). destruct (find_session (c, Some i) (sessions st)) eqn:F; [|reflexivity].
    apply fs_key, (wf_sid _ _ W) in F. lia. }
  repeat apply conj; auto.
  - intros c p' I'. apply (wf_logins _ _ W) in I'. lia.
  - intros U. destruct (active dflt (log st) (j_conn j) None); [|congruence]. cbn [is_some app] in L. rewrite L. cbn [active].
    rewrite N.eqb_refl. cbn [opt_eqb andb]. rewrite N.eqb_refl. reflexivity.
  - intros c Nc. rewrite L. destruct (is_some _); cbn [app active]; [|apply A].
    destruct (j_conn j =? c) eqn:E; [apply N.eqb_eq in E; congruence|]. cbn [andb]. apply A.
  - intros c s Ns. rewrite L. destruct (is_some _); cbn [app active]; [|reflexivity].
    destruct (opt_eqb s (Some i)) eqn:E; [apply opt_eqb_eq in E; congruence|]. rewrite andb_false_r. reflexivity.
Qed.

(* A session id is active on at most one connection. *)
Lemma active_login : forall dflt st c i p, active dflt (log st) c (Some i) = Some p -> In (ELogin c i p) (log st).
Proof.
  intros dflt st c i p. induction (log st) as [|e l IH]; cbn [active]; intros H; [discriminate|].
  destruct e as [d|d|d k q|d k|d s' id db q|d s' id|d s' id db t|d s' id db t]; try (right; apply IH; exact H).
  - cbn [opt_eqb] in H. rewrite andb_false_r in H. right. auto.
  - destruct (_ =? _) in H; [discriminate|right; auto].
  - destruct (_ && _) eqn:E in H; [|right; auto]. apply andb_true_iff in E. destruct E as [E1 E]. apply opt_eqb_eq in E. apply N.eqb_eq in E1.
    inversion H; inversion E; subst. left. reflexivity.
  - destruct (_ && _) in H; [discriminate|right; auto].
Qed.
Lemma once : forall dflt st c i p c' p', wf dflt st -> In (ELogin c i p) (log st) -> In (ELogin c' i p') (log st) ->
  c = c' /\ p = p'.
Proof.
  intros dflt st c i p c' p' W H H'. pose proof (wf_once _ _ W) as O. clear W.
  apply in_split in H. destruct H as (l1 & l2 & E). pose proof (O _ _ _ _ _ E) as O1.
  rewrite E in H'. apply in_app_or in H'. destruct H' as [H'|[H'|H']].
  - apply in_split in H'. destruct H' as (l3 & l4 & E2). subst l1. rewrite <- app_assoc in E. cbn [app] in E.
    exfalso. eapply (O _ _ _ _ _ E c p). apply in_or_app. right. left. reflexivity.
  - inversion H'. auto.
  - exfalso. exact (O1 _ _ H').
Qed.
Theorem C65_one_connection : forall dflt h c c' i p p' st, st = reached dflt h ->
  active dflt (log st) c (Some i) = Some p -> active dflt (log st) c' (Some i) = Some p' -> c = c' /\ p = p'.
Proof.
  intros dflt h c c' i p p' st -> H H'. eapply once; [apply (wf_reach dflt h)| |]; eapply active_login; eassumption.
Qed.

(* The events a step records besides handled requests. *)
Lemma step_log : forall dflt st ev, wf dflt st ->
  log (fst (step dflt st ev)) = log st \/
  exists e, log (fst (step dflt st ev)) = e :: log st /\
    (forall c i p, e = ELogin c i p -> i = last_sid st + 1 /\ last_sid (fst (step dflt st ev)) = i).
Proof.
  intros dflt st ev W. destruct ev as [c|c|c s cmd|k grant|i]; cbn [step].
  - destruct (find_session _ _); cbn [fst log]; [auto|right; eexists; split; [reflexivity|discriminate]].
  - right. cbn [fst log]. eexists; split; [reflexivity|discriminate].
  - destruct (find_session (c, None) _); cbn [fst log]; auto.
  - destruct (nth_error (pending st) k) as [j|]; [|auto]. destruct (assume _ _ _) as [p|]; [|auto].
    destruct (j_cmd j) as [|i|db|id t|id t|id|db t m|a]; cbn [handle].
    + destruct grant as [q|]; [|auto]. destruct (find_session _ _); cbn [fst log]; [|auto].
      right. eexists. split; [reflexivity|]. cbn [last_sid]. intros c0 i0 p0 E. inversion E. auto.
    + right. eexists; split; [reflexivity|discriminate].
    + destruct (p _); [|auto]. destruct (find_session _ _); cbn [fst log]; [|auto]. right. eexists; split; [reflexivity|discriminate].
    + destruct (find_session _ _); [|auto]. destruct (find_sub id _) as [b|]; [|auto]. destruct (s_perms b _); [|auto].
      right. eexists; split; [reflexivity|discriminate].
    + destruct (find_session _ _); [|auto]. destruct (find_sub id _) as [b|]; [|auto]. destruct (s_perms b _); [|auto].
      right. eexists; split; [reflexivity|discriminate].
    + destruct (find_session _ _); [|auto]. destruct (find_sub id _) as [b|]; [|auto]. right. eexists; split; [reflexivity|discriminate].
    + destruct (p _); auto.
    + destruct (p a); auto.
  - auto.
Qed.
Lemma sid_grows : forall dflt st ev, last_sid st <= last_sid (fst (step dflt st ev)).
Proof.
  intros dflt st ev. destruct ev as [c|c|c s cmd|k grant|i]; cbn [step].
  - destruct (find_session _ _); cbn; lia.
  - cbn; lia.
  - destruct (find_session (c, None) _); cbn; lia.
  - destruct (nth_error (pending st) k) as [j|]; [|cbn; lia]. destruct (assume _ _ _) as [p|]; [|cbn; lia].
    destruct (j_cmd j) as [|i|db|id t|id t|id|db t m|a]; cbn [handle];
      repeat first [match goal with |- context [find_session ?a ?b] => destruct (find_session a b) end
                   |match goal with |- context [find_sub ?a ?b] => destruct (find_sub a b) end
                   |match goal with |- context [if ?b then _ else _] => destruct b end
                   |destruct grant]; cbn [fst last_sid]; lia.
  - cbn; lia.
Qed.
Lemma dead_stays : forall dflt h st c i, wf dflt st -> i <= last_sid st -> active dflt (log st) c (Some i) = None ->
  active dflt (log (run dflt st h)) c (Some i) = None.
Proof.
  induction h as [|ev h IH]; intros st c i W L A; cbn [run]; [exact A|].
  apply IH; [apply wf_step; exact W|pose proof (sid_grows dflt st ev); lia|].
  destruct (step_log dflt st ev W) as [E|(e & E & F)]; rewrite E; [exact A|].
  destruct e as [d|d|d k q|d k|d s' id db q|d s' id|d s' id db t|d s' id db t]; cbn [active]; auto.
  - cbn [opt_eqb]. rewrite andb_false_r. exact A.
  - destruct (d =? c); auto.
  - destruct (F _ _ _ eq_refl) as [F1 _]. cbn [opt_eqb]. replace (i =? k) with false by lia. rewrite andb_false_r. exact A.
  - destruct (_ && _); auto.
Qed.
Lemma run_app : forall dflt h1 h2 st, run dflt st (h1 ++ h2) = run dflt (run dflt st h1) h2.
Proof. induction h1 as [|a h1 IH]; intros; cbn [run app]; [reflexivity|apply IH]. Qed.

(* Logging out ends that session of the connection for good and touches no other; the reply to
   a log out is Ok whether or not the session existed. *)
Theorem C65_logout_ends : forall dflt h k grant j i st st', st = reached dflt h ->
  nth_error (pending st) k = Some j -> j_cmd j = LogOut i ->
  step dflt st (Handle k grant) = (st', Some Ok) ->
  (forall c s, active dflt (log st') c s = if (c =? j_conn j) && opt_eqb s (Some i) then None else active dflt (log st) c s) /\
  (forall id, owned (log st') (j_conn j) (Some i) id = None) /\
  (forall c p, In (ELogin c i p) (log st) ->
     forall h2, active dflt (log (run dflt st' h2)) (j_conn j) (Some i) = None).
Proof.
  intros dflt h k grant j i st st' -> H C S. pose proof (C65_recorded _ _ _ _ _ _ _ _ eq_refl H S) as (p & P & L).
  pose proof (wf_reach dflt h) as W. unfold reached in *.
  assert (W2 : wf dflt st') by (replace st' with (fst (step dflt (run dflt init h) (Handle k grant))) by (rewrite S; reflexivity); apply wf_step, W).
  assert (G : last_sid (run dflt init h) <= last_sid st') by (replace st' with (fst (step dflt (run dflt init h) (Handle k grant))) by (rewrite S; reflexivity); apply sid_grows).
  set (st := run dflt init h) in *. clearbody st. rewrite C in L. cbn [recorded app] in L.
  assert (Z : forall c s, active dflt (log st') c s = if (c =? j_conn j) && opt_eqb s (Some i) then None else active dflt (log st) c s).
  { intros c s. rewrite L. cbn [active]. rewrite (N.eqb_sym c). reflexivity. }
  repeat apply conj.
  - exact Z.
  - intros id. rewrite L. cbn [owned]. rewrite N.eqb_refl. cbn [opt_eqb andb]. rewrite N.eqb_refl. reflexivity.
  - intros c p' I h2. apply dead_stays; [exact W2|apply (wf_logins _ _ W) in I; lia|].
    rewrite Z, N.eqb_refl. cbn [opt_eqb andb]. rewrite N.eqb_refl. reflexivity.
Qed.

(* A closed connection has no session; its logins never come back, even if its id is used again. *)
Theorem C65_disconnect_ends : forall dflt h c st, st = reached dflt h ->
  let st' := fst (step dflt st (Disconnect c)) in
  (forall s, active dflt (log st') c s = None) /\ (forall s id, owned (log st') c s id = None) /\
  (forall d s, d <> c -> active dflt (log st') d s = active dflt (log st) d s) /\
  (forall i p, In (ELogin c i p) (log st) -> forall h2, active dflt (log (run dflt st' h2)) c (Some i) = None).
Proof.
  intros dflt h c st -> st'. pose proof (wf_reach dflt h) as W. unfold reached in *.
  assert (W2 : wf dflt st') by (apply wf_step, W). assert (G : last_sid (run dflt init h) <= last_sid st') by apply sid_grows.
  assert (L : log st' = EDown c :: log (run dflt init h)) by reflexivity. clearbody st'.
  set (st := run dflt init h) in *. clearbody st. rewrite L. repeat apply conj.
  - intros s. cbn [active]. rewrite N.eqb_refl. reflexivity.
  - intros s id. cbn [owned]. rewrite N.eqb_refl. reflexivity.
  - intros d s Nd. cbn [active]. destruct (c =? d) eqn:E; [apply N.eqb_eq in E; congruence|reflexivity].
  - intros i p I h2. apply dead_stays; [exact W2|apply (wf_logins _ _ W) in I; lia|]. rewrite L. cbn [active]. rewrite N.eqb_refl. reflexivity.
Qed.

(* A connection's requests act for it alone: handling one changes no session of another
   connection, nor any subscriber of a session other than its own (except by logging out). *)
Theorem C65_no_interference : forall dflt h k grant j r st st' c s, st = reached dflt h ->
  nth_error (pending st) k = Some j -> step dflt st (Handle k grant) = (st', Some r) ->
  (c <> j_conn j -> active dflt (log st') c s = active dflt (log st) c s) /\
  ((c, s) <> (j_conn j, j_sid j) -> (forall i, c = j_conn j -> s = Some i -> j_cmd j <> LogOut i) ->
   forall id, owned (log st') c s id = owned (log st) c s id /\ forall t, follows (log st') c s id t = follows (log st) c s id t).
Proof.
  intros dflt h k grant j r st st' c s E H S. pose proof (C65_recorded _ _ _ _ _ _ _ _ E H S) as (p & P & L).
  set (U := is_some (active dflt (log st) (j_conn j) None)) in *. set (V := is_some (active dflt (log st) (j_conn j) (j_sid j))) in *.
  set (O := owned (log st) (j_conn j) (j_sid j) (names (j_cmd j))) in *. clearbody U V O. rewrite L. clear S L E H.
  split.
  - intros Nc. assert (X : (j_conn j =? c) = false) by lia. unfold recorded.
    destruct (j_cmd j); destruct r; try reflexivity; cbn [app active].
    + destruct grant; [|reflexivity]. destruct U; [|reflexivity]. cbn [app active]. rewrite X. reflexivity.
    + rewrite X. reflexivity.
    + destruct V; reflexivity.
    + destruct O as [[db q]|]; reflexivity.
    + destruct O as [[db q]|]; reflexivity.
  - intros Nk NL id. assert (X : key_eqb (j_conn j, j_sid j) (c, s) = false).
    { destruct (key_eqb _ _) eqn:K; [|reflexivity]. apply key_eqb_eq in K. congruence. }
    unfold recorded. destruct (j_cmd j) eqn:J; destruct r; try (split; reflexivity); cbn [app owned follows].
    + destruct grant; [|split; reflexivity]. destruct U; split; reflexivity.
    + destruct (_ && _) eqn:Y; [|split; reflexivity]. apply andb_true_iff in Y. destruct Y as [Y1 Y2]. apply N.eqb_eq in Y1. apply opt_eqb_eq in Y2.
      exfalso. eapply NL; [symmetry; exact Y1|exact Y2|reflexivity].
    + destruct V; cbn [app owned follows]; [rewrite X|]; split; reflexivity.
    + destruct O as [[d q]|]; cbn [app owned follows]; [rewrite X|]; split; reflexivity.
    + destruct O as [[d q]|]; cbn [app owned follows]; [rewrite X|]; split; reflexivity.
    + rewrite X. split; reflexivity.
Qed.

(* ================= C66 ================= *)

(* Subscriber ids: a new one was never used, and an id belongs to one session only. *)
Theorem C66_fresh : forall dflt h k grant j id db st st', st = reached dflt h ->
  nth_error (pending st) k = Some j -> j_cmd j = CreateSubscriber db ->
  step dflt st (Handle k grant) = (st', Some (Subscriber id)) ->
  (forall c s d p, ~ In (ESub c s id d p) (log st)) /\
  (active dflt (log st) (j_conn j) (j_sid j) <> None ->
   exists p, owned (log st') (j_conn j) (j_sid j) id = Some (db, p) /\ (forall a, p a = j_perms j a) /\
     forall t, follows (log st') (j_conn j) (j_sid j) id t = false).
Proof.
  intros dflt h k grant j id db st st' -> H C S. pose proof (C65_recorded _ _ _ _ _ _ _ _ eq_refl H S) as (p & P & L).
  pose proof (wf_reach dflt h) as W. unfold reached in *. set (st := run dflt init h) in *. clearbody st.
  assert (I : id = last_sub st + 1).
  { rewrite (step_handle _ _ _ _ _ H) in S. cbv zeta in S. destruct (assume _ _ _) as [q|]; [|discriminate]. rewrite C in S. cbn [handle] in S.
    destruct (q _); [|discriminate]. destruct (find_session _ (sessions st)); inversion S; reflexivity. }
  split.
  - intros c s d p' I'. apply (wf_subs _ _ W) in I'. lia.
  - intros A. destruct (active dflt (log st) (j_conn j) (j_sid j)) eqn:Ea; [|congruence].
    exists p. rewrite C in L. cbn [recorded is_some app] in L. rewrite L. cbn [owned follows]. rewrite key_eqb_refl, N.eqb_refl. auto.
Qed.

Lemma owned_unique_key : forall se c s c' s' id x x' b b', NoDup (unique_ids se) ->
  In ((c, s), x) se -> In ((c', s'), x') se -> In b (c_subs x) -> In b' (c_subs x') -> s_id b = id -> s_id b' = id ->
  (c, s) = (c', s').
Proof.
  induction se as [|e se IH]; intros c s c' s' id x x' b b' D I I' B B' J J'; [destruct I|].
  cbn [unique_ids flat_map] in D. fold (unique_ids se) in D.
  assert (D2 : NoDup (unique_ids se)) by (clear -D; induction (map s_id (c_subs (snd e))) as [|a l IHl]; [exact D|inversion D; subst; auto]).
  assert (X : forall i, In i (map s_id (c_subs (snd e))) -> In i (unique_ids se) -> False).
  { clear -D. induction (map s_id (c_subs (snd e))) as [|a l IHl]; intros i H1 H2; [destruct H1|]. inversion D as [|? ? D1 D2]; subst.
    destruct H1 as [->|H1]; [apply D1; apply in_or_app; auto|eauto]. }
  destruct I as [I|I], I' as [I'|I'].
  - congruence.
  - exfalso. subst e. cbn [snd] in X. apply (X id); [rewrite <- J; now apply in_map|rewrite <- J'; eapply ids_in; eassumption].
  - exfalso. subst e. cbn [snd] in X. apply (X id); [rewrite <- J'; now apply in_map|rewrite <- J; eapply ids_in; eassumption].
  - eapply IH; eassumption.
Qed.

Theorem C66_one_owner : forall dflt h c s c' s' id o o' st, st = reached dflt h ->
  owned (log st) c s id = Some o -> owned (log st) c' s' id = Some o' -> c = c' /\ s = s' /\ o = o'.
Proof.
  intros dflt h c s c' s' id o o' st -> H H'. pose proof (wf_reach dflt h) as W. unfold reached in *. set (st := run dflt init h) in *. clearbody st.
  assert (K : (c, s) = (c', s')).
  { rewrite (agree_sub _ _ _ _ _ W) in H. rewrite (agree_sub _ _ _ _ _ W) in H'.
    destruct (find_session (c, s) (sessions st)) as [x|] eqn:F; [|discriminate]. destruct (find_sub id x) as [b|] eqn:G; [|discriminate].
    destruct (find_session (c', s') (sessions st)) as [x'|] eqn:F'; [|discriminate]. destruct (find_sub id x') as [b'|] eqn:G'; [|discriminate].
    destruct (find_sub_id _ _ _ G) as [E1 E2]. destruct (find_sub_id _ _ _ G') as [E3 E4].
    eapply owned_unique_key; [exact (wf_ids _ _ W)|apply fs_in; exact F|apply fs_in; exact F'|exact E2|exact E4|exact E1|exact E3]. }
  inversion K; subst. repeat apply conj; auto. congruence.
Qed.

(* A subscriber lives only as long as its session. *)
Theorem C66_needs_session : forall dflt h c s id o st, st = reached dflt h ->
  owned (log st) c s id = Some o -> active dflt (log st) c s <> None.
Proof.
  intros dflt h c s id o st -> H. pose proof (wf_reach dflt h) as W. unfold reached in *. set (st := run dflt init h) in *. clearbody st.
  rewrite (agree_sub _ _ _ _ _ W) in H. rewrite (agree_active _ _ _ _ W). destruct (find_session _ _); [discriminate|discriminate].
Qed.

Lemma nd_right : forall {A} (l1 l2 : list A), NoDup (l1 ++ l2) -> NoDup l2.
Proof. induction l1 as [|a l1 IH]; cbn [app]; intros l2 D; [exact D|]. inversion D; subst. auto. Qed.
Lemma nd_left : forall {A} (l1 l2 : list A), NoDup (l1 ++ l2) -> NoDup l1.
Proof.
  induction l1 as [|a l1 IH]; cbn [app]; intros l2 D; [constructor|]. inversion D as [|? ? D1 D2]; subst.
  constructor; [|eauto]. intros C. apply D1. apply in_or_app. auto.
Qed.
Lemma deliveries_in : forall dflt st db t pl m, wf dflt st ->
  In m (deliveries db t pl (sessions st)) <->
  exists c s id p, m = mkMsg c s id t pl /\ owned (log st) c s id = Some (db, p) /\ follows (log st) c s id t = true.
Proof.
  intros dflt st db t pl m W. unfold deliveries. rewrite in_flat_map. split.
  - intros ([[c s] x] & I & M). cbn [fst snd] in M. apply in_map_iff in M. destruct M as (b & E & B). apply filter_In in B.
    destruct B as [B1 B2]. apply andb_true_iff in B2. destruct B2 as [B2 B3]. apply N.eqb_eq in B2.
    pose proof (fs_unique _ _ _ (wf_keys _ _ W) I) as F. exists c, s, (s_id b), (s_perms b). split; [symmetry; exact E|].
    assert (G : find_sub (s_id b) x = Some b).
    { pose proof (wf_ids _ _ W) as D. clear -D I B1. assert (D' : NoDup (map s_id (c_subs x))).
      { apply in_split in I. destruct I as (l1 & l2 & E). rewrite E in D. unfold unique_ids in D. rewrite flat_map_app in D. cbn [flat_map snd] in D.
        apply nd_right in D. apply nd_left in D. exact D. }
      clear D I. unfold find_sub. induction (c_subs x) as [|a l IH]; [destruct B1|]. cbn [find]. cbn [map] in D'. inversion D' as [|? ? D1 D2]; subst.
      destruct B1 as [->|B1]; [rewrite N.eqb_refl; reflexivity|].
      destruct (s_id a =? s_id b) eqn:E; [|auto]. apply N.eqb_eq in E. exfalso. apply D1. rewrite E. now apply in_map. }
    pose proof (wf_agrees _ _ W c s) as A. rewrite F in A. destruct A as [_ A]. specialize (A (s_id b)). rewrite G in A. destruct A as [A1 A2].
    rewrite <- A2. split; [congruence|exact B3].
  - intros (c & s & id & p & -> & O & Fo). pose proof (wf_agrees _ _ W c s) as A.
    destruct (find_session (c, s) (sessions st)) as [x|] eqn:F; [|destruct A as [_ A]; rewrite A in O; discriminate].
    destruct A as [_ A]. specialize (A id). destruct (find_sub id x) as [b|] eqn:G; [|congruence]. destruct A as [A1 A2].
    destruct (find_sub_id _ _ _ G) as [E1 E2]. exists ((c, s), x). split; [apply fs_in; exact F|]. cbn [fst snd]. apply in_map_iff.
    exists b. split; [rewrite E1; reflexivity|]. apply filter_In. split; [exact E2|]. rewrite A2, Fo. rewrite A1 in O. inversion O.
    rewrite N.eqb_refl. reflexivity.
Qed.

Lemma deliveries_nodup : forall db t pl se, NoDup (unique_ids se) -> NoDup (map m_sub (deliveries db t pl se)).
Proof.
  intros db t pl se D.
  assert (G : forall l c s, map m_sub (map (fun b => mkMsg c s (s_id b) t pl) l) = map s_id l) by (intros; rewrite map_map; reflexivity).
  assert (F : forall (f : sub -> bool) l, NoDup (map s_id l) -> NoDup (map s_id (filter f l))).
  { intros f l. induction l as [|b l IH]; cbn [map filter]; intros N0; [constructor|]. inversion N0 as [|? ? N1 N2]; subst.
    destruct (f b); [|auto]. cbn [map]. constructor; [|auto]. intros C. apply N1. apply in_map_iff in C. destruct C as (y & E & C).
    apply filter_In in C. apply in_map_iff. exists y. tauto. }
  assert (I : forall se i, In i (map m_sub (deliveries db t pl se)) -> In i (unique_ids se)).
  { clear -G. induction se as [|e se IH]; intros i; cbn [deliveries flat_map unique_ids]; [auto|].
    fold (deliveries db t pl se). rewrite map_app, G. intros H. apply in_app_or in H. apply in_or_app. destruct H as [H|H].
    - left. apply in_map_iff in H. destruct H as (y & E & C). apply filter_In in C. apply in_map_iff. exists y. tauto.
    - right. apply IH. exact H. }
  induction se as [|e se IH]; cbn [deliveries flat_map map]; [constructor|]. fold (deliveries db t pl se). rewrite map_app, G.
  cbn [unique_ids flat_map] in D. fold (unique_ids se) in D.
  assert (D2 : NoDup (unique_ids se)) by (clear -D; induction (map s_id (c_subs (snd e))) as [|a l IHl]; [exact D|inversion D; subst; auto]).
  assert (D1 : NoDup (map s_id (c_subs (snd e)))) by (apply nd_left in D; exact D).
  assert (X : forall i, In i (map s_id (c_subs (snd e))) -> In i (unique_ids se) -> False).
  { clear -D. induction (map s_id (c_subs (snd e))) as [|a l IHl]; intros i H1 H2; [destruct H1|]. inversion D as [|? ? D1 D2]; subst.
    destruct H1 as [->|H1]; [apply D1; apply in_or_app; auto|eauto]. }
  specialize (IH D2). specialize (F (fun b => (s_db b =? db) && mem t (s_topics b)) _ D1).
  assert (Y : forall i, In i (map s_id (filter (fun b => (s_db b =? db) && mem t (s_topics b)) (c_subs (snd e)))) -> ~ In i (map m_sub (deliveries db t pl se))).
  { intros i H1 H2. apply (X i); [|apply I; exact H2]. apply in_map_iff in H1. destruct H1 as (y & E & C). apply filter_In in C. apply in_map_iff. exists y. tauto. }
  assert (Z : forall l, NoDup l -> (forall i, In i l -> ~ In i (map m_sub (deliveries db t pl se))) -> NoDup (l ++ map m_sub (deliveries db t pl se))).
  { clear -IH. induction l as [|a l IHl]; cbn [app]; intros F Y; [exact IH|]. inversion F as [|? ? F1 F2]; subst. constructor.
    - intros C. apply in_app_or in C. destruct C as [C|C]; [auto|]. apply (Y a); [left; reflexivity|exact C].
    - apply IHl; [exact F2|]. intros i Hi. apply Y. right. exact Hi. }
  apply Z; assumption.
Qed.

(* A handled publication that is allowed sends, after everything sent before, exactly one
   message to each subscriber of that database following that topic; everything else sends
   nothing. *)
Theorem C66_publish_exact : forall dflt h k grant j db t pl st st', st = reached dflt h ->
  nth_error (pending st) k = Some j -> j_cmd j = Publish db t pl ->
  step dflt st (Handle k grant) = (st', Some Ok) ->
  exists d, sent st' = sent st ++ d /\ NoDup (map m_sub d) /\
    forall m, In m d <-> exists c s id p, m = mkMsg c s id t pl /\
      owned (log st) c s id = Some (db, p) /\ follows (log st) c s id t = true.
Proof.
  intros dflt h k grant j db t pl st st' -> H C S. pose proof (wf_reach dflt h) as W. unfold reached in *. set (st := run dflt init h) in *. clearbody st.
  rewrite (step_handle _ _ _ _ _ H) in S. cbv zeta in S. destruct (assume _ _ _) as [q|]; [|discriminate]. rewrite C in S. cbn [handle] in S.
  destruct (q _); [|discriminate]. inversion S; subst. cbn [sent]. exists (deliveries db t pl (sessions st)).
  split; [reflexivity|]. split; [apply deliveries_nodup, (wf_ids _ _ W)|]. intros m. apply deliveries_in with (dflt := dflt). exact W.
Qed.
Theorem C66_nothing_else_sent : forall dflt h ev st, st = reached dflt h ->
  sent (fst (step dflt st ev)) <> sent st ->
  exists k grant j db t pl, ev = Handle k grant /\ nth_error (pending st) k = Some j /\ j_cmd j = Publish db t pl /\
    snd (step dflt st ev) = Some Ok /\ j_perms j (APublish db t) = true.
Proof.
  intros dflt h ev st -> D. pose proof (wf_reach dflt h) as W. unfold reached in *. set (st := run dflt init h) in *. clearbody st.
  destruct ev as [c|c|c s cmd|k grant|i].
  - cbn [step] in D. destruct (find_session _ _) in D; cbn [fst sent] in D; congruence.
  - cbn [step fst sent] in D. congruence.
  - cbn [step] in D. destruct (find_session (c, None) _) in D; cbn [fst sent] in D; congruence.
  - destruct (nth_error (pending st) k) as [j|] eqn:H; [|cbn [step] in D; rewrite H in D; cbn [fst] in D; congruence].
    rewrite (step_handle _ _ _ _ _ H) in *. cbv zeta in *.
    destruct (assumed _ _ _ _ W H) as [(K & p & A & P)|(K & A)]; rewrite A in *; [|cbn [fst sent] in D; congruence].
    destruct (j_cmd j) as [|i|db|id t|id t|id|db t m|a] eqn:J; cbn [handle] in *.
    7:{ destruct (p (APublish db t)) eqn:Q; [|cbn [fst sent] in D; congruence]. exists k, grant, j, db, t, m.
        rewrite P in Q. repeat apply conj; auto. }
    all: exfalso; apply D;
      repeat first [match goal with |- context [find_session ?a ?b] => destruct (find_session a b) end
                   |match goal with |- context [find_sub ?a ?b] => destruct (find_sub a b) end
                   |match goal with |- context [if ?b then _ else _] => destruct b end
                   |destruct grant]; reflexivity.
  - cbn [step fst sent] in D. congruence.
Qed.

(* Following: right after a successful subscription the subscriber follows the topic, right
   after a successful unsubscription it does not; other topics and subscribers keep theirs. *)
Theorem C66_subscription_effect : forall dflt h k grant j id t st st', st = reached dflt h ->
  nth_error (pending st) k = Some j -> step dflt st (Handle k grant) = (st', Some Ok) ->
  (j_cmd j = SubscribeTo id t \/ j_cmd j = UnsubscribeFrom id t) ->
  (forall c s id', owned (log st') c s id' = owned (log st) c s id') /\
  forall c s id' t', follows (log st') c s id' t' =
    if key_eqb (j_conn j, j_sid j) (c, s) && (id =? id') && (t =? t')
    then match j_cmd j with SubscribeTo _ _ => true | _ => false end
    else follows (log st) c s id' t'.
Proof.
  intros dflt h k grant j id t st st' E H S J. pose proof (C65_recorded _ _ _ _ _ _ _ _ E H S) as (p & P & L).
  pose proof (C65_answers dflt h k grant j st E H) as (r & R & _ & A & B). rewrite S in R. inversion R; subst r.
  assert (K : known st (j_sid j)).
  { subst st. destruct (assumed _ _ _ _ (wf_reach dflt h) H) as [[K _]|[K _]]; [exact K|]. apply B in K. discriminate. }
  specialize (A K). destruct J as [J|J]; rewrite J in *; cbn [names recorded] in *.
  - destruct (owned (log st) (j_conn j) (j_sid j) id) as [[db q]|] eqn:O; [|discriminate]. cbn [app] in L. rewrite L.
    split; [reflexivity|]. intros c s id' t'. reflexivity.
  - destruct (owned (log st) (j_conn j) (j_sid j) id) as [[db q]|] eqn:O; [|discriminate]. cbn [app] in L. rewrite L.
    split; [reflexivity|]. intros c s id' t'. reflexivity.
Qed.

Theorem C66_unregister_effect : forall dflt h k grant j id st st', st = reached dflt h ->
  nth_error (pending st) k = Some j -> step dflt st (Handle k grant) = (st', Some Ok) -> j_cmd j = Unregister id ->
  owned (log st) (j_conn j) (j_sid j) id <> None /\
  (forall c s id', owned (log st') c s id' = if key_eqb (j_conn j, j_sid j) (c, s) && (id =? id') then None else owned (log st) c s id') /\
  (forall c s id' t, follows (log st') c s id' t = follows (log st) c s id' t).
Proof.
  intros dflt h k grant j id st st' E H S J. pose proof (C65_recorded _ _ _ _ _ _ _ _ E H S) as (p & P & L).
  pose proof (C65_answers dflt h k grant j st E H) as (r & R & _ & A & B). rewrite S in R. inversion R; subst r.
  assert (K : known st (j_sid j)).
  { subst st. destruct (assumed _ _ _ _ (wf_reach dflt h) H) as [[K _]|[K _]]; [exact K|]. apply B in K. discriminate. }
  specialize (A K). rewrite J in *. cbn [names recorded] in *. rewrite L.
  destruct (owned (log st) (j_conn j) (j_sid j) id) as [o|] eqn:O; [|discriminate]. split; [discriminate|].
  cbn [app]. split; reflexivity.
Qed.

(* ---------- examples and refuted readings ---------- *)
Definition user : perms := fun a => match a with APublish 1 _ | ACreate 1 | ASubscribe 1 7 => true | _ => false end.
Definition nobody : perms := fun _ => false.
(* connections 1 and 2; a login on 1 gets session 1, which creates subscriber 1 and follows topic 7 *)
Definition story : list event :=
  [Connect 1; Connect 2; Request 1 None Login; Handle 0 (Some user);
   Request 1 (Some 1) (CreateSubscriber 1); Handle 0 None; Request 1 (Some 1) (SubscribeTo 1 7); Handle 0 None].
Example C65_story :
  active nobody (log (reached nobody story)) 1 (Some 1) = Some user /\
  active nobody (log (reached nobody story)) 2 (Some 1) = None /\
  active nobody (log (reached nobody story)) 2 None = Some nobody.
Proof. repeat split; reflexivity. Qed.
Example C65_stolen_id :   (* connection 2 names connection 1's session *)
  exists j, pending (fst (step nobody (reached nobody story) (Request 2 (Some 1) (Other (ACreate 1))))) = [j] /\ j_sid j = None /\ j_perms j = nobody.
Proof. eexists. repeat split; reflexivity. Qed.
Example C66_story :
  owned (log (reached nobody story)) 1 (Some 1) 1 = Some (1, merged user user) /\
  follows (log (reached nobody story)) 1 (Some 1) 1 7 = true /\
  sent (reached nobody (story ++ [Request 1 (Some 1) (Publish 1 7 9); Handle 0 None])) = [mkMsg 1 (Some 1) 1 7 9].
Proof. repeat split; reflexivity. Qed.

(* "A session's requests stop being allowed as soon as its log out is answered": not so for
   requests accepted before. *)
Theorem C65_logout_revokes_refuted : exists dflt h k grant j st, st = reached dflt h /\
  nth_error (pending st) k = Some j /\ active dflt (log st) (j_conn j) (j_sid j) = None /\
  j_cmd j = Other (ACreate 1) /\ snd (step dflt st (Handle k grant)) = Some Ok /\ dflt (ACreate 1) = false.
Proof.
  exists nobody, (story ++ [Request 1 (Some 1) (LogOut 1); Request 1 (Some 1) (Other (ACreate 1)); Handle 0 None]), 0%nat, None.
  eexists. eexists. repeat split; reflexivity.
Qed.
(* "A created subscriber exists": not if its session ended meanwhile. *)
Theorem C66_created_exists_refuted : exists dflt h k grant id st', 
  step dflt (reached dflt h) (Handle k grant) = (st', Some (Subscriber id)) /\ forall c s, owned (log st') c s id = None.
Proof.
  exists nobody, (story ++ [Request 1 (Some 1) (LogOut 1); Request 1 (Some 1) (CreateSubscriber 1); Handle 0 None]), 0%nat, None, 2.
  eexists. split; [reflexivity|]. intros c s. match goal with |- ?o = None => destruct o as [[db p]|] eqn:E; [|reflexivity] end.
  apply owned_in in E. cbn [log In] in E. repeat (destruct E as [E|E]; [discriminate E|]). destruct E.
Qed.

Print Assumptions C65_accepted_as.
Print Assumptions C65_allowed_exactly.
Print Assumptions C65_from_own_login.
Print Assumptions C65_recorded.
Print Assumptions C65_answers.
Print Assumptions C65_login_fresh.
Print Assumptions C65_one_connection.
Print Assumptions C65_logout_ends.
Print Assumptions C65_disconnect_ends.
Print Assumptions C65_no_interference.
Print Assumptions C65_logout_revokes_refuted.
Print Assumptions C66_fresh.
Print Assumptions C66_one_owner.
Print Assumptions C66_needs_session.
Print Assumptions C66_publish_exact.
Print Assumptions C66_nothing_else_sent.
Print Assumptions C66_subscription_effect.
Print Assumptions C66_unregister_effect.
Print Assumptions C66_created_exists_refuted.
