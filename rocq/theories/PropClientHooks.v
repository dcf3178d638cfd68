(* C85: the hooks a server's Backend gets, for every interleaving of connections, requests and
   disconnections, and which clients count as connected. *)
From Coq Require Import List NArith Bool Lia Arith ZifyBool.
From Verif Require Import ClientHooks ClientHooksProofs.
Import ListNotations.
Open Scope N_scope.

Lemma times_in : forall h l, (1 <= times h l)%nat <-> In h l.
Proof. intros. unfold times. apply count_in. apply hook_eqb_eq. Qed.

(* Every hook is called at most once: client_connected and client_disconnected per connection,
   client_authenticated per login, client_session_ended per session and reason. *)
Theorem C85_once : forall allowed es st h, run allowed es init = Some st -> (times h (log st) <= 1)%nat.
Proof.
  intros a es st h R. destruct (inv_run _ _ _ R) as (I & _). specialize (I (client_of h)).
  destruct (conns st (client_of h)) as [k|] eqn:K; [|destruct I as [I _]; rewrite I; [lia | reflexivity]].
  destruct I as [[J1 J2 J3 J4 J5 J6 J7 J8 J9 J10 J11] _]. destruct h as [c|c i|c s b|c]; cbn [client_of] in *.
  - lia.
  - specialize (J1 i). specialize (J3 i). lia.
  - destruct b; [specialize (J6 s); lia|]. destruct s as [i|]; [specialize (J2 i); specialize (J3 i); lia | lia].
  - destruct (ph k); lia.
Qed.

(* what a step adds to the log *)
Lemma step_log : forall a st e st', step a st e = Some st' ->
  log st' = log st \/
  exists h, log st' = log st ++ [h] /\
    match h with
    | HConnected c => e = EConnect c /\ a = true /\ conns st c = None
    | HAuthenticated c i => e = EAuth c i /\ exists k, conns st c = Some k /\ has N.eqb i (authing k) = true
    | HEnded c (Some i) false => e = EEnd c i /\ exists k, conns st c = Some k /\ has N.eqb i (outing k) = true
    | HEnded c None false => False
    | HEnded c s true => e = EEndOne c s /\ exists k, conns st c = Some k /\ ph k = Ending /\ has osid_eqb s (left k) = true
    | HDisconnected c => e = EGone c /\ exists k, conns st c = Some k /\ ph k = Ending /\ left k = []
    end.
Proof.
  intros a st e st' H.
  destruct e as [c|c ok|c|c|c i|c|c i|c i|c i|c|c s|c|m]; cbn in H;
    repeat match type of H with
      | context [if ?x then _ else _] => let E := fresh "E" in destruct x eqn:E
      | context [match ?x with _ => _ end] => let E := fresh "E" in destruct x eqn:E
      end; try discriminate; inversion H; subst st'; clear H; cbn [call set_conn log]; auto; right;
    eexists; (split; [reflexivity|]); cbn; try (split; [reflexivity|]); eauto.
  - split; [destruct a; [reflexivity | discriminate] | assumption].
  - destruct s; split; eauto.
Qed.

Lemma snoc_split : forall A (l : list A) x l1 h l2, l ++ [x] = l1 ++ h :: l2 ->
  (l2 = [] /\ l1 = l /\ h = x) \/ exists l2', l2 = l2' ++ [x] /\ l = l1 ++ h :: l2'.
Proof.
  intros A l x l1 h l2 E. destruct l2 as [|y r] using rev_ind.
  - left. apply app_inj_tail in E. destruct E as [-> ->]. auto.
  - right. exists r. split; [|].
    + change (l1 ++ h :: r ++ [y]) with (l1 ++ (h :: r) ++ [y]) in E. rewrite app_assoc in E.
      apply app_inj_tail in E. destruct E as [_ ->]. reflexivity.
    + change (l1 ++ h :: r ++ [y]) with (l1 ++ (h :: r) ++ [y]) in E. rewrite app_assoc in E.
      apply app_inj_tail in E. destruct E as [-> _]. reflexivity.
Qed.

(* properties of log positions, by induction on the run *)
Lemma log_ind : forall a (P : list event -> list hook -> hook -> Prop),
  (forall es fs l h, P es l h -> P (es ++ fs) l h) ->
  (forall es s e s' h, run a es init = Some s -> step a s e = Some s' -> log s' = log s ++ [h] -> P (es ++ [e]) (log s) h) ->
  forall es st, run a es init = Some st -> forall l1 h l2, log st = l1 ++ h :: l2 -> P es l1 h.
Proof.
  intros a P M H. apply (run_ind a (fun es st => forall l1 h l2, log st = l1 ++ h :: l2 -> P es l1 h)).
  - intros l1 h l2 E. cbn in E. destruct l1; discriminate.
  - intros es s e s' R IH S l1 h l2 E. destruct (step_log _ _ _ _ S) as [L | (h' & L & _)].
    + rewrite L in E. apply M. eapply IH; eauto.
    + rewrite L in E. apply snoc_split in E. destruct E as [(-> & -> & ->) | (l2' & -> & E)].
      * eapply H; eauto.
      * apply M. eapply IH; eauto.
Qed.

Lemma known_times : forall a es st c k, run a es init = Some st -> conns st c = Some k -> In (HConnected c) (log st).
Proof.
  intros a es st c k R K. destruct (inv_run _ _ _ R) as (I & _). specialize (I c). rewrite K in I.
  destruct I as [I _]. apply times_in. rewrite (ci_conn _ _ _ _ _ I). lia.
Qed.

(* A connection's first hook is client_connected. *)
Theorem C85_connected_first : forall allowed es st l1 h l2, run allowed es init = Some st ->
  log st = l1 ++ h :: l2 ->
  (h = HConnected (client_of h) /\ forall x, In x l1 -> client_of x <> client_of h) \/
  In (HConnected (client_of h)) l1.
Proof.
  intros a es st l1 h l2 R E. revert es st R l1 h l2 E.
  apply (log_ind a (fun es l h => (h = HConnected (client_of h) /\ forall x, In x l -> client_of x <> client_of h) \/
    In (HConnected (client_of h)) l)); [auto|].
  intros es s e s' h R S L. destruct (step_log _ _ _ _ S) as [L' | (h' & L' & Q)].
  { rewrite L' in L. exfalso. apply (f_equal (@length _)) in L. rewrite app_length in L. cbn in L. lia. }
  rewrite L' in L. apply app_inj_tail in L. destruct L as [_ <-].
  destruct h' as [c|c i|c t b|c]; cbn [client_of].
  - left. split; [reflexivity|]. intros x X EQ. destruct Q as (_ & _ & Q).
    destruct (inv_run _ _ _ R) as (I & _). specialize (I c). rewrite Q in I. destruct I as [I _].
    apply times_in in X. rewrite I in X by exact EQ. lia.
  - right. destruct Q as (_ & k & K & _). eapply known_times; eauto.
  - right. destruct t as [i|], b; cbn in Q; try tauto; destruct Q as (_ & k & K & _); eapply known_times; eauto.
  - right. destruct Q as (_ & k & K & _). eapply known_times; eauto.
Qed.

(* facts about phases and the events behind them *)
Definition pinv (es : list event) (st : state) : Prop := forall c k, conns st c = Some k ->
  In (EConnect c) es /\
  (late (ph k) = true <-> In (ERemove c) es) /\
  (forall i, In i (outing k) -> In (ELogout c i) es) /\
  (ph k = Gone <-> In (EGone c) es).

Lemma pinv_run : forall a es st, run a es init = Some st ->
  pinv es st /\ (forall c, conns st c = None -> a = true -> ~ In (EConnect c) es) /\
  (forall c, conns st c = None -> ~ In (ERemove c) es /\ ~ In (EGone c) es).
Proof.
  intros a. apply run_ind.
  - split; [|split]; [intros c k H; discriminate | cbn; auto | cbn; auto].
  - intros es s e s' R (P & Q1 & Q2) S.
    assert (SAME : forall d, subject e <> Some d -> subject e <> None -> 
       ~ In (EConnect d) [e] /\ ~ In (ERemove d) [e] /\ ~ In (EGone d) [e] /\ forall i, ~ In (ELogout d i) [e]).
    { intros d N1 N2. repeat split; intros; intros [X|[]]; subst e; cbn in N1; congruence. }
    split; [|split].
    + intros c k' K'. destruct (subject e) as [c0|] eqn:SJ.
      * destruct (N.eq_dec c c0) as [<-|ND].
        -- destruct (conns s c) as [k|] eqn:K.
           ++ destruct (P c k K) as (A1 & A2 & A3 & A4).
              destruct e as [c0|c0 ok|c0|c0|c0 i|c0|c0 i|c0 i|c0 i|c0|c0 t|c0|m]; cbn [subject] in SJ; inversion SJ; subst c0; clear SJ;
                cbn in S; rewrite K in S;
                repeat match type of S with
                | context [if ?x then _ else _] => let E := fresh "E" in destruct x eqn:E
                | context [match ?x with _ => _ end] => let E := fresh "E" in destruct x eqn:E
                end; try discriminate; inversion S; subst s'; clear S;
                cbn in K'; rewrite ?N.eqb_refl in K'; try rewrite K in K'; inversion K'; subst k'; clear K';
                cbn [ph outing late] in *;
                (split; [apply in_or_app; left; exact A1 |]);
                (split; [|split; [|]]).
              all: try (intros j J; apply in_or_app; first [left; apply A3; exact J | idtac]; fail).
              all: try (rewrite in_app_iff; cbn [In]; rewrite <- ?A2, <- ?A4; intuition (try congruence; try discriminate); fail).
              all: try (destruct ok; rewrite in_app_iff; cbn [In late]; rewrite <- ?A2, <- ?A4; intuition (try congruence; try discriminate); fail).
              ** intros j J. apply in_or_app. cbn [In] in *. destruct J as [<-|J]; auto.
              ** intros j J. apply in_or_app. left. apply A3. 
                 clear - J. induction (outing k) as [|x r IH]; [exact J|]. cbn in J. destruct (i =? x); cbn in *; [auto | destruct J; auto].
           ++ destruct e as [c0|c0 ok|c0|c0|c0 i|c0|c0 i|c0 i|c0 i|c0|c0 t|c0|m]; cbn [subject] in SJ; inversion SJ; subst c0; clear SJ;
                cbn in S; rewrite K in S; try discriminate.
              destruct a; cbn in S; inversion S; subst s'; clear S; [|congruence].
              cbn in K'. rewrite N.eqb_refl in K'. inversion K'; subst k'. cbn [ph outing late].
              destruct (Q2 c K) as [Z1 Z2].
              split; [apply in_or_app; right; left; reflexivity|].
              split; [|split].
              ** rewrite in_app_iff. cbn [In]. intuition congruence.
              ** intros i [].
              ** rewrite in_app_iff. cbn [In]. intuition congruence.
        -- destruct (step_other _ _ _ _ c S) as (C1 & _ & _); [congruence | congruence |].
           destruct (SAME c) as (S1 & S2 & S3 & S4); [congruence | congruence |].
           rewrite C1 in K'. destruct (P c k' K') as (A1 & A2 & A3 & A4).
           split; [apply in_or_app; auto|]. split; [rewrite in_app_iff; tauto|].
           split; [intros i I; apply in_or_app; left; auto | rewrite in_app_iff; tauto].
      * destruct e; cbn in SJ; try discriminate. cbn in S. inversion S; subst s'; clear S. cbn in K'.
        destruct (conns s c) as [k|] eqn:K; [|discriminate]. destruct (P c k K) as (A1 & A2 & A3 & A4).
        assert (ph k' = ph k /\ outing k' = outing k) as [-> ->] by (destruct (registered k); inversion K'; subst; auto).
        split; [apply in_or_app; auto|]. split; [rewrite in_app_iff; cbn [In]; intuition congruence|].
        split; [intros i I; apply in_or_app; left; auto | rewrite in_app_iff; cbn [In]; intuition congruence].
    + intros c K' A X. apply in_app_or in X. destruct X as [X|[X|[]]].
      * destruct (conns s c) as [k|] eqn:K; [|exact (Q1 c K A X)].
        destruct (inv_run a (es ++ [e]) s') as (I & _); [rewrite run_app, R; cbn; rewrite S; reflexivity|].
        specialize (I c). rewrite K' in I. destruct I as [I _].
        assert (In (HConnected c) (log s')) as IN.
        { pose proof (known_times _ _ _ _ _ R K). destruct (step_log _ _ _ _ S) as [-> | (h & -> & _)]; [assumption | apply in_or_app; auto]. }
        apply times_in in IN. rewrite I in IN by reflexivity. lia.
      * subst e a. cbn in S. destruct (conns s c); [discriminate|]. inversion S; subst s'. cbn in K'. rewrite N.eqb_refl in K'. discriminate.
    + intros c K'.
      assert (K : conns s c = None).
      { destruct (conns s c) as [k|] eqn:K; [|reflexivity]. exfalso.
        destruct (inv_run a (es ++ [e]) s') as (I & _); [rewrite run_app, R; cbn; rewrite S; reflexivity|].
        specialize (I c). rewrite K' in I. destruct I as [I _].
        assert (In (HConnected c) (log s')) as IN.
        { pose proof (known_times _ _ _ _ _ R K). destruct (step_log _ _ _ _ S) as [-> | (h & -> & _)]; [assumption | apply in_or_app; auto]. }
        apply times_in in IN. rewrite I in IN by reflexivity. lia. }
      destruct (Q2 c K) as [Z1 Z2].
      split; intros X; apply in_app_or in X; destruct X as [X|[X|[]]]; try tauto; subst e; cbn in S; rewrite K in S; discriminate.
Qed.

(* Every call has its cause: a granted login of that connection, a log-out request for that
   session, the end of the connection.  The default session only ends with the connection, and
   no session belongs to two connections. *)
Theorem C85_caused : forall allowed es st h, run allowed es init = Some st -> In h (log st) ->
  match h with
  | HConnected c => allowed = true /\ In (EConnect c) es
  | HAuthenticated c i => In (ELogin c i) es
  | HEnded c (Some i) false => In (ELogin c i) es /\ In (ELogout c i) es
  | HEnded c None false => False
  | HEnded c (Some i) true => In (ELogin c i) es /\ In (ERemove c) es
  | HEnded c None true => In (ERemove c) es
  | HDisconnected c => In (ERemove c) es
  end /\
  (forall i c d, In (ELogin c i) es -> In (ELogin d i) es -> c = d).
Proof.
  intros a es st h R I. destruct (inv_run _ _ _ R) as (J & _ & U & _). split.
  2:{ intros i c d X Y. apply (U c d i); apply logins_in; assumption. }
  apply in_split in I. destruct I as (l1 & l2 & E).
  assert (LG : match h with
    | HConnected c => a = true /\ In (EConnect c) es
    | HEnded c (Some i) false => In (ELogout c i) es
    | HEnded c _ true | HDisconnected c => In (ERemove c) es
    | _ => True end).
  { revert es st R E J U. intros es st R E _ _. revert es st R l1 h l2 E.
    apply (log_ind a (fun es _ h => match h with
    | HConnected c => a = true /\ In (EConnect c) es
    | HEnded c (Some i) false => In (ELogout c i) es
    | HEnded c _ true | HDisconnected c => In (ERemove c) es
    | _ => True end)).
    - intros es fs _ h H. destruct h as [c|c i|c [i|] [|]|c]; auto; try (destruct H); try split; auto; apply in_or_app; auto.
    - intros es s e s' h R S L. destruct (pinv_run _ _ _ R) as (P & _).
      destruct (step_log _ _ _ _ S) as [L' | (h' & L' & Q)].
      { rewrite L' in L. exfalso. apply (f_equal (@length _)) in L. rewrite app_length in L. cbn in L. lia. }
      rewrite L' in L. apply app_inj_tail in L. destruct L as [_ <-].
      assert (EN : forall k c, conns s c = Some k -> ph k = Ending -> In (ERemove c) (es ++ [e])).
      { intros k c K PH. apply in_or_app. left. apply (P c k K). rewrite PH. reflexivity. }
      destruct h' as [c|c i|c [i|] [|]|c]; auto.
      + destruct Q as (-> & -> & _). split; [reflexivity | apply in_or_app; right; left; reflexivity].
      + destruct Q as (_ & k & K & PH & _). eauto.
      + destruct Q as (_ & k & K & O). apply in_or_app. left. apply (P c k K).
        apply existsb_exists in O. destruct O as (x & X & Y). apply N.eqb_eq in Y. subst x. exact X.
      + destruct Q as (_ & k & K & PH & _). eauto.
      + destruct Q as (_ & k & K & PH & _). eauto. }
  assert (IN : (1 <= times h (log st))%nat) by (apply times_in; rewrite E; apply in_or_app; right; left; reflexivity).
  specialize (J (client_of h)). destruct (conns st (client_of h)) as [k|] eqn:K.
  2:{ destruct J as [J _]. rewrite J in IN by reflexivity. lia. }
  destruct J as [[J1 J2 J3 J4 J5 J6 J7 J8 J9 J10 J11] _].
  destruct h as [c|c i|c [i|] [|]|c]; cbn [client_of] in *; auto.
  - apply logins_in. specialize (J1 i). lia.
  - split; [|exact LG]. apply logins_in, J11. lia.
  - split; [|exact LG]. apply logins_in. specialize (J2 i). lia.
  - lia.
Qed.

(* When the default session may not connect, no hook is ever called and nobody is connected. *)
Theorem C85_denied : forall es st, run false es init = Some st -> log st = [] /\ connected_clients st = [].
Proof.
  intros es st R.
  assert (A : log st = []).
  { destruct (log st) as [|h l] eqn:E; [reflexivity|]. exfalso.
    destruct (C85_connected_first _ _ _ [] h l R E) as [[X _] | []].
    destruct (C85_caused false es st h R) as [H _]; [rewrite E; left; reflexivity|].
    rewrite X in H. destruct H as [H _]. discriminate. }
  split; [exact A|]. unfold connected_clients.
  destruct (filter (connected st) (seen st)) as [|c l] eqn:E; [reflexivity|]. exfalso.
  assert (In c (filter (connected st) (seen st))) as I by (rewrite E; left; reflexivity).
  apply filter_In in I. destruct I as [_ I]. unfold connected in I. destruct (conns st c) as [k|] eqn:K; [|discriminate].
  pose proof (known_times _ _ _ _ _ R K) as X. rewrite A in X. exact X.
Qed.

(* connected_clients: exactly the clients registered and not yet removed, each once. *)
Theorem C85_connected_clients : forall es st, run true es init = Some st ->
  NoDup (connected_clients st) /\
  forall c, In c (connected_clients st) <-> In (EConnect c) es /\ ~ In (ERemove c) es.
Proof.
  intros es st R. destruct (inv_run _ _ _ R) as (I & _ & _ & ND). destruct (pinv_run _ _ _ R) as (P & Q1 & Q2).
  split; [apply NoDup_filter; exact ND|].
  intros c. unfold connected_clients. rewrite filter_In. unfold connected. specialize (I c).
  destruct (conns st c) as [k|] eqn:K.
  - destruct (P c k K) as (A1 & A2 & _ & _). destruct I as [_ SN].
    assert (registered k = negb (late (ph k))) as -> by (unfold registered; destruct (ph k); reflexivity).
    destruct (late (ph k)); cbn; intuition congruence.
  - split; [intros [_ X]; discriminate|]. intros [X _]. exfalso. exact (Q1 c K eq_refl X).
Qed.

(* what broadcast owes a connection: the messages broadcast while it was registered *)
Fixpoint owed (c : N) (in_ : bool) (es : list event) : list N :=
  match es with
  | [] => []
  | EConnect d :: r => owed c (in_ || (c =? d)) r
  | ERemove d :: r => owed c (in_ && negb (c =? d)) r
  | EBroadcast m :: r => if in_ then m :: owed c in_ r else owed c in_ r
  | _ :: r => owed c in_ r
  end.
Definition sent (st : state) (c : N) : list N := match conns st c with Some k => outbox k | None => [] end.

Theorem C85_broadcast : forall es st c, run true es init = Some st -> sent st c = owed c false es.
Proof.
  assert (G : forall es s st c, run true es s = Some st -> 
    sent st c = sent s c ++ owed c (connected s c) es).
  { induction es as [|e r IH]; intros s st c R; cbn in R.
    - inversion R; subst. cbn. rewrite app_nil_r. reflexivity.
    - destruct (step true s e) as [s1|] eqn:S; [|discriminate]. rewrite (IH s1 st c R). clear IH R.
      destruct (subject e) as [d|] eqn:SJ.
      + destruct (N.eq_dec c d) as [<-|ND].
        * destruct e as [c0|c0 ok|c0|c0|c0 i|c0|c0 i|c0 i|c0 i|c0|c0 t|c0|m]; cbn [subject] in SJ; inversion SJ; subst c0; clear SJ;
            cbn in S; destruct (conns s c) as [k|] eqn:K; try discriminate;
            repeat match type of S with
            | context [if ?x then _ else _] => let E := fresh "E" in destruct x eqn:E
            | context [match ?x with _ => _ end] => let E := fresh "E" in destruct x eqn:E
            end; try discriminate; inversion S; subst s1; clear S;
            unfold sent, connected, registered; cbn [call set_conn conns owed]; rewrite ?N.eqb_refl, ?K; cbn [outbox ph];
            repeat match goal with H : ph k = _ |- _ => rewrite H end; cbn [andb orb negb]; try reflexivity.
        * destruct (step_other _ _ _ _ c S) as (C1 & _ & _); [congruence | congruence |].
          unfold sent, connected. rewrite C1. f_equal.
          assert ((c =? d) = false) as D by (apply N.eqb_neq; exact ND).
          destruct e; cbn [subject] in SJ; inversion SJ; subst; cbn [owed]; rewrite ?D, ?orb_false_r; cbn [negb]; rewrite ?andb_true_r; reflexivity.
      + destruct e; cbn in SJ; try discriminate. cbn in S. inversion S; subst s1; clear S.
        unfold sent, connected. cbn [conns owed]. destruct (conns s c) as [k|]; [|reflexivity].
        destruct (registered k) eqn:RK; cbn [outbox]; unfold registered in *; cbn [ph].
        * rewrite RK. rewrite <- app_assoc. reflexivity.
        * rewrite RK. reflexivity. }
  intros es st c R. rewrite (G es init st c R). reflexivity.
Qed.

(* what becomes of a session once the client is being removed *)
Definition due (c i : N) (st : state) : nat :=
  match conns st c with
  | Some k => (count osid_eqb (Some i) (left k) + times (HEnded c (Some i) true) (log st)
               + count N.eqb i (outing k) + times (HEnded c (Some i) false) (log st))%nat
  | None => 0%nat
  end.

Lemma due_step : forall a es st e st' c i, run a es init = Some st -> step a st e = Some st' -> (due c i st <= due c i st')%nat.
Proof.
  intros a es st e st' c i R S. unfold due. destruct (conns st c) as [k|] eqn:K; [|lia].
  destruct (inv_run _ _ _ R) as (I & _). specialize (I c). rewrite K in I. destruct I as [CI _].
  destruct (subject e) as [d|] eqn:SJ.
  - destruct (N.eq_dec c d) as [<-|ND].
    + destruct e as [c0|c0 ok|c0|c0|c0 j|c0|c0 j|c0 j|c0 j|c0|c0 t|c0|m]; cbn [subject] in SJ; inversion SJ; subst c0; clear SJ;
        cbn in S; rewrite K in S;
        repeat match type of S with
        | context [if ?x then _ else _] => let E := fresh "E" in destruct x eqn:E
        | context [match ?x with _ => _ end] => let E := fresh "E" in destruct x eqn:E
        end; try discriminate; inversion S; subst st'; clear S;
        unfold call, set_conn; cbn [conns log]; rewrite ?N.eqb_refl, ?K; cbn [left outing];
        rewrite ?times_app, ?count_cons; cbn [hook_eqb]; rewrite ?N.eqb_refl; cbn [andb Bool.eqb]; rewrite ?andb_false_r, ?andb_true_r; try lia.
      * cbn [osid_eqb]. pose proof (count_drop N N.eqb N.eqb_eq j i (outing k)) as X.
        match goal with H : has N.eqb j (outing k) = true |- _ => specialize (X H) end. destruct (i =? j); lia.
      * match goal with H : ph k = Dropped |- _ => destruct (ci_early _ _ _ _ _ CI) as [L T]; [rewrite H; reflexivity|] end.
        rewrite L, T. cbn. lia.
      * pose proof (count_drop _ osid_eqb osid_eqb_eq t (Some i) (left k)) as X.
        match goal with H : has osid_eqb t (left k) = true |- _ => specialize (X H) end. destruct (osid_eqb (Some i) t); lia.
    + destruct (step_other _ _ _ _ c S) as (C1 & C2 & _); [congruence | congruence |].
      rewrite C1, K. rewrite !C2 by reflexivity. lia.
  - destruct e; cbn in SJ; try discriminate. cbn in S. inversion S; subst st'; clear S. cbn [conns log]. rewrite K.
    destruct (registered k); cbn [left outing]; lia.
Qed.

Lemma due_run : forall a fs es s st c i, run a es init = Some s -> run a fs s = Some st -> (due c i s <= due c i st)%nat.
Proof.
  intros a fs. induction fs as [|e r IH]; intros es s st c i R H; cbn in H.
  - inversion H; subst. lia.
  - destruct (step a s e) as [s1|] eqn:S; [|discriminate].
    assert (R1 : run a (es ++ [e]) init = Some s1) by (rewrite run_app, R; cbn; rewrite S; reflexivity).
    pose proof (due_step _ _ _ _ _ c i R S). specialize (IH _ _ _ c i R1 H). lia.
Qed.

(* the moment of the removal *)
Lemma removal : forall a es s s' c, run a es init = Some s -> step a s (ERemove c) = Some s' ->
  exists k, conns s c = Some k /\ ph k = Dropped /\
    s' = set_conn s c (mkConn Ending (sessions k) (jobs k) (authing k) (outing k) (sessions k) (outbox k)) /\
    (forall i, due c i s' = logins c i es).
Proof.
  intros a es s s' c R S. cbn in S. destruct (conns s c) as [k|] eqn:K; [|discriminate].
  destruct (ph k) eqn:P; try discriminate. inversion S; subst s'. exists k. repeat split; auto.
  intros i. unfold due. cbn [set_conn conns log]. rewrite N.eqb_refl. cbn [left outing].
  destruct (inv_run _ _ _ R) as (I & _). specialize (I c). rewrite K in I. destruct I as [CI _].
  destruct (ci_early _ _ _ _ _ CI) as [L T]; [rewrite P; reflexivity|]. rewrite T.
  pose proof (ci_end _ _ _ _ _ CI i). lia.
Qed.

(* Once client_disconnected has been called, every session granted before the client was
   removed has been reported as ended, unless a log-out of it is just about to report it. *)
Theorem C85_each_ends : forall allowed es1 es2 st c i, 
  run allowed (es1 ++ ERemove c :: es2) init = Some st ->
  In (ELogin c i) es1 -> In (HDisconnected c) (log st) ->
  (exists d, In (HEnded c (Some i) d) (log st)) \/
  (exists k, conns st c = Some k /\ In i (outing k)).
Proof.
  intros a es1 es2 st c i R L D. pose proof R as R0. rewrite run_app in R. destruct (run a es1 init) as [s1|] eqn:R1; [|discriminate].
  cbn in R. destruct (step a s1 (ERemove c)) as [s2|] eqn:S; cbn in S; rewrite S in R; [|discriminate].
  assert (S' : step a s1 (ERemove c) = Some s2) by exact S.
  destruct (removal _ _ _ _ _ R1 S') as (k & K & _ & _ & DU).
  assert (R2 : run a (es1 ++ [ERemove c]) init = Some s2) by (rewrite run_app, R1; cbn; rewrite S; reflexivity).
  pose proof (due_run _ _ _ _ _ c i R2 R) as X. rewrite DU in X. apply logins_in in L.
  destruct (inv_run _ _ _ R0) as (I & _). specialize (I c). apply times_in in D.
  unfold due in X. destruct (conns st c) as [kk|]; [|lia]. destruct I as [CI _].
  pose proof (ci_disc _ _ _ _ _ CI) as G. destruct (ph kk) eqn:P; try lia.
  pose proof (ci_gone _ _ _ _ _ CI P) as LE. rewrite LE, count_nil in X.
  destruct (Nat.eq_dec (times (HEnded c (Some i) true) (log st)) 0) as [Z1|Z1].
  - destruct (Nat.eq_dec (times (HEnded c (Some i) false) (log st)) 0) as [Z2|Z2].
    + right. exists kk. split; [reflexivity|]. apply (count_in N N.eqb N.eqb_eq). lia.
    + left. exists false. apply times_in. lia.
  - left. exists true. apply times_in. lia.
Qed.

(* The default session ends with the connection, and no session is reported as ended by the
   disconnection after client_disconnected. *)
Theorem C85_disconnected_last : forall allowed es st c l1 l2, run allowed es init = Some st ->
  log st = l1 ++ HDisconnected c :: l2 ->
  In (HEnded c None true) l1 /\ forall s, ~ In (HEnded c s true) l2.
Proof.
  intros a es st c l1 l2 R E. split.
  - revert es st R l1 l2 E. intros es st R l1 l2 E.
    enough (H : forall es st, run a es init = Some st -> forall l1 h l2, log st = l1 ++ h :: l2 ->
      (forall d, h = HDisconnected d -> In (HEnded d None true) l1)) by (eapply H; eauto).
    clear. apply (log_ind a (fun _ l1 h => forall d, h = HDisconnected d -> In (HEnded d None true) l1)); [auto|].
    intros es s e s' h R S L d ->. destruct (step_log _ _ _ _ S) as [L' | (h' & L' & Q)].
    { rewrite L' in L. exfalso. apply (f_equal (@length _)) in L. rewrite app_length in L. cbn in L. lia. }
    rewrite L' in L. apply app_inj_tail in L. destruct L as [_ ->]. destruct Q as (_ & k & K & PH & LE).
    (* None is either still left or reported *)
    assert (G : forall es s, run a es init = Some s -> forall d k, conns s d = Some k -> late (ph k) = true ->
       count osid_eqb None (left k) = 0%nat -> (1 <= times (HEnded d None true) (log s))%nat).
    { clear. apply (run_ind a (fun es s => forall d k, conns s d = Some k -> late (ph k) = true ->
        count osid_eqb None (left k) = 0%nat -> (1 <= times (HEnded d None true) (log s))%nat)).
      - intros d k H. discriminate.
      - intros es s e s' R IH S d k' K' LT Z.
        destruct (inv_run _ _ _ R) as (I & _). specialize (I d).
        destruct (subject e) as [c|] eqn:SJ.
        + destruct (N.eq_dec d c) as [->|ND].
          * destruct (conns s c) as [k|] eqn:K.
            -- destruct I as [CI _]. specialize (IH c k K).
               destruct e as [c0|c0 ok|c0|c0|c0 i|c0|c0 i|c0 i|c0 i|c0|c0 t|c0|m]; cbn [subject] in SJ; inversion SJ; subst c0; clear SJ;
                 cbn in S; rewrite K in S;
                 repeat match type of S with
                 | context [if ?x then _ else _] => let E := fresh "E" in destruct x eqn:E
                 | context [match ?x with _ => _ end] => let E := fresh "E" in destruct x eqn:E
                 end; try discriminate; inversion S; subst s'; clear S;
                 cbn in K'; rewrite ?N.eqb_refl in K'; try rewrite K in K'; inversion K'; subst k'; clear K';
                 cbn [ph left late] in *; try discriminate; unfold call, set_conn; cbn [log]; rewrite ?times_app; try (specialize (IH LT Z); lia).
               ++ pose proof (ci_none _ _ _ _ _ CI). lia.
               ++ cbn [hook_eqb]. rewrite N.eqb_refl. cbn [andb Bool.eqb]. rewrite andb_true_r.
                  pose proof (count_drop _ osid_eqb osid_eqb_eq t None (left k)) as X.
                  match goal with H : has osid_eqb t (left k) = true |- _ => specialize (X H) end.
                  destruct (osid_eqb None t); [lia|].
                  specialize (IH eq_refl). lia.
            -- destruct e as [c0|c0 ok|c0|c0|c0 i|c0|c0 i|c0 i|c0 i|c0|c0 t|c0|m]; cbn [subject] in SJ; inversion SJ; subst c0; clear SJ;
                 cbn in S; rewrite K in S; try discriminate.
               destruct a; cbn in S; inversion S; subst s'; [|congruence].
               cbn in K'. rewrite N.eqb_refl in K'. inversion K'; subst k'. discriminate.
          * destruct (step_other _ _ _ _ d S) as (C1 & C2 & _); [congruence | congruence |].
            rewrite C1 in K'. rewrite C2 by reflexivity. eapply IH; eauto.
        + destruct e; cbn in SJ; try discriminate. cbn in S. inversion S; subst s'; clear S. cbn in K'. cbn [log].
          destruct (conns s d) as [k|] eqn:K; [|discriminate].
          destruct (registered k); inversion K'; subst k'; cbn [ph left] in *; eapply IH; eauto. }
    apply times_in. apply (G es s R d k K); [rewrite PH; reflexivity | rewrite LE; reflexivity].
  - enough (H : forall es st, run a es init = Some st -> forall l1 h l2, log st = l1 ++ h :: l2 ->
      forall d s, h = HEnded d s true -> ~ In (HDisconnected d) l1).
    { intros s X. apply in_split in X. destruct X as (m1 & m2 & ->).
      apply (H es st R (l1 ++ HDisconnected c :: m1) (HEnded c s true) m2) with (d := c) (s := s).
      - rewrite E, <- app_assoc. reflexivity.
      - reflexivity.
      - apply in_or_app. right. left. reflexivity. }
    clear. apply (log_ind a (fun _ l1 h => forall d s, h = HEnded d s true -> ~ In (HDisconnected d) l1)); [auto|].
    intros es s e s' h R S L d t ->. destruct (step_log _ _ _ _ S) as [L' | (h' & L' & Q)].
    { rewrite L' in L. exfalso. apply (f_equal (@length _)) in L. rewrite app_length in L. cbn in L. lia. }
    rewrite L' in L. apply app_inj_tail in L. destruct L as [_ ->].
    assert (exists k, conns s d = Some k /\ ph k = Ending) as (k & K & PH) by (destruct t; destruct Q as (_ & k & K & PH & _); eauto).
    intros X. apply times_in in X. destruct (inv_run _ _ _ R) as (I & _). specialize (I d). rewrite K in I.
    destruct I as [CI _]. pose proof (ci_disc _ _ _ _ _ CI). rewrite PH in *. lia.
Qed.

(* When nothing of the client is under way as it is removed: each of its sessions was
   reported authenticated once and ended once, and client_disconnected is its last hook. *)
Theorem C85_quiet : forall allowed es1 es2 s1 st c k, 
  run allowed es1 init = Some s1 -> conns s1 c = Some k ->
  jobs k = 0%nat -> authing k = [] -> outing k = [] ->
  run allowed (ERemove c :: es2) s1 = Some st -> In (HDisconnected c) (log st) ->
  (forall i, In (ELogin c i) (es1 ++ es2) <-> times (HAuthenticated c i) (log st) = 1%nat) /\
  (forall i, In (ELogin c i) (es1 ++ es2) <->
     (times (HEnded c (Some i) true) (log st) + times (HEnded c (Some i) false) (log st) = 1)%nat) /\
  (forall l1 i l2, log st = l1 ++ HEnded c (Some i) true :: l2 -> In (HAuthenticated c i) l1) /\
  exists l1 l2, log st = l1 ++ HDisconnected c :: l2 /\ forall h, In h l2 -> client_of h <> c.
Proof.
  intros a es1 es2 s1 st c k R K J A O H D.
  assert (R0 : run a (es1 ++ ERemove c :: es2) init = Some st) by (rewrite run_app, R; exact H).
  cbn in H. destruct (step a s1 (ERemove c)) as [s2|] eqn:S; cbn in S; rewrite S in H; [|discriminate].
  assert (S' : step a s1 (ERemove c) = Some s2) by exact S.
  destruct (removal _ _ _ _ _ R S') as (k0 & K0 & P0 & ES & DU). rewrite K in K0. inversion K0; subst k0; clear K0.
  assert (R2 : run a (es1 ++ [ERemove c]) init = Some s2) by (rewrite run_app, R; cbn; rewrite S; reflexivity).
  pose proof (inv_run _ _ _ R) as (I1 & _). specialize (I1 c). rewrite K in I1. destruct I1 as [C1 _].
  (* frozen *)
  set (idle := fun s : state => exists kk, conns s c = Some kk /\ jobs kk = 0%nat /\ authing kk = [] /\ outing kk = [] /\ late (ph kk) = true).
  assert (FZ : forall fs es s t, run a es init = Some s -> run a fs s = Some t -> idle s ->
     idle t /\ (forall i, logins c i fs = 0%nat) /\ (forall i, due c i t = due c i s) /\
     (exists m, log t = log s ++ m /\ (forall h, In h m -> client_of h = c -> (exists x, h = HEnded c x true) \/ h = HDisconnected c))).
  { intros fs. induction fs as [|e r IH]; intros es s t RS RT ID.
    - cbn in RT. inversion RT; subst t. split; [exact ID|]. repeat split; auto. exists []. rewrite app_nil_r. split; [reflexivity | intros h []].
    - cbn in RT. destruct (step a s e) as [u|] eqn:SE; [|discriminate].
      assert (RU : run a (es ++ [e]) init = Some u) by (rewrite run_app, RS; cbn; rewrite SE; reflexivity).
      assert (ST : idle u /\ (forall i, is_login c i e = false) /\ (forall i, due c i u = due c i s) /\
        (exists m, log u = log s ++ m /\ (forall h, In h m -> client_of h = c -> (exists x, h = HEnded c x true) \/ h = HDisconnected c))).
      { destruct ID as (kk & KK & Q1 & Q2 & Q3 & Q4). unfold idle, due. rewrite KK.
        destruct (subject e) as [d|] eqn:SJ.
        - destruct (N.eq_dec c d) as [<-|ND].
          + destruct e as [c0|c0 ok|c0|c0|c0 i|c0|c0 i|c0 i|c0 i|c0|c0 x|c0|m]; cbn [subject] in SJ; inversion SJ; subst c0; clear SJ;
              cbn in SE; rewrite KK in SE; rewrite ?Q1, ?Q2, ?Q3 in SE; cbn in SE;
              repeat match type of SE with
              | context [if ?x then _ else _] => let E := fresh "E" in destruct x eqn:E
              | context [match ?x with _ => _ end] => let E := fresh "E" in destruct x eqn:E
              end; try discriminate; cbn [late] in Q4; try discriminate; inversion SE; subst u; clear SE;
              unfold call, set_conn; cbn [conns log is_login]; rewrite ?N.eqb_refl, ?KK; cbn [left outing].
            * (split; [exists kk; auto|]). repeat split; auto. exists []. rewrite app_nil_r. split; [reflexivity | intros h []].
            * split; [eexists; split; [reflexivity|]; cbn [jobs authing outing ph late]; auto|].
              split; [reflexivity|]. split.
              -- intros i. rewrite !times_app. cbn [hook_eqb]. rewrite N.eqb_refl. cbn [andb Bool.eqb]. rewrite andb_true_r, andb_false_r.
                 pose proof (count_drop _ osid_eqb osid_eqb_eq x (Some i) (left kk)) as X.
                 match goal with H : has osid_eqb x (left kk) = true |- _ => specialize (X H) end. rewrite ?Q3. destruct (osid_eqb (Some i) x); lia.
              -- eexists. split; [reflexivity|]. intros h [<-|[]] _. left. eexists. reflexivity.
            * split; [eexists; split; [reflexivity|]; cbn [jobs authing outing ph late]; auto|].
              split; [reflexivity|]. split.
              -- intros i. rewrite !times_app. cbn [hook_eqb]. 
                 rewrite ?Q3. repeat match goal with H : left kk = [] |- _ => rewrite H end. lia.
              -- eexists. split; [reflexivity|]. intros h [<-|[]] _. right. reflexivity.
          + destruct (step_other _ _ _ _ c SE) as (CC1 & CC2 & CC3); [congruence | congruence |].
            rewrite CC1, KK. split; [eexists; split; [reflexivity | auto]|]. split; [exact CC3|]. split; [intros i; rewrite !CC2 by reflexivity; reflexivity|].
            destruct (step_log _ _ _ _ SE) as [L | (h' & L & _)].
            * exists []. rewrite app_nil_r. split; [exact L | intros h []].
            * exists [h']. split; [exact L|]. intros h [<-|[]] HC. exfalso. specialize (CC2 h' HC). rewrite L in CC2. rewrite (times_app h' (log s) h'), hook_eqb_refl in CC2. lia.
        - destruct e; cbn in SJ; try discriminate. cbn in SE. inversion SE; subst u; clear SE. cbn [conns log is_login]. rewrite KK.
          assert (registered kk = false) as -> by (unfold registered; destruct (ph kk); try discriminate; reflexivity).
          split; [eexists; split; [reflexivity | auto]|]. repeat split; auto. exists []. rewrite app_nil_r. split; [reflexivity | intros h []]. }
      destruct ST as (I' & L' & D' & (m & M1 & M2)).
      destruct (IH _ _ _ RU RT I') as (I'' & L'' & D'' & (m' & M1' & M2')).
      split; [exact I''|]. split; [intros i; unfold logins; cbn [filter]; rewrite L'; apply L''|].
      split; [intros i; rewrite D''; apply D'|].
      exists (m ++ m'). split; [rewrite M1', M1, app_assoc; reflexivity|].
      intros h X. apply in_app_or in X. destruct X; auto. }
  assert (ID2 : idle s2).
  { rewrite ES. eexists. cbn [set_conn conns]. rewrite N.eqb_refl. split; [reflexivity|]. cbn [jobs authing outing ph late]. auto. }
  destruct (FZ es2 _ _ _ R2 H ID2) as (IDT & LT & DT & (m & M1 & M2)).
  pose proof (inv_run _ _ _ R0) as (IT & _). specialize (IT c).
  destruct IDT as (kt & KT & T1 & T2 & T3 & T4). rewrite KT in IT. destruct IT as [CT _].
  assert (LG : forall i, logins c i (es1 ++ ERemove c :: es2) = logins c i es1).
  { intros i. rewrite logins_app. change (ERemove c :: es2) with ([ERemove c] ++ es2). rewrite logins_app, LT. cbn. lia. }
  assert (LIN : forall i, In (ELogin c i) (es1 ++ es2) <-> logins c i es1 = 1%nat).
  { intros i. rewrite <- logins_in, logins_app, LT. pose proof (ci_once _ _ _ _ _ C1 i). lia. }
  assert (GN : ph kt = Gone).
  { apply times_in in D. pose proof (ci_disc _ _ _ _ _ CT) as X. destruct (ph kt); try lia. reflexivity. }
  assert (AU : forall i, times (HAuthenticated c i) (log st) = logins c i es1).
  { intros i. pose proof (ci_auth _ _ _ _ _ CT i) as X. rewrite T2, LG in X. cbn in X. exact X. }
  split; [|split; [|split]].
  - intros i. rewrite LIN, AU. reflexivity.
  - intros i. rewrite LIN. specialize (DT i). rewrite DU in DT. unfold due in DT. rewrite KT, T3, (ci_gone _ _ _ _ _ CT GN) in DT.
    rewrite !count_nil in DT. lia.
  - intros l1 i l2 E.
    (* the hook comes after the removal *)
    assert (NE : ~ In (HEnded c (Some i) true) (log s2)).
    { rewrite ES. cbn [set_conn log]. intros X. apply times_in in X.
      destruct (ci_early _ _ _ _ _ C1) as [_ T]; [rewrite P0; reflexivity|]. rewrite T in X. lia. }
    assert (IA : In (HAuthenticated c i) (log s2)).
    { rewrite ES. cbn [set_conn log]. apply times_in.
      pose proof (ci_auth _ _ _ _ _ C1 i) as X. rewrite A, count_nil in X.
      assert (In (HEnded c (Some i) true) (log st)) as Y by (rewrite E; apply in_or_app; right; left; reflexivity).
      apply times_in in Y. pose proof (ci_src _ _ _ _ _ CT i) as Z. rewrite LG in Z. lia. }
    assert (PRE : forall (x y : list hook) l1 h l2, x ++ y = l1 ++ h :: l2 -> ~ In h x -> exists z, l1 = x ++ z).
    { clear. induction x as [|q x IH]; intros y l1 h l2 E NI; [exists l1; reflexivity|].
      destruct l1 as [|p l1]; cbn in E; inversion E; subst.
      - exfalso. apply NI. left. reflexivity.
      - destruct (IH _ _ _ _ H1) as (z & ->); [intros X; apply NI; right; exact X|]. exists z. reflexivity. }
    rewrite M1 in E. destruct (PRE _ _ _ _ _ E NE) as (z & ->). apply in_or_app. left. exact IA.
  - apply in_split in D. destruct D as (l1 & l2 & E). exists l1, l2. split; [exact E|].
    intros h HI HC.
    assert (ND2 : ~ In (HDisconnected c) (log s2)).
    { rewrite ES. cbn [set_conn log]. intros X. apply times_in in X. pose proof (ci_disc _ _ _ _ _ C1) as Y. rewrite P0 in Y. lia. }
    assert (PRE : forall (x y : list hook) l1 h l2, x ++ y = l1 ++ h :: l2 -> ~ In h x -> exists z, l1 = x ++ z /\ y = z ++ h :: l2).
    { clear. induction x as [|q x IH]; intros y l1 h l2 E NI; [exists l1; auto|].
      destruct l1 as [|p l1]; cbn in E; inversion E; subst.
      - exfalso. apply NI. left. reflexivity.
      - destruct (IH _ _ _ _ H1) as (z & -> & ->); [intros X; apply NI; right; exact X|]. exists z. auto. }
    pose proof E as E0. rewrite M1 in E. destruct (PRE _ _ _ _ _ E ND2) as (z & -> & MZ).
    destruct (M2 h) as [(x & ->) | ->].
    + rewrite MZ. apply in_or_app. right. right. exact HI.
    + exact HC.
    + destruct (C85_disconnected_last _ _ _ _ _ _ R0 E0) as [_ X]. exact (X _ HI).
    + pose proof (C85_once _ _ _ (HDisconnected c) R0) as X. rewrite E0 in X. unfold times in X.
      rewrite count_app, count_cons, hook_eqb_refl in X.
      assert (1 <= count hook_eqb (HDisconnected c) l2)%nat by (apply (count_in _ hook_eqb hook_eqb_eq); exact HI). lia.
Qed.

Lemma auth_called : forall a es st c i, run a es init = Some st -> In (EAuth c i) es -> In (HAuthenticated c i) (log st).
Proof.
  intros a es st c i R. revert es st R.
  apply (run_ind a (fun es st => In (EAuth c i) es -> In (HAuthenticated c i) (log st))); [intros []|].
  intros es s e s' R IH S X. apply in_app_or in X. destruct X as [X|[X|[]]].
  - specialize (IH X). destruct (step_log _ _ _ _ S) as [-> | (h & -> & _)]; [exact IH | apply in_or_app; auto].
  - subst e. cbn in S. destruct (conns s c) as [k|]; [|discriminate].
    destruct (has N.eqb i (authing k)); [|discriminate]. inversion S; subst s'. cbn. apply in_or_app. right. left. reflexivity.
Qed.

(* A client that logs out only of sessions it was told of (client_authenticated is called
   before the response is sent): the log-out is reported after the login. *)
Definition polite (es : list event) : Prop := forall e1 c i e2, es = e1 ++ ELogout c i :: e2 ->
  In (ELogin c i) e1 -> In (EAuth c i) e1.

Theorem C85_logout_after_login : forall allowed es st c i l1 l2, run allowed es init = Some st -> polite es ->
  log st = l1 ++ HEnded c (Some i) false :: l2 -> In (HAuthenticated c i) l1.
Proof.
  intros a es st c i l1 l2 R PL E.
  assert (PP : forall es fs, polite (es ++ fs) -> polite es).
  { intros x y H e1 d j e2 X. apply (H e1 d j (e2 ++ y)). rewrite X, <- app_assoc. reflexivity. }
  assert (G : forall es st, run a es init = Some st -> polite es -> forall c k i, conns st c = Some k -> In i (outing k) ->
     In (HAuthenticated c i) (log st)).
  { apply (run_ind a (fun es st => polite es -> forall c k i, conns st c = Some k -> In i (outing k) -> In (HAuthenticated c i) (log st))).
    - intros _ d k j X. discriminate.
    - intros es0 s e s' R0 IH S PO d k' j K' J. specialize (IH (PP _ _ PO)).
      assert (UP : In (HAuthenticated d j) (log s) -> In (HAuthenticated d j) (log s')).
      { intros X. destruct (step_log _ _ _ _ S) as [-> | (h & -> & _)]; [exact X | apply in_or_app; auto]. }
      destruct (subject e) as [c0|] eqn:SJ.
      + destruct (N.eq_dec d c0) as [<-|ND].
        * destruct (conns s d) as [k|] eqn:K.
          -- specialize (IH d k j K).
             destruct e as [c0|c0 ok|c0|c0|c0 x|c0|c0 x|c0 x|c0 x|c0|c0 t|c0|m]; cbn [subject] in SJ; inversion SJ; subst c0; clear SJ;
               pose proof S as S0; cbn in S; rewrite K in S;
               repeat match type of S with
               | context [if ?x then _ else _] => let E := fresh "E" in destruct x eqn:E
               | context [match ?x with _ => _ end] => let E := fresh "E" in destruct x eqn:E
               end; try discriminate; inversion S; subst s'; clear S;
               cbn in K'; rewrite ?N.eqb_refl in K'; try rewrite K in K'; inversion K'; subst k'; clear K';
               cbn [outing] in J; try (apply UP, IH; exact J).
             ++ destruct J as [<-|J]; [|apply UP, IH; exact J].
                apply UP. eapply auth_called; [exact R0|]. apply (PO es0 d x []); [reflexivity|].
                apply logins_in. destruct (inv_run _ _ _ R0) as (I & _). specialize (I d). rewrite K in I. destruct I as [CI _].
                pose proof (ci_end _ _ _ _ _ CI x) as X.
                match goal with H : has osid_eqb (Some x) (sessions k) = true |- _ => apply count_has in H end. lia.
             ++ apply UP, IH. clear - J. induction (outing k) as [|y r IHr]; [exact J|]. cbn in J. destruct (x =? y); cbn in *; [auto | destruct J; auto].
          -- destruct e as [c0|c0 ok|c0|c0|c0 x|c0|c0 x|c0 x|c0 x|c0|c0 t|c0|m]; cbn [subject] in SJ; inversion SJ; subst c0; clear SJ;
               cbn in S; rewrite K in S; try discriminate.
             destruct a; cbn in S; inversion S; subst s'; [|congruence].
             cbn in K'. rewrite N.eqb_refl in K'. inversion K'; subst k'. destruct J.
        * destruct (step_other _ _ _ _ d S) as (C1 & _ & _); [congruence | congruence |]. rewrite C1 in K'. apply UP. eapply IH; eauto.
      + destruct e; cbn in SJ; try discriminate. cbn in S. inversion S; subst s'; clear S. cbn in K'. cbn [log].
        destruct (conns s d) as [k|] eqn:K; [|discriminate].
        destruct (registered k); inversion K'; subst k'; cbn [outing] in J; eapply IH; eauto. }
  revert PL. enough (H : forall es st, run a es init = Some st -> forall l1 h l2, log st = l1 ++ h :: l2 ->
     forall d j, polite es -> h = HEnded d (Some j) false -> In (HAuthenticated d j) l1).
  { intros PL. eapply H; eauto. }
  clear es st l1 l2 R E. apply (log_ind a (fun es l1 h => forall d j, polite es -> h = HEnded d (Some j) false -> In (HAuthenticated d j) l1)).
  - intros es fs l h H d j PO. apply H. eapply PP; eauto.
  - intros es s e s' h R S L d j PO ->. destruct (step_log _ _ _ _ S) as [L' | (h' & L' & Q)].
    { rewrite L' in L. exfalso. apply (f_equal (@length _)) in L. rewrite app_length in L. cbn in L. lia. }
    rewrite L' in L. apply app_inj_tail in L. destruct L as [_ ->]. destruct Q as (_ & k & K & O).
    eapply G; [exact R | eapply PP; exact PO | exact K |].
    apply existsb_exists in O. destruct O as (x & X & Y). apply N.eqb_eq in Y. subst x. exact X.
Qed.

(* A session granted after the client was removed is never reported as ended by the
   disconnection: the Backend only hears of its end if a log-out of it was already accepted. *)
Theorem C85_late_login_not_ended : forall allowed es1 es2 st c i,
  run allowed (es1 ++ ERemove c :: es2) init = Some st -> In (ELogin c i) es2 ->
  ~ In (HEnded c (Some i) true) (log st).
Proof.
  intros a es1 es2 st c i R L.
  pose proof (inv_run _ _ _ R) as (I0 & _). specialize (I0 c). 
  rewrite run_app in R. destruct (run a es1 init) as [s1|] eqn:R1; [|discriminate].
  cbn in R. destruct (step a s1 (ERemove c)) as [s2|] eqn:S; cbn in S; rewrite S in R; [|discriminate].
  assert (S' : step a s1 (ERemove c) = Some s2) by exact S.
  destruct (removal _ _ _ _ _ R1 S') as (k & K & P & ES & _).
  pose proof (inv_run _ _ _ R1) as (I1 & _). specialize (I1 c). rewrite K in I1. destruct I1 as [C1 _].
  apply logins_in in L.
  assert (Z : logins c i es1 = 0%nat).
  { destruct (conns st c) as [kt|] eqn:KT.
    - destruct I0 as [CT _]. pose proof (ci_once _ _ _ _ _ CT i) as X. rewrite logins_app in X.
      change (ERemove c :: es2) with ([ERemove c] ++ es2) in X. rewrite logins_app in X. lia.
    - destruct I0 as (_ & X & _). specialize (X i). rewrite logins_app in X. lia. }
  set (q := fun s => match conns s c with Some kk => late (ph kk) = true /\ (count osid_eqb (Some i) (left kk) + times (HEnded c (Some i) true) (log s) = 0)%nat | None => False end).
  assert (Q2 : q s2).
  { unfold q. rewrite ES. cbn [set_conn conns log]. rewrite N.eqb_refl. cbn [ph left late]. split; [reflexivity|].
    destruct (ci_early _ _ _ _ _ C1) as [_ T]; [rewrite P; reflexivity|]. rewrite T.
    pose proof (ci_end _ _ _ _ _ C1 i). lia. }
  assert (QS : forall s e s', step a s e = Some s' -> q s -> q s').
  { clear. intros s e s' S Q. unfold q in *. destruct (conns s c) as [k|] eqn:K; [|contradiction]. destruct Q as [LT Q].
    destruct (subject e) as [d|] eqn:SJ.
    - destruct (N.eq_dec c d) as [<-|ND].
      + destruct e as [c0|c0 ok|c0|c0|c0 x|c0|c0 x|c0 x|c0 x|c0|c0 t|c0|m]; cbn [subject] in SJ; inversion SJ; subst c0; clear SJ;
          cbn in S; rewrite K in S;
          repeat match type of S with
          | context [if ?x then _ else _] => let E := fresh "E" in destruct x eqn:E
          | context [match ?x with _ => _ end] => let E := fresh "E" in destruct x eqn:E
          end; try discriminate; try (cbn [late] in LT; discriminate); inversion S; subst s'; clear S;
          unfold call, set_conn; cbn [conns log]; rewrite ?N.eqb_refl, ?K; cbn [ph left late]; (split; [first [exact LT | reflexivity]|]);
          rewrite ?times_app; cbn [hook_eqb]; rewrite ?N.eqb_refl; cbn [andb Bool.eqb]; rewrite ?andb_false_r, ?andb_true_r; try lia.
        pose proof (count_drop _ osid_eqb osid_eqb_eq t (Some i) (left k)) as X.
        match goal with H : has osid_eqb t (left k) = true |- _ => specialize (X H) end. destruct (osid_eqb (Some i) t); lia.
      + destruct (step_other _ _ _ _ c S) as (C1 & C2 & _); [congruence | congruence |].
        rewrite C1, K. rewrite !C2 by reflexivity. auto.
    - destruct e; cbn in SJ; try discriminate. cbn in S. inversion S; subst s'; clear S. cbn [conns log]. rewrite K.
      destruct (registered k); cbn [left ph]; auto. }
  assert (QR : forall fs s t, run a fs s = Some t -> q s -> q t).
  { intros fs. induction fs as [|e r IH]; intros s t H Q; cbn in H; [inversion H; subst; exact Q|].
    destruct (step a s e) as [u|] eqn:SE; [|discriminate]. eapply IH; [exact H|]. eapply QS; eauto. }
  specialize (QR _ _ _ R Q2). unfold q in QR. destruct (conns st c); [|contradiction].
  intros X. apply times_in in X. lia.
Qed.

Definition hooks_of (c : N) (l : list hook) : list hook := filter (fun h => client_of h =? c) l.

Lemma step_hooks : forall a st e st' d, step a st e = Some st' -> subject e <> Some d ->
  hooks_of d (log st') = hooks_of d (log st).
Proof.
  intros a st e st' d S N1. destruct (step_log _ _ _ _ S) as [-> | (h & -> & Q)]; [reflexivity|].
  unfold hooks_of. rewrite filter_app. cbn.
  assert ((client_of h =? d) = false) as ->.
  { apply N.eqb_neq. intros X. apply N1. destruct h as [c|c i|c [i|] [|]|c]; cbn in *; try tauto; destruct Q as (-> & _); cbn; congruence. }
  apply app_nil_r.
Qed.

(* A connection the Backend rejects still gets client_session_ended for the default session
   and client_disconnected, and nothing else. *)
Theorem C85_rejected : forall allowed es st c, run allowed es init = Some st -> In (EAnswer c false) es ->
  exists rest, hooks_of c (log st) ++ rest = [HConnected c; HEnded c None true; HDisconnected c] /\
    (rest = [] <-> In (EGone c) es).
Proof.
  intros a es st c R A.
  set (P := fun (es : list event) (s : state) => forall k, conns s c = Some k -> (ph k = Connecting \/ In (EAnswer c false) es) ->
    jobs k = 0%nat /\ sessions k = [None] /\ authing k = [] /\ outing k = [] /\
    match ph k with
    | Connecting | Dropped => left k = [] /\ hooks_of c (log s) = [HConnected c]
    | Serving => False
    | Ending => (left k = [None] /\ hooks_of c (log s) = [HConnected c]) \/
                (left k = [] /\ hooks_of c (log s) = [HConnected c; HEnded c None true])
    | Gone => left k = [] /\ hooks_of c (log s) = [HConnected c; HEnded c None true; HDisconnected c]
    end).
  assert (G : forall es s, run a es init = Some s -> P es s).
  { apply run_ind; unfold P; [intros k X; discriminate|].
    intros es0 s e s' R0 IH S k' K' X.
    destruct (subject e) as [d|] eqn:SJ.
    - destruct (N.eq_dec c d) as [<-|ND].
      + destruct (conns s c) as [k|] eqn:K.
        * specialize (IH k eq_refl).
          destruct e as [c0|c0 ok|c0|c0|c0 x|c0|c0 x|c0 x|c0 x|c0|c0 t|c0|m]; cbn [subject] in SJ; inversion SJ; subst c0; clear SJ;
            cbn in S; rewrite K in S.
          -- destruct a; cbn in S; [discriminate|]. inversion S; subst s'. rewrite K in K'. inversion K'; subst k'.
             apply IH. destruct X as [X|X]; [auto|]. apply in_app_or in X. destruct X as [X|[X|[]]]; [auto | discriminate].
          -- destruct (ph k) eqn:PH; try discriminate. inversion S; subst s'; clear S. cbn in K'. rewrite N.eqb_refl in K'.
             inversion K'; subst k'; clear K'. cbn [ph jobs sessions authing outing left log set_conn] in *.
             destruct (IH (or_introl eq_refl)) as (B1 & B2 & B3 & B4 & B5).
             destruct ok; [|auto 10].
             destruct X as [X|X]; [discriminate|]. apply in_app_or in X. destruct X as [X|[X|[]]]; [|discriminate].
             exfalso. assert (U : forall es t, run a es init = Some t -> In (EAnswer c false) es -> exists kk, conns t c = Some kk /\ ph kk <> Connecting).
             { clear. apply (run_ind a (fun es t => In (EAnswer c false) es -> exists kk, conns t c = Some kk /\ ph kk <> Connecting)); [intros []|].
               intros es s e s' R IH S X. apply in_app_or in X.
               assert (KEEP : (exists kk, conns s c = Some kk /\ ph kk <> Connecting) -> exists kk, conns s' c = Some kk /\ ph kk <> Connecting).
               { intros (kk & KK & NP). destruct (subject e) as [d|] eqn:SJ.
                 - destruct (N.eq_dec c d) as [<-|ND].
                   + destruct e as [c0|c0 ok|c0|c0|c0 x|c0|c0 x|c0 x|c0 x|c0|c0 t|c0|m]; cbn [subject] in SJ; inversion SJ; subst c0; clear SJ;
                       cbn in S; rewrite KK in S;
                       repeat match type of S with
                       | context [if ?x then _ else _] => let E := fresh "E" in destruct x eqn:E
                       | context [match ?x with _ => _ end] => let E := fresh "E" in destruct x eqn:E
                       end; try discriminate; try congruence; inversion S; subst s'; clear S; cbn; rewrite ?N.eqb_refl, ?KK; eexists; (split; [reflexivity|]); cbn [ph]; congruence.
                   + destruct (step_other _ _ _ _ c S) as (C1 & _ & _); [congruence | congruence |]. rewrite C1. eauto.
                 - destruct e; cbn in SJ; try discriminate. cbn in S. inversion S; subst s'. cbn. rewrite KK. destruct (registered kk); eexists; (split; [reflexivity|]); cbn [ph]; exact NP. }
               destruct X as [X|[X|[]]]; [apply KEEP, IH, X|]. subst e. cbn in S. destruct (conns s c) as [kk|]; [|discriminate].
               destruct (ph kk); try discriminate. inversion S; subst s'. cbn. rewrite N.eqb_refl. eexists. split; [reflexivity|]. cbn. discriminate. }
             destruct (U _ _ R0 X) as (kk & KK & NP). rewrite K in KK. inversion KK; subst kk. congruence.
          -- destruct (ph k) eqn:PH; try discriminate. inversion S; subst s'; clear S. cbn in K'. rewrite N.eqb_refl in K'.
             inversion K'; subst k'; clear K'. cbn [ph] in *. destruct X as [X|X]; [discriminate|].
             apply in_app_or in X. destruct X as [X|[X|[]]]; [|discriminate]. destruct (IH (or_intror X)) as (_ & _ & _ & _ & []).
          -- destruct (ph k) eqn:PH; try discriminate. inversion S; subst s'; clear S. cbn in K'. rewrite N.eqb_refl in K'.
             inversion K'; subst k'; clear K'. cbn [ph] in *. destruct X as [X|X]; [discriminate|].
             apply in_app_or in X. destruct X as [X|[X|[]]]; [|discriminate]. destruct (IH (or_intror X)) as (_ & _ & _ & _ & []).
          -- destruct (jobs k) as [|n] eqn:JK; [discriminate|]. destruct (has N.eqb x (used s)); [discriminate|].
             inversion S; subst s'; clear S. cbn in K'. rewrite N.eqb_refl in K'. inversion K'; subst k'; clear K'. cbn [ph] in X.
             exfalso. assert (Datatypes.S n = 0%nat) by (apply IH; destruct X as [X|X]; [auto|]; apply in_app_or in X; destruct X as [X|[X|[]]]; [auto | discriminate]). discriminate.
          -- destruct (jobs k) as [|n] eqn:JK; [discriminate|].
             inversion S; subst s'; clear S. cbn in K'. rewrite N.eqb_refl in K'. inversion K'; subst k'; clear K'. cbn [ph] in X.
             exfalso. assert (Datatypes.S n = 0%nat) by (apply IH; destruct X as [X|X]; [auto|]; apply in_app_or in X; destruct X as [X|[X|[]]]; [auto | discriminate]). discriminate.
          -- destruct (has N.eqb x (authing k)) eqn:HA; [|discriminate].
             inversion S; subst s'; clear S. cbn in K'. rewrite N.eqb_refl in K'. inversion K'; subst k'; clear K'. cbn [ph] in X.
             exfalso. assert (authing k = []) as Z by (apply IH; destruct X as [X|X]; [auto|]; apply in_app_or in X; destruct X as [X|[X|[]]]; [auto | discriminate]). rewrite Z in HA. discriminate.
          -- destruct (jobs k) as [|n] eqn:JK; [discriminate|].
             exfalso. assert (Datatypes.S n = 0%nat); [|discriminate]. apply IH.
             destruct (has osid_eqb (Some x) (sessions k)); inversion S; subst s'; clear S; cbn in K'; rewrite N.eqb_refl in K'; inversion K'; subst k'; clear K'; cbn [ph] in X;
             (destruct X as [X|X]; [auto|]; apply in_app_or in X; destruct X as [X|[X|[]]]; [auto | discriminate]).
          -- destruct (has N.eqb x (outing k)) eqn:HA; [|discriminate].
             inversion S; subst s'; clear S. cbn in K'. rewrite N.eqb_refl in K'. inversion K'; subst k'; clear K'. cbn [ph] in X.
             exfalso. assert (outing k = []) as Z by (apply IH; destruct X as [X|X]; [auto|]; apply in_app_or in X; destruct X as [X|[X|[]]]; [auto | discriminate]). rewrite Z in HA. discriminate.
          -- destruct (ph k) eqn:PH; try discriminate. inversion S; subst s'; clear S. cbn in K'. rewrite N.eqb_refl in K'.
             inversion K'; subst k'; clear K'. cbn [ph] in X. destruct X as [X|X]; [discriminate|].
             apply in_app_or in X. destruct X as [X|[X|[]]]; [|discriminate].
             destruct (IH (or_intror X)) as (B1 & B2 & B3 & B4 & B5 & B6). cbn [ph jobs sessions authing outing left log set_conn]. rewrite B2. auto 10.
          -- destruct (ph k) eqn:PH; try discriminate. destruct (has osid_eqb t (left k)) eqn:HL; [|discriminate].
             inversion S; subst s'; clear S. cbn in K'. rewrite N.eqb_refl in K'.
             inversion K'; subst k'; clear K'. cbn [ph] in X. destruct X as [X|X]; [discriminate|].
             apply in_app_or in X. destruct X as [X|[X|[]]]; [|discriminate].
             destruct (IH (or_intror X)) as (B1 & B2 & B3 & B4 & B5). cbn [ph jobs sessions authing outing left].
             split; [exact B1|]. split; [exact B2|]. split; [exact B3|]. split; [exact B4|]. right.
             destruct B5 as [[B5 B6]|[B5 B6]]; rewrite B5 in HL; [|discriminate]. cbn in HL. destruct t; [discriminate|].
             rewrite B5. split; [reflexivity|]. cbn [call set_conn log]. unfold hooks_of in *. rewrite filter_app, B6. cbn. rewrite N.eqb_refl. reflexivity.
          -- destruct (ph k) eqn:PH; try discriminate. destruct (left k) eqn:LK; [|discriminate].
             inversion S; subst s'; clear S. cbn in K'. rewrite N.eqb_refl in K'.
             inversion K'; subst k'; clear K'. cbn [ph] in X. destruct X as [X|X]; [discriminate|].
             apply in_app_or in X. destruct X as [X|[X|[]]]; [|discriminate].
             destruct (IH (or_intror X)) as (B1 & B2 & B3 & B4 & B5). cbn [ph jobs sessions authing outing left].
             split; [exact B1|]. split; [exact B2|]. split; [exact B3|]. split; [exact B4|]. split; [reflexivity|].
             destruct B5 as [[B5 B6]|[B5 B6]]; [discriminate|].
             cbn [call set_conn log]. unfold hooks_of in *. rewrite filter_app, B6. cbn. rewrite N.eqb_refl. reflexivity.
        * destruct e as [c0|c0 ok|c0|c0|c0 x|c0|c0 x|c0 x|c0 x|c0|c0 t|c0|m]; cbn [subject] in SJ; inversion SJ; subst c0; clear SJ;
            cbn in S; rewrite K in S; try discriminate.
          destruct a; cbn in S; inversion S; subst s'; clear S; [|congruence].
          cbn in K'. rewrite N.eqb_refl in K'. inversion K'; subst k'. cbn [ph jobs sessions authing outing left call log].
          repeat split; auto. unfold hooks_of. rewrite filter_app. cbn. rewrite N.eqb_refl.
          destruct (inv_run _ _ _ R0) as (I & _). specialize (I c). rewrite K in I. destruct I as [T _].
          destruct (filter (fun h => client_of h =? c) (log s)) as [|h r] eqn:F; [reflexivity|]. exfalso.
          assert (In h (filter (fun h => client_of h =? c) (log s))) as Y by (rewrite F; left; reflexivity).
          apply filter_In in Y. destruct Y as [Y1 Y2]. apply N.eqb_eq in Y2. apply times_in in Y1. rewrite T in Y1 by exact Y2. lia.
      + destruct (step_other _ _ _ _ c S) as (C1 & _ & _); [congruence | congruence |]. rewrite C1 in K'.
        rewrite (step_hooks _ _ _ _ c S) by congruence. apply IH; [exact K'|].
        destruct X as [X|X]; [auto|]. apply in_app_or in X. destruct X as [X|[X|[]]]; [auto|]. subst e. cbn in SJ. congruence.
    - destruct e; cbn in SJ; try discriminate. cbn in S. inversion S; subst s'; clear S. cbn in K'. cbn [log].
      destruct (conns s c) as [k|] eqn:K; [|discriminate].
      assert (k' = k \/ k' = mkConn (ph k) (sessions k) (jobs k) (authing k) (outing k) (left k) (outbox k ++ [m])) as KK
        by (destruct (registered k); inversion K'; auto).
      assert (X' : ph k = Connecting \/ In (EAnswer c false) es0).
      { destruct X as [X|X]; [left; destruct KK; subst k'; exact X|]. apply in_app_or in X. destruct X as [X|[X|[]]]; [auto | discriminate]. }
      specialize (IH k eq_refl X'). destruct KK; subst k'; exact IH. }
  specialize (G _ _ R).
  destruct (pinv_run _ _ _ R) as (PI & _ & _).
  assert (exists k, conns st c = Some k) as (k & K).
  { clear - R A. revert es st R A.
    apply (run_ind a (fun es t => In (EAnswer c false) es -> exists kk, conns t c = Some kk)); [intros []|].
    intros es s e s' R IH S X. apply in_app_or in X.
    assert (KN : (exists kk, conns s c = Some kk)).
    { destruct X as [X|[X|[]]]; [apply IH, X|]. subst e. cbn in S. destruct (conns s c); [eauto | discriminate]. }
    destruct (conns s' c) as [kk|] eqn:KK; [eauto|]. exfalso. destruct KN as (kk & K).
    pose proof (known_times _ _ _ _ _ R K) as IN.
    assert (R' : run a (es ++ [e]) init = Some s') by (rewrite run_app, R; cbn; rewrite S; reflexivity).
    destruct (inv_run _ _ _ R') as (I & _). specialize (I c). rewrite KK in I. destruct I as [T _].
    assert (In (HConnected c) (log s')) as IN' by (destruct (step_log _ _ _ _ S) as [-> | (h & -> & _)]; [exact IN | apply in_or_app; auto]).
    apply times_in in IN'. rewrite T in IN' by reflexivity. lia. }
  destruct (G k K (or_intror A)) as (_ & _ & _ & _ & B). destruct (PI c k K) as (_ & _ & _ & GO).
  destruct (ph k).
  - destruct B as [_ ->]. exists [HEnded c None true; HDisconnected c]. split; [reflexivity|]. rewrite <- GO. split; discriminate.
  - contradiction.
  - destruct B as [_ ->]. exists [HEnded c None true; HDisconnected c]. split; [reflexivity|]. rewrite <- GO. split; discriminate.
  - destruct B as [[_ ->]|[_ ->]].
    + exists [HEnded c None true; HDisconnected c]. split; [reflexivity|]. rewrite <- GO. split; discriminate.
    + exists [HDisconnected c]. split; [reflexivity|]. rewrite <- GO. split; discriminate.
  - destruct B as [_ ->]. exists []. split; [reflexivity|]. rewrite <- GO. split; reflexivity.
Qed.

(* examples *)
Definition after (es : list event) : state := match run true es init with Some s => s | None => init end.

(* one client logs in twice, logs out of one session and leaves *)
Definition ex_es : list event :=
  [EConnect 1; EAnswer 1 true; EAccept 1; ELogin 1 7; EAuth 1 7; EBroadcast 40; EAccept 1; ELogin 1 8; EAuth 1 8;
   EConnect 2; EAccept 1; ELogout 1 7; EEnd 1 7; EClose 1; EBroadcast 41].
Definition ex_es2 : list event := [EEndOne 1 (Some 8); EBroadcast 42; EEndOne 1 None; EGone 1; EAnswer 2 false].
Example ex_once : run true (ex_es ++ ERemove 1 :: ex_es2) init = Some (after (ex_es ++ ERemove 1 :: ex_es2)) /\
  log (after (ex_es ++ ERemove 1 :: ex_es2)) =
   [HConnected 1; HAuthenticated 1 7; HAuthenticated 1 8; HConnected 2; HEnded 1 (Some 7) false;
    HEnded 1 (Some 8) true; HEnded 1 None true; HDisconnected 1].
Proof. split; vm_compute; reflexivity. Qed.
Example ex_quiet : exists k, conns (after ex_es) 1 = Some k /\ jobs k = 0%nat /\ authing k = [] /\ outing k = [] /\
  run true (ERemove 1 :: ex_es2) (after ex_es) = Some (after (ex_es ++ ERemove 1 :: ex_es2)).
Proof. exists (mkConn Dropped [Some 8; None] 0 [] [] [] [40; 41]). repeat match goal with |- _ /\ _ => split end; vm_compute; reflexivity. Qed.
Example ex_clients : connected_clients (after (ex_es ++ ERemove 1 :: ex_es2)) = [2] /\
  sent (after (ex_es ++ ERemove 1 :: ex_es2)) 1 = [40; 41] /\ sent (after (ex_es ++ ERemove 1 :: ex_es2)) 2 = [41; 42].
Proof. repeat match goal with |- _ /\ _ => split end; vm_compute; reflexivity. Qed.
Example ex_polite : polite ex_es.
Proof.
  intros e1 c i e2 E L. unfold ex_es in E.
  do 15 (destruct e1 as [|x e1]; cbn [app] in E;
    [try discriminate; injection E as <- <- _; clear; cbn; auto 15 | injection E as <- E]).
  destruct e1; discriminate.
Qed.
Example ex_denied : run false [EConnect 1; EBroadcast 5; EConnect 1] init <> None.
Proof. vm_compute. discriminate. Qed.
Definition ex_rej : list event := [EConnect 1; EBroadcast 5; EAnswer 1 false; ERemove 1; EEndOne 1 None].
Example ex_rejected : run true ex_rej init = Some (after ex_rej) /\ In (EAnswer 1 false) ex_rej /\
  hooks_of 1 (log (after ex_rej)) = [HConnected 1; HEnded 1 None true].
Proof. split; [vm_compute; reflexivity|]. split; [cbn; auto | vm_compute; reflexivity]. Qed.

(* "client_authenticated comes before client_disconnected, and every session reported
   authenticated is reported ended": false.  A login handled while the client is leaving. *)
Definition bad_late : list event :=
  [EConnect 1; EAnswer 1 true; EAccept 1; EClose 1; ERemove 1; EEndOne 1 None; EGone 1; ELogin 1 7; EAuth 1 7].
Theorem C85_every_login_ends_refuted : exists es c i l,
  run true es init = Some (after es) /\ log (after es) = l ++ [HAuthenticated c i] /\ In (HDisconnected c) l /\
  forall es2 st, run true es2 (after es) = Some st -> forall d, ~ In (HEnded c (Some i) d) (log st).
Proof.
  exists bad_late, 1, 7, [HConnected 1; HEnded 1 None true; HDisconnected 1].
  assert (R : run true bad_late init = Some (after bad_late)) by (vm_compute; reflexivity).
  split; [exact R|]. split; [vm_compute; reflexivity|]. split; [cbn; auto|].
  intros es2 st H d X.
  set (K := mkConn Gone [Some 7; None] 0 [] [] [] []).
  assert (G : forall fs s t, run true fs s = Some t -> conns s 1 = Some K -> (forall d, ~ In (HEnded 1 (Some 7) d) (log s)) ->
     conns t 1 = Some K /\ (forall d, ~ In (HEnded 1 (Some 7) d) (log t))).
  { clear. induction fs as [|e r IH]; intros s t H KS NI; cbn in H; [inversion H; subst; auto|].
    destruct (step true s e) as [u|] eqn:S; [|discriminate]. apply (IH u t H).
    - destruct (subject e) as [c|] eqn:SJ.
      + destruct (N.eq_dec 1 c) as [<-|ND].
        * destruct e; cbn in SJ; inversion SJ; subst; cbn in S; rewrite KS in S; cbn in S; discriminate.
        * destruct (step_other _ _ _ _ 1 S) as (C1 & _ & _); [congruence | congruence |]. rewrite C1. exact KS.
      + destruct e; cbn in SJ; try discriminate. cbn in S. inversion S; subst u. cbn. rewrite KS. reflexivity.
    - intros d X. destruct (step_log _ _ _ _ S) as [L | (h & L & Q)]; rewrite L in X; [exact (NI d X)|].
      apply in_app_or in X. destruct X as [X|[X|[]]]; [exact (NI d X)|]. subst h.
      destruct d; destruct Q as (_ & k & K1 & Q); rewrite KS in K1; inversion K1; subst k; [destruct Q as [Q _]|]; vm_compute in Q; discriminate. }
  destruct (G es2 _ _ H) as [_ N1].
  - vm_compute. reflexivity.
  - intros d' Y. vm_compute in Y. destruct Y as [Y|[Y|[Y|[Y|[]]]]]; discriminate.
  - exact (N1 d X).
Qed.

(* "A session is reported ended only once": false, a log-out handled while the client is
   leaving reports it again. *)
Definition bad_twice : list event :=
  [EConnect 1; EAnswer 1 true; EAccept 1; ELogin 1 7; EAuth 1 7; EAccept 1; EClose 1; ERemove 1; ELogout 1 7; EEnd 1 7; EEndOne 1 (Some 7)].
Theorem C85_ended_once_refuted : exists es c i, run true es init = Some (after es) /\
  In (HEnded c (Some i) false) (log (after es)) /\ In (HEnded c (Some i) true) (log (after es)).
Proof. exists bad_twice, 1, 7. split; [vm_compute; reflexivity|]. split; vm_compute; auto 10. Qed.

(* "A session is reported ended only after it was reported authenticated": false *)
Definition bad_order : list event :=
  [EConnect 1; EAnswer 1 true; EAccept 1; ELogin 1 7; EClose 1; ERemove 1; EEndOne 1 (Some 7); EEndOne 1 None; EGone 1; EAuth 1 7].
Theorem C85_ended_after_authenticated_refuted : exists es c i l, run true es init = Some (after es) /\
  log (after es) = l ++ [HAuthenticated c i] /\ In (HEnded c (Some i) true) l.
Proof.
  exists bad_order, 1, 7, [HConnected 1; HEnded 1 (Some 7) true; HEnded 1 None true; HDisconnected 1].
  split; [vm_compute; reflexivity|]. split; [vm_compute; reflexivity|]. cbn. auto.
Qed.

(* "A broadcast reaches only clients the Backend accepted": false *)
Theorem C85_broadcast_accepted_refuted : exists es c m, run true es init = Some (after es) /\
  sent (after es) c = [m] /\ ~ In (EAnswer c true) es /\ In (EAnswer c false) es.
Proof.
  exists ex_rej, 1, 5. split; [vm_compute; reflexivity|]. split; [vm_compute; reflexivity|].
  split; [intros X; cbn in X; intuition discriminate | cbn; auto].
Qed.

Print Assumptions C85_once.
Print Assumptions C85_connected_first.
Print Assumptions C85_caused.
Print Assumptions C85_denied.
Print Assumptions C85_connected_clients.
Print Assumptions C85_broadcast.
Print Assumptions C85_each_ends.
Print Assumptions C85_disconnected_last.
Print Assumptions C85_quiet.
Print Assumptions C85_logout_after_login.
Print Assumptions C85_late_login_not_ended.
Print Assumptions C85_rejected.
Print Assumptions C85_every_login_ends_refuted.
Print Assumptions C85_ended_once_refuted.
Print Assumptions C85_ended_after_authenticated_refuted.
Print Assumptions C85_broadcast_accepted_refuted.
