(* The invariant behind PropClientHooks. *)
From Coq Require Import List NArith Bool Lia Arith ZifyBool.
From Verif Require Import ClientHooks.
Import ListNotations.
Open Scope N_scope.

Definition hook_eqb (a b : hook) : bool :=
  match a, b with
  | HConnected c, HConnected d => c =? d
  | HAuthenticated c i, HAuthenticated d j => (c =? d) && (i =? j)
  | HEnded c s b, HEnded d t b' => (c =? d) && osid_eqb s t && Bool.eqb b b'
  | HDisconnected c, HDisconnected d => c =? d
  | _, _ => false
  end.

(* how often something occurs in a list *)
Definition count {A} (eqb : A -> A -> bool) (a : A) (l : list A) : nat := length (filter (eqb a) l).
(* how often a hook was called *)
Definition times (h : hook) (l : list hook) : nat := count hook_eqb h l.
(* how often the connection was granted session i *)
Definition is_login (c i : N) (e : event) : bool :=
  match e with ELogin d j => (c =? d) && (i =? j) | _ => false end.
Definition logins (c i : N) (es : list event) : nat := length (filter (is_login c i) es).

Lemma osid_eqb_eq : forall a b, osid_eqb a b = true <-> a = b.
Proof.
  intros [a|] [b|]; cbn; rewrite ?N.eqb_eq; split; intros H; try congruence; try discriminate; auto.
Qed.
Lemma osid_eqb_refl : forall a, osid_eqb a a = true.
Proof. intros a. apply osid_eqb_eq. reflexivity. Qed.
Lemma hook_eqb_eq : forall a b, hook_eqb a b = true <-> a = b.
Proof.
  intros [c|c i|c s b|c] [d|d j|d t b'|d]; cbn; rewrite ?andb_true_iff, ?N.eqb_eq, ?osid_eqb_eq, ?Bool.eqb_true_iff;
    split; intros H; try congruence; try discriminate;
    try (inversion H; subst; auto; fail);
    repeat match goal with H : _ /\ _ |- _ => destruct H end; subst; auto.
Qed.
Lemma hook_eqb_refl : forall a, hook_eqb a a = true.
Proof. intros a. apply hook_eqb_eq. reflexivity. Qed.

Lemma count_app : forall A (e : A -> A -> bool) a l m, count e a (l ++ m) = (count e a l + count e a m)%nat.
Proof. intros. unfold count. rewrite filter_app, app_length. reflexivity. Qed.
Lemma count_cons : forall A (e : A -> A -> bool) a x l,
  count e a (x :: l) = ((if e a x then 1 else 0) + count e a l)%nat.
Proof. intros. unfold count. cbn. destruct (e a x); reflexivity. Qed.
Lemma count_nil : forall A (e : A -> A -> bool) a, count e a [] = 0%nat.
Proof. reflexivity. Qed.

Lemma count_has : forall A (e : A -> A -> bool) a l, has e a l = true <-> (1 <= count e a l)%nat.
Proof.
  intros A e a l. unfold has. induction l as [|x r IH]; cbn [existsb].
  - split; [discriminate | unfold count; cbn; lia].
  - rewrite count_cons. destruct (e a x); cbn [orb]; [split; auto; lia | rewrite IH; lia].
Qed.
Lemma count_drop : forall A (e : A -> A -> bool), (forall x y, e x y = true <-> x = y) ->
  forall a b l, has e a l = true ->
  (count e b (drop_one e a l) + (if e b a then 1 else 0) = count e b l)%nat.
Proof.
  intros A e E a b l. unfold has. induction l as [|x r IH]; cbn [existsb drop_one]; [discriminate|].
  intros H. destruct (e a x) eqn:Ax.
  - apply E in Ax. subst x. rewrite count_cons. lia.
  - cbn in H. specialize (IH H). rewrite !count_cons. lia.
Qed.

Lemma count_in : forall A (e : A -> A -> bool), (forall x y, e x y = true <-> x = y) ->
  forall a l, (1 <= count e a l)%nat <-> In a l.
Proof.
  intros A e E a l. rewrite <- count_has. unfold has. rewrite existsb_exists.
  split; [intros (x & I & X); apply E in X; subst; exact I | intros I; exists a; split; [exact I | apply E; reflexivity]].
Qed.

Lemma logins_app : forall c i es fs, logins c i (es ++ fs) = (logins c i es + logins c i fs)%nat.
Proof. intros. unfold logins. rewrite filter_app, app_length. reflexivity. Qed.
Lemma logins_in : forall c i es, (1 <= logins c i es)%nat <-> In (ELogin c i) es.
Proof.
  intros c i es. unfold logins. induction es as [|e r IH]; cbn; [split; [lia | tauto]|].
  destruct (is_login c i e) eqn:Ie; cbn.
  - split; [intros _ | lia]. destruct e; cbn in Ie; try discriminate.
    apply andb_true_iff in Ie. destruct Ie as [X Y]. apply N.eqb_eq in X, Y. subst. left; reflexivity.
  - rewrite IH. split; [auto|]. intros [-> | X]; [|exact X].
    cbn in Ie. rewrite !N.eqb_refl in Ie. discriminate.
Qed.

Definition late (p : phase) : bool := match p with Ending | Gone => true | _ => false end.

(* what holds for a connection *)
Record cinv (es : list event) (lg : list hook) (us : list N) (c : N) (k : conn) : Prop := mkCinv {
  ci_auth : forall i, (count N.eqb i (authing k) + times (HAuthenticated c i) lg = logins c i es)%nat;
  ci_end : forall i, (count osid_eqb (Some i) (sessions k) + count N.eqb i (outing k)
                      + times (HEnded c (Some i) false) lg = logins c i es)%nat;
  ci_once : forall i, (logins c i es <= 1)%nat;
  ci_none : count osid_eqb None (sessions k) = 1%nat;
  ci_nonef : times (HEnded c None false) lg = 0%nat;
  ci_left : forall s, (count osid_eqb s (left k) + times (HEnded c s true) lg <= 1)%nat;
  ci_early : late (ph k) = false -> left k = [] /\ forall s, times (HEnded c s true) lg = 0%nat;
  ci_gone : ph k = Gone -> left k = [];
  ci_conn : times (HConnected c) lg = 1%nat;
  ci_disc : times (HDisconnected c) lg = match ph k with Gone => 1%nat | _ => 0%nat end;
  ci_src : forall i, (1 <= count osid_eqb (Some i) (left k) + times (HEnded c (Some i) true) lg)%nat -> (1 <= logins c i es)%nat
}.

Definition inv (es : list event) (st : state) : Prop :=
  (forall c, match conns st c with
             | None => (forall h, client_of h = c -> times h (log st) = 0%nat) /\
                       (forall i, logins c i es = 0%nat) /\ ~ In c (seen st)
             | Some k => cinv es (log st) (used st) c k /\ In c (seen st)
             end) /\
  (forall c i, (1 <= logins c i es)%nat -> In i (used st)) /\
  (forall c d i, (1 <= logins c i es)%nat -> (1 <= logins d i es)%nat -> c = d) /\
  NoDup (seen st).

Lemma run_app : forall a es fs st, run a (es ++ fs) st = match run a es st with Some s => run a fs s | None => None end.
Proof.
  intros a es. induction es as [|e r IH]; intros; cbn; [reflexivity|].
  destruct (step a st e); [apply IH | reflexivity].
Qed.
Lemma run_snoc : forall a es e st st', run a (es ++ [e]) st = Some st' ->
  exists s, run a es st = Some s /\ step a s e = Some st'.
Proof.
  intros a es e st st' H. rewrite run_app in H. destruct (run a es st) as [s|]; [|discriminate].
  exists s. split; [reflexivity|]. cbn in H. destruct (step a s e); congruence.
Qed.
Lemma run_ind : forall a (P : list event -> state -> Prop),
  P [] init ->
  (forall es s e s', run a es init = Some s -> P es s -> step a s e = Some s' -> P (es ++ [e]) s') ->
  forall es st, run a es init = Some st -> P es st.
Proof.
  intros a P H0 HS es. induction es as [|e es IH] using rev_ind; intros st R.
  - cbn in R. inversion R; subst. exact H0.
  - apply run_snoc in R. destruct R as (s & R & S1). eapply HS; eauto.
Qed.

(* the shape of every step, for the connection it is about *)
Definition subject (e : event) : option N :=
  match e with
  | EConnect c | EAnswer c _ | EClose c | EAccept c | ELogin c _ | EOther c | EAuth c _
  | ELogout c _ | EEnd c _ | ERemove c | EEndOne c _ | EGone c => Some c
  | EBroadcast _ => None
  end.

Lemma times_app : forall h l h', times h (l ++ [h']) = (times h l + (if hook_eqb h h' then 1 else 0))%nat.
Proof. intros. unfold times. rewrite count_app, count_cons, count_nil. lia. Qed.

Lemma logins_snoc : forall c i es e, logins c i (es ++ [e]) = (logins c i es + (if is_login c i e then 1 else 0))%nat.
Proof. intros. rewrite logins_app. unfold logins at 2. cbn. destruct (is_login c i e); reflexivity. Qed.

(* steps say nothing about other connections *)
Lemma step_other : forall a st e st' d, step a st e = Some st' -> subject e <> Some d -> subject e <> None ->
  conns st' d = conns st d /\
  (forall h, client_of h = d -> times h (log st') = times h (log st)) /\
  (forall i, is_login d i e = false).
Proof.
  intros a st e st' d H N1 N2.
  assert (D : forall c, Some c <> Some d -> (d =? c) = false) by (intros c X; apply N.eqb_neq; congruence).
  assert (HT : forall h h' l, client_of h = d -> Some (client_of h') <> Some d -> times h (l ++ [h']) = times h l).
  { intros h h' l C1 C2. rewrite times_app. destruct (hook_eqb h h') eqn:X; [|lia].
    apply hook_eqb_eq in X. subst h'. congruence. }
  destruct e as [c|c ok|c|c|c i|c|c i|c i|c i|c|c s|c|m]; cbn [subject] in *; try congruence;
    pose proof (D _ N1) as D1; cbn in H;
    repeat match type of H with
      | context [if ?x then _ else _] => destruct x
      | context [match ?x with _ => _ end] => destruct x
      end; try discriminate; inversion H; subst st'; clear H; cbn [call set_conn conns log];
    rewrite ?D1; (split; [reflexivity | split; [intros h Hc; first [reflexivity | apply HT; [exact Hc | exact N1]] |
      intros j; cbn [is_login]; rewrite ?D1; reflexivity]]).
Qed.

Lemma step_used : forall a st e st', step a st e = Some st' -> 
  (forall i, In i (used st) -> In i (used st')) /\
  (forall c i, is_login c i e = true -> In i (used st') /\ ~ In i (used st)).
Proof.
  intros a st e st' H.
  destruct e as [c|c ok|c|c|c i|c|c i|c i|c i|c|c s|c|m]; cbn in H;
    repeat match type of H with
      | context [if ?x then _ else _] => let E := fresh "E" in destruct x eqn:E
      | context [match ?x with _ => _ end] => destruct x
      end; try discriminate; inversion H; subst st'; clear H; cbn [call set_conn used];
    split; auto; cbn [is_login]; intros; try discriminate; try (right; assumption).
  apply andb_true_iff in H. destruct H as [_ H]. apply N.eqb_eq in H. subst i0. split; [left; reflexivity|].
  intros I. unfold has in E. assert (existsb (N.eqb i) (used st) = true) by (apply existsb_exists; exists i; split; [exact I | apply N.eqb_refl]). congruence.
Qed.

Lemma step_seen : forall a st e st', step a st e = Some st' ->
  (seen st' = seen st \/ exists c, e = EConnect c /\ conns st c = None /\ seen st' = seen st ++ [c]).
Proof.
  intros a st e st' H.
  destruct e as [c|c ok|c|c|c i|c|c i|c i|c i|c|c s|c|m]; cbn in H;
    repeat match type of H with
      | context [if ?x then _ else _] => let E := fresh "E" in destruct x eqn:E
      | context [match ?x with _ => _ end] => let E := fresh "E" in destruct x eqn:E
      end; try discriminate; inversion H; subst st'; clear H; cbn [call set_conn seen]; auto.
  right. exists c. auto.
Qed.

Ltac cnt :=
  repeat match goal with
  | H : has N.eqb ?i ?l = true |- context [count N.eqb ?j (drop_one N.eqb ?i ?l)] =>
      pose proof (count_drop N N.eqb N.eqb_eq i j l H); generalize dependent (count N.eqb j (drop_one N.eqb i l)); intros
  | H : has osid_eqb ?i ?l = true |- context [count osid_eqb ?j (drop_one osid_eqb ?i ?l)] =>
      pose proof (count_drop _ osid_eqb osid_eqb_eq i j l H); generalize dependent (count osid_eqb j (drop_one osid_eqb i l)); intros
  end.

Lemma cinv_step : forall a es st e st' c k k', step a st e = Some st' -> subject e = Some c ->
  conns st c = Some k -> conns st' c = Some k' -> cinv es (log st) (used st) c k ->
  (forall i, (1 <= logins c i es)%nat -> In i (used st)) ->
  cinv (es ++ [e]) (log st') (used st') c k'.
Proof.
  intros a es st e st' c k k' H SJ K K' [I1 I2 I3 I4 I5 I6 I7 I8 I9 I10 I11] FR.
  destruct e as [c0|c0 ok|c0|c0|c0 i|c0|c0 i|c0 i|c0 i|c0|c0 s|c0|m]; cbn [subject] in SJ; inversion SJ; subst c0; clear SJ;
    cbn in H; rewrite K in H.
  - (* connect *) destruct a; cbn in H; [discriminate|]. inversion H; subst st'.
    rewrite K in K'. inversion K'; subst k'.
    constructor; intros; rewrite ?logins_snoc; cbn [is_login]; rewrite ?Nat.add_0_r; auto.
  - destruct (ph k) eqn:P; try discriminate. inversion H; subst st'; clear H.
    cbn in K'. rewrite N.eqb_refl in K'. inversion K'; subst k'; clear K'. cbn [call set_conn log used].
    destruct (I7 eq_refl) as [L0 T0].
    constructor; intros; rewrite ?logins_snoc in *; cbn [is_login ph sessions authing outing left] in *; rewrite ?Nat.add_0_r in *; auto.
    destruct ok; rewrite ?I10, ?P; reflexivity.
  - destruct (ph k) eqn:P; try discriminate. inversion H; subst st'; clear H.
    cbn in K'. rewrite N.eqb_refl in K'. inversion K'; subst k'; clear K'. cbn [call set_conn log used].
    constructor; intros; rewrite ?logins_snoc in *; cbn [is_login ph sessions authing outing left] in *; rewrite ?Nat.add_0_r in *; auto; try discriminate.
  - destruct (ph k) eqn:P; try discriminate. inversion H; subst st'; clear H.
    cbn in K'. rewrite N.eqb_refl in K'. inversion K'; subst k'; clear K'. cbn [call set_conn log used].
    constructor; intros; rewrite ?logins_snoc in *; cbn [is_login ph sessions authing outing left] in *; rewrite ?Nat.add_0_r in *; auto; try discriminate.
  - (* login *)
    destruct (jobs k) as [|n]; [discriminate|]. destruct (has N.eqb i (used st)) eqn:U; [discriminate|].
    inversion H; subst st'; clear H. cbn in K'. rewrite N.eqb_refl in K'. inversion K'; subst k'; clear K'.
    cbn [call set_conn log used].
    assert (Z : logins c i es = 0%nat).
    { destruct (logins c i es) eqn:Q; [reflexivity|]. exfalso.
      assert (In i (used st)) as I by (apply FR; lia).
      assert (has N.eqb i (used st) = true) by (apply existsb_exists; exists i; split; [exact I | apply N.eqb_refl]). congruence. }
    constructor; intros; rewrite ?logins_snoc in *; cbn [is_login ph sessions authing outing left] in *;
      rewrite ?count_cons in *; cbn [osid_eqb]; rewrite ?N.eqb_refl in *; cbn [andb] in *; auto.
    + specialize (I1 i0). destruct (N.eqb_spec i0 i); lia.
    + specialize (I2 i0). destruct (N.eqb_spec i0 i); lia.
    + specialize (I3 i0). destruct (N.eqb_spec i0 i); [subst; lia | lia].
    + specialize (I11 i0). destruct (N.eqb_spec i0 i); lia.
  - destruct (jobs k) as [|n]; [discriminate|]. inversion H; subst st'; clear H.
    cbn in K'. rewrite N.eqb_refl in K'. inversion K'; subst k'; clear K'. cbn [call set_conn log used].
    constructor; intros; rewrite ?logins_snoc in *; cbn [is_login ph sessions authing outing left] in *; rewrite ?Nat.add_0_r in *; auto.
  - (* auth *)
    destruct (has N.eqb i (authing k)) eqn:U; [|discriminate]. inversion H; subst st'; clear H.
    cbn in K'. rewrite N.eqb_refl in K'. inversion K'; subst k'; clear K'. cbn [call set_conn log used].
    constructor; intros; rewrite ?logins_snoc, ?times_app in *; cbn [is_login ph sessions authing outing left hook_eqb] in *;
      rewrite ?N.eqb_refl, ?Nat.add_0_r in *; cbn [andb] in *; auto.
    + specialize (I1 i0). pose proof (count_drop N N.eqb N.eqb_eq i i0 (authing k) U). destruct (N.eqb_spec i0 i); lia.
    + destruct (I7 H) as [L0 T0]. split; [exact L0|]. intros s. rewrite times_app. cbn [hook_eqb]. rewrite T0. reflexivity.
  - (* logout *)
    destruct (jobs k) as [|n]; [discriminate|].
    destruct (has osid_eqb (Some i) (sessions k)) eqn:U; inversion H; subst st'; clear H;
    cbn in K'; rewrite N.eqb_refl in K'; inversion K'; subst k'; clear K'; cbn [call set_conn log used];
    constructor; intros; rewrite ?logins_snoc in *; cbn [is_login ph sessions authing outing left] in *; rewrite ?count_cons, ?Nat.add_0_r in *; auto.
    + specialize (I2 i0). pose proof (count_drop _ osid_eqb osid_eqb_eq (Some i) (Some i0) (sessions k) U) as X.
      cbn [osid_eqb] in X. destruct (N.eqb_spec i0 i); lia.
    + pose proof (count_drop _ osid_eqb osid_eqb_eq (Some i) None (sessions k) U) as X. cbn [osid_eqb] in X. lia.
  - (* ended by logout *)
    destruct (has N.eqb i (outing k)) eqn:U; [|discriminate]. inversion H; subst st'; clear H.
    cbn in K'. rewrite N.eqb_refl in K'. inversion K'; subst k'; clear K'. cbn [call set_conn log used].
    constructor; intros; rewrite ?logins_snoc, ?times_app in *; cbn [is_login ph sessions authing outing left hook_eqb osid_eqb Bool.eqb] in *;
      rewrite ?N.eqb_refl, ?andb_false_r, ?Nat.add_0_r in *; cbn [andb] in *; rewrite ?andb_true_r, ?Nat.add_0_r in *; auto.
    + specialize (I2 i0). pose proof (count_drop N N.eqb N.eqb_eq i i0 (outing k) U). destruct (N.eqb_spec i0 i); lia.
    + destruct (I7 H) as [L0 T0]. split; [exact L0|]. intros s. rewrite times_app. cbn [hook_eqb Bool.eqb].
      rewrite T0, andb_false_r. reflexivity.
  - (* remove *)
    destruct (ph k) eqn:P; try discriminate. inversion H; subst st'; clear H.
    cbn in K'. rewrite N.eqb_refl in K'. inversion K'; subst k'; clear K'. cbn [call set_conn log used].
    destruct (I7 eq_refl) as [L0 T0].
    constructor; intros; rewrite ?logins_snoc in *; cbn [is_login ph sessions authing outing left late] in *; rewrite ?Nat.add_0_r in *; auto; try discriminate.
    + rewrite T0. destruct s as [i|]; [specialize (I2 i); specialize (I3 i); lia | lia].
    + rewrite T0 in H. specialize (I2 i). lia.
  - (* end one *)
    destruct (ph k) eqn:P; try discriminate.
    destruct (has osid_eqb s (left k)) eqn:U; [|discriminate]. inversion H; subst st'; clear H.
    cbn in K'. rewrite N.eqb_refl in K'. inversion K'; subst k'; clear K'. cbn [call set_conn log used].
    constructor; intros; rewrite ?logins_snoc, ?times_app in *; cbn [is_login ph sessions authing outing left hook_eqb Bool.eqb late] in *;
      rewrite ?N.eqb_refl, ?andb_false_r, ?Nat.add_0_r in *; cbn [andb] in *; rewrite ?andb_true_r, ?Nat.add_0_r in *; auto; try discriminate.
    + specialize (I6 s0). pose proof (count_drop _ osid_eqb osid_eqb_eq s s0 (left k) U). destruct (osid_eqb s0 s); lia.
    + specialize (I11 i). pose proof (count_drop _ osid_eqb osid_eqb_eq s (Some i) (left k) U). destruct (osid_eqb (Some i) s); lia.
  - (* gone *)
    destruct (ph k) eqn:P; try discriminate. destruct (left k) as [|? ?] eqn:L; [|discriminate]. inversion H; subst st'; clear H.
    cbn in K'. rewrite N.eqb_refl in K'. inversion K'; subst k'; clear K'. cbn [call set_conn log used].
    constructor; intros; rewrite ?logins_snoc, ?times_app in *; cbn [is_login ph sessions authing outing left hook_eqb late] in *;
      rewrite ?N.eqb_refl, ?Nat.add_0_r in *; cbn [andb] in *; auto; try discriminate.
    lia.
Qed.

Lemma inv_run : forall a es st, run a es init = Some st -> inv es st.
Proof.
  intros a. apply run_ind.
  - split; [|split; [|split]].
    + intros c. cbn. repeat split; auto.
    + cbn. lia.
    + cbn. lia.
    + constructor.
  - intros es s e s' R (I1 & I2 & I3 & I4) S.
    destruct (step_used _ _ _ _ S) as [U1 U2].
    split; [|split; [|split]].
    + intros d. destruct (subject e) as [c|] eqn:SJ.
      * destruct (N.eq_dec d c) as [->|ND].
        -- specialize (I1 c). destruct (conns s c) as [k|] eqn:K.
           ++ destruct I1 as [C SN].
              assert (SN' : In c (seen s')) by (destruct (step_seen _ _ _ _ S) as [-> | (x & _ & _ & ->)]; [exact SN | apply in_or_app; auto]).
              destruct (conns s' c) as [k'|] eqn:K'.
              ** split; [|exact SN']. eapply cinv_step; eauto.
              ** exfalso. destruct e as [c0|c0 ok|c0|c0|c0 i|c0|c0 i|c0 i|c0 i|c0|c0 t|c0|m]; cbn [subject] in SJ; inversion SJ; subst c0;
                 cbn in S; rewrite ?K in S;
                 repeat match type of S with
                 | context [if ?x then _ else _] => destruct x
                 | context [match ?x with _ => _ end] => destruct x
                 end; try discriminate; inversion S; subst s'; cbn in K'; rewrite ?N.eqb_refl in K'; congruence.
           ++ destruct I1 as (T & L & SN).
              destruct e as [c0|c0 ok|c0|c0|c0 i|c0|c0 i|c0 i|c0 i|c0|c0 t|c0|m]; cbn [subject] in SJ; inversion SJ; subst c0;
                 cbn in S; rewrite ?K in S; try discriminate.
              destruct a; cbn in S; inversion S; subst s'; clear S.
              ** cbn. rewrite N.eqb_refl. split; [|apply in_or_app; right; left; reflexivity].
                 constructor; intros; rewrite ?logins_snoc, ?times_app in *; cbn [is_login ph sessions authing outing left hook_eqb late] in *;
                   rewrite ?T, ?L, ?N.eqb_refl in * by reflexivity; cbn in *; try reflexivity; try lia.
                 split; [reflexivity|]. intros s0. rewrite times_app, T by reflexivity. reflexivity.
              ** rewrite K. split; [exact T|]. split; [|exact SN]. intros i. rewrite logins_snoc, L. reflexivity.
        -- destruct (step_other _ _ _ _ d S) as (C1 & C2 & C3); [congruence | congruence |].
           rewrite C1. specialize (I1 d). destruct (conns s d) as [k|].
           ++ destruct I1 as [C SN]. split.
              ** destruct C as [J1 J2 J3 J4 J5 J6 J7 J8 J9 J10 J11].
                 constructor; intros; rewrite ?logins_snoc, ?C3, ?Nat.add_0_r in *; rewrite ?C2 in * by reflexivity; auto.
                 destruct (J7 H) as [Z0 Z1]. split; [exact Z0|]. intros t. rewrite C2 by reflexivity. apply Z1.
              ** destruct (step_seen _ _ _ _ S) as [-> | (x & _ & _ & ->)]; [exact SN | apply in_or_app; auto].
           ++ destruct I1 as (T & L & SN). split; [intros h Hh; rewrite C2 by exact Hh; apply T; exact Hh|].
              split; [intros i; rewrite logins_snoc, L, C3; reflexivity|].
              destruct (step_seen _ _ _ _ S) as [-> | (x & -> & Hx & ->)]; [exact SN|].
              intros Q. apply in_app_or in Q. destruct Q as [Q | [<- | []]]; [exact (SN Q) | cbn in SJ; congruence].
      * destruct e; cbn in SJ; try discriminate. cbn in S. inversion S; subst s'; clear S. cbn.
        specialize (I1 d). destruct (conns s d) as [k|].
        -- destruct I1 as [[J1 J2 J3 J4 J5 J6 J7 J8 J9 J10 J11] SN].
           destruct (registered k); (split; [|exact SN]); constructor; intros; rewrite ?logins_snoc in *; cbn [is_login ph sessions authing outing left] in *; rewrite ?Nat.add_0_r in *; auto.
        -- destruct I1 as (T & L & SN). split; [exact T|]. split; [|exact SN]. intros i. rewrite logins_snoc, L. reflexivity.
    + intros c i H. rewrite logins_snoc in H. destruct (is_login c i e) eqn:E.
      * apply (U2 c i E).
      * apply U1, (I2 c). lia.
    + intros c d i H1 H2. rewrite logins_snoc in H1, H2.
      destruct (is_login c i e) eqn:E1, (is_login d i e) eqn:E2.
      * destruct e; cbn in E1, E2; try discriminate. lia.
      * destruct (U2 c i E1) as [_ X]. exfalso. apply X, (I2 d). lia.
      * destruct (U2 d i E2) as [_ X]. exfalso. apply X, (I2 c). lia.
      * apply (I3 c d i); lia.
    + destruct (step_seen _ _ _ _ S) as [-> | (x & -> & Hx & ->)]; [exact I4|].
      specialize (I1 x). rewrite Hx in I1. destruct I1 as (_ & _ & SN).
      apply NoDup_rev in I4. rewrite <- (rev_involutive (seen s ++ [x])). apply NoDup_rev.
      rewrite rev_app_distr. cbn. constructor; [|exact I4]. intros Q. apply in_rev in Q. exact (SN Q).
Qed.
