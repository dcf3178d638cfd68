(* Invariants of the password pool (Passwords.v). *)
From Coq Require Import Permutation ZifyBool Lia Arith.
From Verif Require Import Base Passwords.
Local Open Scope N_scope.

(* ---------- lists ---------- *)
Lemma set_nth_length {A} n (x : A) l : length (set_nth n x l) = length l.
Proof. revert n; induction l as [|y l IH]; intros [|n]; cbn; auto. Qed.
Lemma set_nth_same {A} n (x y : A) l : nth_error l n = Some y -> nth_error (set_nth n x l) n = Some x.
Proof. revert n; induction l as [|z l IH]; intros [|n]; cbn; try discriminate; auto. Qed.
Lemma set_nth_other {A} n m (x : A) l : n <> m -> nth_error (set_nth n x l) m = nth_error l m.
Proof. revert n m; induction l as [|z l IH]; intros [|n] [|m] D; cbn; auto; try congruence. Qed.
Lemma set_nth_cases {A} n m (x y : A) l : nth_error (set_nth n x l) m = Some y ->
  (n = m /\ y = x) \/ (n <> m /\ nth_error l m = Some y).
Proof.
  intros H. destruct (Nat.eq_dec n m) as [->|D].
  - left. split; [reflexivity|]. destruct (nth_error l m) eqn:L.
    + rewrite (set_nth_same _ _ _ _ L) in H. congruence.
    + apply nth_error_None in L. assert (nth_error (set_nth m x l) m <> None) by congruence.
      apply nth_error_Some in H0. rewrite set_nth_length in H0. lia.
  - right. split; [exact D|]. rewrite set_nth_other in H by exact D. exact H.
Qed.

Definition busy1 (w : worker) : list request := match w with WBusy q => [q] | _ => [] end.
Definition busy (ws : list worker) : list request := flat_map busy1 ws.
Definition pool (s : state) : list request := queue s ++ busy (workers s).

Lemma busy_set ws w x y : nth_error ws w = Some x ->
  Permutation (busy1 x ++ busy (set_nth w y ws)) (busy1 y ++ busy ws).
Proof.
  revert w; induction ws as [|z ws IH]; intros [|w] H; cbn in *; try discriminate.
  - injection H as ->. rewrite !app_assoc. apply Permutation_app_tail, Permutation_app_comm.
  - specialize (IH _ H). rewrite !app_assoc.
    etransitivity; [apply Permutation_app_tail, Permutation_app_comm|]. rewrite <- app_assoc.
    etransitivity; [apply Permutation_app_head, IH|]. rewrite !app_assoc.
    apply Permutation_app_tail, Permutation_app_comm.
Qed.

Lemma busy_in ws w q : nth_error ws w = Some (WBusy q) -> In q (busy ws).
Proof. intros H. apply in_flat_map. exists (WBusy q). split; [eapply nth_error_In, H|left; reflexivity]. Qed.
Lemma in_busy ws q : In q (busy ws) -> exists w, nth_error ws w = Some (WBusy q).
Proof.
  intros H. apply in_flat_map in H. destruct H as (x & X & Q). apply In_nth_error in X. destruct X as (w & X).
  destruct x; cbn in Q; try contradiction. destruct Q as [->|[]]. exists w. exact X.
Qed.

(* ---------- the specification's password map ---------- *)

Definition returned (s : state) (i : nat) : option (call * option udoc * result) :=
  match nth_error (clients s) i with Some (CDone c d r) => Some (c, d, r) | _ => None end.

Definition upd (m : N -> option bytes) (i : N) (v : option bytes) : N -> option bytes :=
  fun j => if j =? i then v else m j.

(* The password of every user: that of the last set_user_password that returned Ok for the
   user; none after the user was deleted. *)
Definition note (s s' : state) (e : event) (m : N -> option bytes) : N -> option bytes :=
  match e with
  | EvUpdate i =>
      match returned s i, returned s' i with
      | None, Some (CSet _ p, Some d, RSet) => upd m (d_id d) (Some p)
      | _, _ => m
      end
  | EvDelete i => upd m i None
  | _ => m
  end.
Fixpoint passwords (K : crypto) (c : config) (s : state) (es : list event) (m : N -> option bytes) : N -> option bytes :=
  match es with
  | [] => m
  | e :: es' => passwords K c (step K c s e) es' (note s (step K c s e) e m)
  end.

(* ---------- the invariant ---------- *)
Section Inv.
Context (K : crypto) (c : config).

(* [t] is a hash of password [p] made for user [id] with template [tp] *)
Definition made (tp : params) (id : N) (p : bytes) (t : text) : Prop :=
  exists salt out,
    let pp := mkp (m_cost tp) (t_cost tp) (p_cost tp) (be8 id) in
    t = Phc (mkphc (algorithm c) V0x13 pp (Some salt) (Some out)) /\
    build_ok K pp = true /\ argon K (algorithm c) V0x13 pp salt p = Some out.
Definition made_in (s : state) (id : N) (p : bytes) (t : text) : Prop :=
  exists tp, tmpl s = CellSet (Some tp) /\ made tp id p t.

Definition request_of (i : nat) (k : call) (d : udoc) : request :=
  mkreq (d_id d) (pw_of k) (match k with CSet _ _ => None | CAuth _ _ => u_hash (d_user d) end) i.

Definition auth_result (d : udoc) (q : bytes) : result :=
  match u_hash (d_user d) with
  | None => RInvalidCredentials
  | Some t => match verify_request K (mkreq 0 q None 0) t with RVerified => RLoggedIn (d_id d) | _ => RInvalidCredentials end
  end.

Definition answer_ok (s : state) (i : nat) (k : call) (d : udoc) (a : response) : Prop :=
  match k with
  | CSet _ p => match a with RHash t => made_in s (d_id d) p t | RError => True | RVerified => False end
  | CAuth _ _ => exists t, u_hash (d_user d) = Some t /\ a = verify_request K (request_of i k d) t
  end.

Definition client_ok (s : state) (i : nat) (x : client) : Prop :=
  match x with
  | CNew _ => True
  | CLoaded k d => match k with CAuth _ _ => u_hash (d_user d) <> None | _ => True end
  | CWaiting k d => In (request_of i k d) (pool s) /\ match k with CAuth _ _ => u_hash (d_user d) <> None | _ => True end
  | CAnswered k d (Some a) => answer_ok s i k d a
  | CAnswered k d None => True
  | CHashed k d t => (exists w p, k = CSet w p) /\ made_in s (d_id d) (pw_of k) t
  | CDone (CAuth _ q) (Some d) r => r = auth_result d q \/ r = RChannel
  | CDone (CAuth _ _) None r => r = RInvalidCredentials
  | CDone (CSet _ _) (Some d) r => r = RSet \/ r = RConflict \/ r = RHashError \/ r = RChannel
  | CDone (CSet _ _) None r => r = RUserNotFound
  end.

Definition req_ok (s : state) (q : request) : Prop :=
  exists k d, nth_error (clients s) (rq_client q) = Some (CWaiting k d) /\ q = request_of (rq_client q) k d.

Record Inv (s : state) (m : N -> option bytes) : Prop := mkInv {
  i_ids : NoDup (map d_id (users s));
  i_hash : forall d, In d (users s) -> match m (d_id d) with
           | None => u_hash (d_user d) = None
           | Some p => exists t, u_hash (d_user d) = Some t /\ made_in s (d_id d) p t end;
  i_gone : forall i, ~ In i (map d_id (users s)) -> m i = None;
  i_clients : forall i x, nth_error (clients s) i = Some x -> client_ok s i x;
  i_reqs : forall q, In q (pool s) -> req_ok s q;
  i_once : NoDup (map rq_client (pool s));
  i_cell : forall w, tmpl s = CellBusy w -> exists q, nth_error (workers s) w = Some (WBusy q) /\ rq_against q = None }.

Lemma verify_pw q q' t : rq_pw q = rq_pw q' -> verify_request K q t = verify_request K q' t.
Proof. intros H. unfold verify_request. destruct t; [|reflexivity]. rewrite H. reflexivity. Qed.

(* client_ok only looks at the pool and at a set template *)
Lemma answer_mono s s' i k d a : (forall p, tmpl s = CellSet p -> tmpl s' = CellSet p) -> answer_ok s i k d a -> answer_ok s' i k d a.
Proof.
  intros T. unfold answer_ok. destruct k; [|auto]. destruct a; auto. intros (tp & A & B). exists tp. auto.
Qed.
Lemma client_mono s s' i x : (forall p, tmpl s = CellSet p -> tmpl s' = CellSet p) ->
  (forall q, In q (pool s) -> rq_client q = i -> In q (pool s')) -> client_ok s i x -> client_ok s' i x.
Proof.
  intros T P. destruct x; cbn; auto.
  - intros [H H']. split; [apply P; [exact H|reflexivity]|exact H'].
  - destruct a as [a|]; [|auto]. apply answer_mono, T.
  - intros [A (tp & B & C)]. split; [exact A|]. exists tp. auto.
Qed.


(* a step that only moves one client, not waiting before or after *)
Definition not_waiting (x : client) : Prop := match x with CWaiting _ _ => False | _ => True end.
Lemma move_client s m i x y : Inv s m -> nth_error (clients s) i = Some x -> not_waiting x ->
  client_ok s i y -> not_waiting y -> Inv (with_client s i y) m.
Proof.
  intros V N W O W'. destruct V as [A B C D E F G].
  constructor; cbn; auto.
  - intros j z H. apply set_nth_cases in H. destruct H as [[<- ->]|[NE H]].
    + revert O. apply client_mono; auto.
    + generalize (D _ _ H). apply client_mono; auto.
  - intros q Q. destruct (E q Q) as (k & d & H & H'). exists k, d. split; [|exact H'].
    cbn. destruct (Nat.eq_dec i (rq_client q)) as [->|NE]; [|rewrite set_nth_other by exact NE; exact H].
    exfalso. rewrite N in H. injection H as ->. exact W.
Qed.

Lemma inv_init : Inv (init c) (fun _ => None).
Proof.
  assert (B : busy (repeat WIdle (N.to_nat (N.max (hashers c) 1))) = []).
  { induction (N.to_nat _); cbn; auto. }
  assert (P : pool (init c) = []) by exact B.
  constructor.
  - constructor.
  - intros d [].
  - reflexivity.
  - intros [|i] x H; discriminate.
  - rewrite P. intros q [].
  - rewrite P. constructor.
  - discriminate.
Qed.

Lemma inv_call s m x : Inv s m -> Inv (ev_call s x) m.
Proof.
  intros [A B C D E F G]. constructor; cbn; auto.
  - intros i y H. destruct (Nat.lt_ge_cases i (length (clients s))) as [L|L].
    + rewrite nth_error_app1 in H by exact L. generalize (D _ _ H). apply client_mono; auto.
    + rewrite nth_error_app2 in H by exact L. destruct (i - _)%nat as [|[|]]; cbn in H; try discriminate. injection H as <-. exact I.
  - intros q Q. destruct (E q Q) as (k & d & H & H'). exists k, d. split; [|exact H']. cbn.
    rewrite nth_error_app1; [exact H|]. apply nth_error_Some. congruence.
Qed.

Lemma inv_load s m i : Inv s m -> Inv (ev_load s i) m.
Proof.
  intros V. unfold ev_load. destruct (nth_error (clients s) i) as [x|] eqn:X; [|exact V].
  destruct x as [k| | | | |]; try exact V.
  destruct (load (users s) (who_of k)) as [d|] eqn:L.
  - destruct k as [w p|w p].
    + eapply move_client; try eassumption; cbn; auto.
    + destruct (u_hash (d_user d)) eqn:H; eapply move_client; try eassumption; cbn; auto.
      * congruence.
      * left. unfold auth_result. rewrite H. reflexivity.
  - destruct k; eapply move_client; try eassumption; cbn; auto.
Qed.

Lemma inv_recv s m i : Inv s m -> Inv (ev_recv s i) m.
Proof.
  intros V. unfold ev_recv. destruct (nth_error (clients s) i) as [x|] eqn:X; [|exact V].
  pose proof (i_clients _ _ V _ _ X) as O.
  destruct x as [k|k d|k d|k d [a|]|k d t|k d r]; try exact V; cbn in O.
  - destruct k as [w p|w p]; cbn in O.
    + destruct a as [t| |]; try contradiction; eapply move_client; try eassumption; cbn; auto.
      split; [eauto|exact O].
    + destruct O as (t & H & ->).
      assert (R : auth_result d p = match verify_request K (request_of i (CAuth w p) d) t with RVerified => RLoggedIn (d_id d) | _ => RInvalidCredentials end).
      { unfold auth_result. rewrite H. rewrite (verify_pw _ (request_of i (CAuth w p) d) t) by reflexivity. reflexivity. }
      assert (NH : forall t', verify_request K (request_of i (CAuth w p) d) t <> RHash t').
      { intros t'. unfold verify_request. destruct t; [|discriminate]. repeat (destruct (negb _); [discriminate|]).
        destruct (ph_salt h), (ph_out h); try discriminate. destruct (argon _ _ _ _ _); [|discriminate]. destruct (bytes_eqb _ _); discriminate. }
      destruct (verify_request K _ t) eqn:VR; [exfalso; eapply NH; reflexivity| |]; eapply move_client; try eassumption; cbn; auto.
  - destruct k as [w p|w p]; eapply move_client; try eassumption; cbn; auto.
Qed.

Lemma inv_send s m i : Inv s m -> Inv (ev_send s i) m.
Proof.
  intros V. unfold ev_send. destruct (nth_error (clients s) i) as [x|] eqn:X; [|exact V].
  destruct x as [|k d| | | |]; try exact V.
  pose proof (i_clients _ _ V _ _ X) as O.
  destruct (existsb alive (workers s)).
  - set (q := mkreq _ _ _ i). assert (Q : q = request_of i k d) by reflexivity.
    destruct V as [A B C D E F G].
    assert (PM : Permutation (pool (mkst (users s) (queue s ++ [q]) (workers s) (tmpl s) (clients s))) (q :: pool s)).
    { unfold pool. cbn. rewrite <- app_assoc. symmetry. apply Permutation_middle. }
    assert (FR : forall r, In r (pool s) -> rq_client r <> i).
    { intros r R EQ. destruct (E r R) as (k' & d' & H & _). rewrite EQ, X in H. discriminate. }
    constructor; cbn; auto.
    + intros j y H. apply set_nth_cases in H. destruct H as [[<- ->]|[NE H]].
      * split; [|exact O]. rewrite <- Q. eapply Permutation_in; [symmetry; exact PM|left; reflexivity].
      * generalize (D _ _ H). apply client_mono; [auto|]. intros r R _. eapply Permutation_in; [symmetry; exact PM|right; exact R].
    + intros r R. apply (Permutation_in r PM) in R. destruct R as [<-|R].
      * exists k, d. cbn. split; [eapply set_nth_same, X|exact Q].
      * destruct (E r R) as (k' & d' & H & H'). exists k', d'. split; [|exact H']. cbn.
        rewrite set_nth_other by (intros EQ; apply (FR r R); congruence). exact H.
    + change (NoDup (map rq_client (pool (mkst (users s) (queue s ++ [q]) (workers s) (tmpl s) (clients s))))).
      eapply Permutation_NoDup; [apply Permutation_map; symmetry; exact PM|]. cbn. constructor; [|exact F].
      intros IN. apply in_map_iff in IN. destruct IN as (r & EQ & R). apply (FR r R EQ).
  - destruct k as [w p|w p]; eapply move_client; try eassumption; cbn; auto.
Qed.

(* the pool changes only by a permutation, clients and cell do not *)
Lemma move_pool s s' m : Inv s m -> users s' = users s -> clients s' = clients s -> tmpl s' = tmpl s ->
  Permutation (pool s') (pool s) -> (forall w q, nth_error (workers s) w = Some (WBusy q) -> nth_error (workers s') w = Some (WBusy q)) -> Inv s' m.
Proof.
  intros [A B C D E F G] U CL T P W. constructor; rewrite ?U, ?CL, ?T; auto.
  - intros d H. specialize (B d H). destruct (m (d_id d)); [|exact B]. destruct B as (t & X & tp & Y & Z). exists t. split; [exact X|]. exists tp. rewrite T. auto.
  - intros i x H. generalize (D i x H). apply client_mono; [rewrite T; auto|]. intros q Q _. eapply Permutation_in; [symmetry; exact P|exact Q].
  - intros q Q. destruct (E q (Permutation_in _ P Q)) as (k & d & H & H'). exists k, d. rewrite CL. auto.
  - eapply Permutation_NoDup; [apply Permutation_map; symmetry; exact P|exact F].
  - intros w H. destruct (G w H) as (q & X & Y). exists q. split; auto.
Qed.

Lemma inv_take s m w : Inv s m -> Inv (ev_take s w) m.
Proof.
  intros V. unfold ev_take. destruct (nth_error (workers s) w) as [[|q0|]|] eqn:W; try exact V.
  destruct (queue s) as [|q qs] eqn:Q; [exact V|].
  apply (move_pool s); auto.
  - unfold pool. cbn. rewrite Q. pose proof (busy_set _ _ _ (WBusy q) W) as P. cbn in P.
    etransitivity; [apply Permutation_app_head, P|]. symmetry. apply Permutation_middle.
  - cbn. intros w' q' H. rewrite set_nth_other; [exact H|]. intros ->. rewrite W in H. discriminate.
Qed.

Lemma inv_cell s m x : Inv s m -> (forall p, tmpl s <> CellSet p) ->
  (forall w, x = CellBusy w -> exists q, nth_error (workers s) w = Some (WBusy q) /\ rq_against q = None) -> Inv (with_cell s x) m.
Proof.
  intros [A B C D E F G] NS H. constructor; cbn; auto.
  - intros d I. specialize (B d I). destruct (m (d_id d)); [|exact B]. destruct B as (t & _ & tp & Y & _). exfalso. eapply NS, Y.
  - intros i y Y. generalize (D i y Y). apply client_mono; [intros p P; exfalso; eapply NS, P|auto].
Qed.

Lemma inv_einit s m w : Inv s m -> Inv (ev_init s w) m.
Proof.
  intros V. unfold ev_init. destruct (nth_error (workers s) w) as [[|q|]|] eqn:W; try exact V.
  destruct (tmpl s) eqn:T; try exact V. destruct (rq_against q) eqn:R; [exact V|].
  apply inv_cell; [exact V|congruence|]. intros w' [= <-]. eauto.
Qed.

(* a worker finishes (or drops) its request and the client gets [a] *)
Lemma inv_reply s m w q x a : Inv s m -> nth_error (workers s) w = Some (WBusy q) -> busy1 x = [] ->
  tmpl s <> CellBusy w ->
  (forall k d, nth_error (clients s) (rq_client q) = Some (CWaiting k d) -> q = request_of (rq_client q) k d ->
     (match k with CAuth _ _ => u_hash (d_user d) <> None | _ => True end) ->
     match a with None => True | Some a => answer_ok s (rq_client q) k d a end) ->
  Inv (reply (with_worker s w x) (rq_client q) a) m.
Proof.
  intros V W X T O. destruct V as [A B C D E F G].
  assert (IN : In q (pool s)) by (apply in_or_app; right; eapply busy_in, W).
  destruct (E q IN) as (k & d & H & H').
  pose proof (D _ _ H) as CK. cbn in CK. destruct CK as [_ CK]. specialize (O k d H H' CK).
  unfold reply. cbn [clients with_worker]. rewrite H.
  assert (PM : Permutation (pool s) (q :: pool (with_worker s w x))).
  { unfold pool. cbn. pose proof (busy_set _ _ _ x W) as P. rewrite X in P. cbn in P.
    etransitivity; [apply Permutation_app_head; symmetry; exact P|]. symmetry. apply Permutation_middle. }
  assert (F' : NoDup (map rq_client (q :: pool (with_worker s w x)))).
  { eapply Permutation_NoDup; [apply Permutation_map, PM|exact F]. }
  cbn in F'. inversion F' as [|z l NI ND Z1]; subst.
  constructor; cbn; auto.
  - intros j y Y. apply set_nth_cases in Y. destruct Y as [[<- ->]|[NE Y]].
    + destruct a as [a|]; [|exact I]. cbn. revert O. apply answer_mono. auto.
    + generalize (D j y Y). apply client_mono; [auto|]. intros r R RI.
      apply (Permutation_in r PM) in R. destruct R as [<-|R]; [congruence|exact R].
  - intros r R. assert (RN : rq_client r <> rq_client q).
    { intros EQ. apply NI. rewrite <- EQ. apply in_map, R. }
    destruct (E r) as (k' & d' & Y & Y'); [eapply Permutation_in; [symmetry; exact PM|right; exact R]|].
    exists k', d'. split; [|exact Y']. cbn. rewrite set_nth_other by congruence. exact Y.
  - intros w' Y. destruct (G w' Y) as (q' & Z & Z'). exists q'. split; [|exact Z']. rewrite set_nth_other; [exact Z|]. intros ->. congruence.
Qed.

Lemma inv_init_done s m w salt clock : Inv s m -> Inv (ev_init_done K c s w salt clock) m.
Proof.
  intros V. unfold ev_init_done. destruct (nth_error (workers s) w) as [[|q|]|] eqn:W; try exact V.
  destruct (tmpl s) as [|w'|] eqn:T; try exact V. destruct (Nat.eqb_spec w w') as [->|]; [|exact V].
  destruct (initialize K c salt clock); [exact V| | |].
  - apply inv_cell; [exact V|congruence|discriminate].
  - apply inv_cell; [exact V|congruence|discriminate].
  - eapply inv_reply with (w := w') (x := WDead) (a := None); cbn; auto; [|discriminate].
    apply inv_cell; [exact V|congruence|discriminate].
Qed.

Lemma inv_ereply s m w salt : Inv s m -> Inv (ev_reply K c s w salt) m.
Proof.
  intros V. unfold ev_reply. destruct (nth_error (workers s) w) as [[|q|]|] eqn:W; try exact V.
  destruct (rq_against q) as [t|] eqn:R.
  - eapply inv_reply; eauto.
    + intros T. destruct (i_cell _ _ V w T) as (q' & Q & Q'). rewrite W in Q. injection Q as ->. congruence.
    + intros k d H EQ U. rewrite EQ in R. cbn in R. destruct k as [w0 p|w0 p]; [discriminate|]. cbn. exists t. split; [exact R|].
      apply verify_pw. rewrite EQ. reflexivity.
  - destruct (tmpl s) as [| |p] eqn:T; try exact V.
    eapply inv_reply; eauto; [congruence|].
    intros k d H EQ U. rewrite EQ in R. cbn in R. destruct k as [w0 pw|w0 pw]; [|exfalso; apply U; exact R].
    unfold hash_request. destruct p as [tp|]; [|exact I].
    destruct (build_ok K _) eqn:BO; [|exact I]. cbn [negb].
    destruct (argon K _ _ _ _ _) as [out|] eqn:AR; [|exact I]. cbn.
    exists tp. split; [exact T|]. exists salt, out. cbn.
    rewrite EQ in *. cbn in *. auto.
Qed.

Lemma find_in us i x : find (fun d => d_id d =? i) us = Some x -> In x us /\ d_id x = i.
Proof. intros H. apply find_some in H. destruct H as [A B]. split; [exact A|]. apply N.eqb_eq, B. Qed.

Lemma inv_users s m us m' : Inv s m -> NoDup (map d_id us) ->
  (forall d, In d us -> match m' (d_id d) with
     | None => u_hash (d_user d) = None
     | Some p => exists t, u_hash (d_user d) = Some t /\ made_in s (d_id d) p t end) ->
  (forall i, ~ In i (map d_id us) -> m' i = None) -> Inv (with_users s us) m'.
Proof.
  intros [A B C D E F G] A' B' C'. constructor; cbn; auto.
Qed.

Lemma replace_ids us x : map d_id (replace_user us x) = map d_id us.
Proof. unfold replace_user. rewrite map_map. apply map_ext. intros d. destruct (N.eqb_spec (d_id d) (d_id x)); congruence. Qed.

Lemma inv_update s m i : Inv s m -> Inv (ev_update s i) (note s (ev_update s i) (EvUpdate i) m).
Proof.
  intros V. unfold note, returned, ev_update. destruct (nth_error (clients s) i) as [x|] eqn:X; [|cbn; rewrite X; exact V].
  pose proof (i_clients _ _ V _ _ X) as O.
  destruct x as [k|k d|k d|k d a|k d t|k d r]; cbn; rewrite ?X; try exact V.
  destruct O as [(w & p & ->) MD]. cbn [pw_of] in MD.
  destruct (find _ _) as [x|] eqn:FD.
  2:{ cbn. rewrite (set_nth_same _ _ _ _ X). eapply move_client; try eassumption; cbn; auto. }
  apply find_in in FD. destruct FD as [XI XE].
  destruct (_ && _) eqn:EQ.
  2:{ cbn. rewrite (set_nth_same _ _ _ _ X). eapply move_client; try eassumption; cbn; auto. }
  apply andb_prop in EQ. destruct EQ as [RE UE]. apply N.eqb_eq in RE. destruct (user_eq_dec (d_user x) (d_user d)) as [UE'|]; [clear UE|discriminate].
  cbn -[user_eq_dec]. rewrite (set_nth_same _ _ _ _ X).
  set (u := mku _ _ _ (Some t)). set (x' := if user_eq_dec u (d_user x) then x else mkd (d_id d) (d_rev d + 1) u).
  assert (HX : d_id x' = d_id d /\ u_hash (d_user x') = Some t).
  { unfold x'. destruct (user_eq_dec u (d_user x)) as [Y|Y]; cbn; [|auto]. rewrite <- Y. auto. }
  destruct HX as [HI HH].
  assert (V' : Inv (with_users s (replace_user (users s) x')) (upd m (d_id d) (Some p))).
  { apply (inv_users s m); [exact V| | |].
    - rewrite replace_ids. apply (i_ids _ _ V).
    - intros y Y. unfold replace_user in Y. apply in_map_iff in Y. destruct Y as (z & Y & Z). unfold upd. rewrite HI in Y.
      destruct (N.eqb_spec (d_id z) (d_id d)) as [E1|E1].
      + subst y. rewrite HI, N.eqb_refl. exists t. auto.
      + subst z. destruct (N.eqb_spec (d_id y) (d_id d)); [congruence|]. apply (i_hash _ _ V), Z.
    - intros j J. rewrite replace_ids in J. unfold upd. destruct (N.eqb_spec j (d_id d)) as [->|]; [|apply (i_gone _ _ V), J].
      exfalso. apply J. rewrite <- XE. apply in_map, XI. }
  eapply move_client; try exact V'; cbn; eauto; cbn; auto.
Qed.

Lemma fresh_id us : forall d, In d us -> d_id d < fold_right (fun d m => N.max (d_id d + 1) m) 1 us.
Proof. induction us as [|x us IH]; cbn; intros d H; [contradiction|]. destruct H as [->|H]; [lia|]. specialize (IH d H). lia.
Qed.

Lemma inv_create s m n : Inv s m -> Inv (ev_create s n) m.
Proof.
  intros V. unfold ev_create. destruct (existsb _ _); [exact V|].
  set (j := fold_right _ _ _).
  assert (FR : ~ In j (map d_id (users s))).
  { intros H. apply in_map_iff in H. destruct H as (d & E & H). apply fresh_id in H. fold j in H. lia. }
  apply (inv_users s m); [exact V| | |].
  - rewrite map_app. cbn. eapply Permutation_NoDup; [apply Permutation_cons_append|]. constructor; [exact FR|apply (i_ids _ _ V)].
  - intros d D. apply in_app_or in D. destruct D as [D|[<-|[]]]; [apply (i_hash _ _ V), D|]. cbn. rewrite (i_gone _ _ V j FR). reflexivity.
  - intros i H. apply (i_gone _ _ V). intros H'. apply H. rewrite map_app. apply in_or_app. auto.
Qed.

Lemma NoDup_filter_map (us : list udoc) f : NoDup (map d_id us) -> NoDup (map d_id (filter f us)).
Proof.
  induction us as [|x us IH]; cbn; intros H; [constructor|]. inversion H as [|a b N M]; subst. destruct (f x); [|auto]. cbn. constructor; [|auto].
  intros Y. apply N. apply in_map_iff in Y. destruct Y as (z & E & Y). apply filter_In in Y. rewrite <- E. apply in_map, Y.
Qed.

Lemma inv_delete s m i : Inv s m -> Inv (ev_delete s i) (upd m i None).
Proof.
  intros V. unfold ev_delete. apply (inv_users s m); [exact V| | |].
  - apply NoDup_filter_map, (i_ids _ _ V).
  - intros d D. apply filter_In in D. destruct D as [D E]. unfold upd. destruct (N.eqb_spec (d_id d) i); [discriminate|]. apply (i_hash _ _ V), D.
  - intros j J. unfold upd. destruct (N.eqb_spec j i); [reflexivity|]. apply (i_gone _ _ V). intros H. apply J.
    apply in_map_iff in H. destruct H as (d & E & D). apply in_map_iff. exists d. split; [exact E|]. apply filter_In. split; [exact D|].
    destruct (N.eqb_spec (d_id d) i); [congruence|reflexivity].
Qed.

Lemma inv_groups s m i gs rs : Inv s m -> Inv (ev_groups s i gs rs) m.
Proof.
  intros V. unfold ev_groups.
  assert (ID : map d_id (map (fun d => if d_id d =? i then mkd i (d_rev d + 1) (mku (u_name (d_user d)) gs rs (u_hash (d_user d))) else d) (users s)) = map d_id (users s)).
  { rewrite map_map. apply map_ext. intros d. destruct (N.eqb_spec (d_id d) i); auto. }
  apply (inv_users s m); [exact V| | |].
  - rewrite ID. apply (i_ids _ _ V).
  - intros d D. apply in_map_iff in D. destruct D as (x & E & D). pose proof (i_hash _ _ V x D) as H.
    destruct (N.eqb_spec (d_id x) i) as [Y|]; subst d; [|exact H]. cbn. rewrite <- Y. exact H.
  - intros j J. rewrite ID in J. apply (i_gone _ _ V), J.
Qed.

Lemma inv_step s m e : Inv s m -> Inv (step K c s e) (note s (step K c s e) e m).
Proof.
  intros V. destruct e; cbn [step]; try (unfold note; fail).
  - apply inv_call, V.
  - apply inv_load, V.
  - apply inv_send, V.
  - apply inv_take, V.
  - apply inv_einit, V.
  - apply inv_init_done, V.
  - apply inv_ereply, V.
  - apply inv_recv, V.
  - apply inv_update, V.
  - apply inv_create, V.
  - apply inv_delete, V.
  - apply inv_groups, V.
Qed.

Lemma inv_run es : forall s m, Inv s m -> Inv (run K c s es) (passwords K c s es m).
Proof. induction es as [|e es IH]; intros s m V; [exact V|]. cbn. apply IH, inv_step, V. Qed.

Lemma run_app s a b : run K c s (a ++ b) = run K c (run K c s a) b.
Proof. apply fold_left_app. Qed.
Lemma passwords_app s a b m : passwords K c s (a ++ b) m = passwords K c (run K c s a) b (passwords K c s a m).
Proof. revert s m; induction a as [|e a IH]; intros s m; [reflexivity|]. cbn. apply IH. Qed.

(* ---------- a client keeps its call and its document ---------- *)
Definition loaded (x : client) : option (call * option udoc) :=
  match x with
  | CNew _ => None
  | CLoaded k d | CWaiting k d | CAnswered k d _ | CHashed k d _ => Some (k, Some d)
  | CDone k d _ => Some (k, d)
  end.

Lemma with_client_keeps s i y j x v : nth_error (clients s) i = Some x -> (forall v, loaded x = Some v -> loaded y = Some v) ->
  (exists z, nth_error (clients s) j = Some z /\ loaded z = Some v) ->
  exists z, nth_error (clients (with_client s i y)) j = Some z /\ loaded z = Some v.
Proof.
  intros X L (z & Z & Z'). cbn. destruct (Nat.eq_dec i j) as [<-|NE].
  - exists y. rewrite (set_nth_same _ _ _ _ X). split; [reflexivity|]. apply L. congruence.
  - exists z. rewrite set_nth_other by exact NE. auto.
Qed.

Lemma reply_keeps s i a j v : (exists z, nth_error (clients s) j = Some z /\ loaded z = Some v) ->
  exists z, nth_error (clients (reply s i a)) j = Some z /\ loaded z = Some v.
Proof.
  intros H. unfold reply. destruct (nth_error (clients s) i) as [x|] eqn:X; [|exact H].
  destruct x; try exact H. eapply with_client_keeps; eauto.
Qed.

Lemma step_keeps s e j v : (exists z, nth_error (clients s) j = Some z /\ loaded z = Some v) ->
  exists z, nth_error (clients (step K c s e)) j = Some z /\ loaded z = Some v.
Proof.
  intros H. destruct e; cbn [step].
  - destruct H as (z & Z & L). exists z. split; [|exact L]. cbn. rewrite nth_error_app1; [exact Z|]. apply nth_error_Some. congruence.
  - unfold ev_load. destruct (nth_error (clients s) i) as [x|] eqn:X; [|exact H]. destruct x; try exact H.
    destruct (load _ _), c0; try destruct (u_hash _); (eapply with_client_keeps; [exact X|discriminate|exact H]).
  - unfold ev_send. destruct (nth_error (clients s) i) as [x|] eqn:X; [|exact H]. destruct x; try exact H.
    destruct (existsb _ _); (eapply with_client_keeps; [exact X|cbn; auto|exact H]).
  - unfold ev_take. destruct (nth_error (workers s) _) as [[| |]|]; try exact H. destruct (queue s); exact H.
  - unfold ev_init. destruct (nth_error (workers s) _) as [[| |]|]; try exact H. destruct (tmpl s); try exact H. destruct (rq_against _); exact H.
  - unfold ev_init_done. destruct (nth_error (workers s) _) as [[| |]|]; try exact H. destruct (tmpl s); try exact H. destruct (Nat.eqb _ _); [|exact H].
    destruct (initialize _ _ _ _); try exact H. apply reply_keeps, H.
  - unfold ev_reply. destruct (nth_error (workers s) _) as [[| |]|]; try exact H. destruct (rq_against _); [apply reply_keeps, H|]. destruct (tmpl s); try exact H. apply reply_keeps, H.
  - unfold ev_recv. destruct (nth_error (clients s) i) as [x|] eqn:X; [|exact H].
    destruct x as [k|k d|k d|k d [a|]|k d t|k d r]; try exact H.
    + destruct k; destruct a; (eapply with_client_keeps; [exact X|cbn; auto|exact H]).
    + destruct k; (eapply with_client_keeps; [exact X|cbn; auto|exact H]).
  - unfold ev_update. destruct (nth_error (clients s) i) as [x|] eqn:X; [|exact H].
    destruct x as [k|k d|k d|k d [a|]|k d t|k d r]; try exact H.
    destruct (find _ _); [destruct (_ && _)|].
    + eapply with_client_keeps; [exact X|cbn; auto|exact H].
    + eapply with_client_keeps; [exact X|cbn; auto|exact H].
    + eapply with_client_keeps; [exact X|cbn; auto|exact H].
  - unfold ev_create. destruct (existsb _ _); exact H.
  - exact H.
  - exact H.
Qed.

Lemma run_keeps es : forall s j v, (exists z, nth_error (clients s) j = Some z /\ loaded z = Some v) ->
  exists z, nth_error (clients (run K c s es)) j = Some z /\ loaded z = Some v.
Proof. induction es as [|e es IH]; intros s j v H; [exact H|]. cbn. apply IH, step_keeps, H. Qed.

(* ---------- what a made hash accepts ---------- *)
Lemma made_accepts tp id p t q : known_alg K (algorithm c) = true -> known_version K V0x13 = true -> made tp id p t -> rq_pw q = p -> verify_request K q t = RVerified.
Proof.
  intros KA KV (salt & out & -> & BO & AR) <-. unfold verify_request. cbn [ph_alg ph_version ph_params ph_salt ph_out]. rewrite KA, KV, BO. cbn [negb]. rewrite AR. unfold bytes_eqb. rewrite lex_refl. reflexivity.
Qed.
Lemma made_rejects tp id p t q : made tp id p t -> verify_request K q t = RVerified ->
  exists salt out, let pp := mkp (m_cost tp) (t_cost tp) (p_cost tp) (be8 id) in
    argon K (algorithm c) V0x13 pp salt p = Some out /\ argon K (algorithm c) V0x13 pp salt (rq_pw q) = Some out.
Proof.
  intros (salt & out & -> & BO & AR) H. exists salt, out. split; [exact AR|]. unfold verify_request in H. cbn [ph_alg ph_version ph_params ph_salt ph_out] in H.
  destruct (negb (known_alg K _)); [discriminate|]. destruct (negb (known_version K _)); [discriminate|]. destruct (negb (build_ok K _)); [discriminate|].
  destruct (argon K _ _ _ _ (rq_pw q)) as [out'|]; [|discriminate]. unfold bytes_eqb in H. destruct (lex out out') eqn:L; try discriminate. apply lex_eq in L. congruence.
Qed.
End Inv.
