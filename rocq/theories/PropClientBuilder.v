(* Property theorems C109: what a client built with Builder is, and what it does with a
   message it did not ask for. *)
From Verif Require Import Base ClientBuilder.
From Coq Require Import Lia.
Local Open Scope N_scope.

(* the last of the settings [f] picks, if there is one *)
Fixpoint chosen {A} (f : setting -> option A) (l : list setting) : option A :=
  match l with [] => None | o :: r => match chosen f r with Some x => Some x | None => f o end end.
Definition a_runtime (o : setting) : option N := match o with WithRuntime h => Some h | _ => None end.
Definition a_certificate (o : setting) : option bytes := match o with WithCertificate c => Some c | _ => None end.
Definition a_request (o : setting) : option N := match o with WithRequestTimeout d => Some d | _ => None end.
Definition a_connect (o : setting) : option N := match o with WithConnectTimeout d => Some d | _ => None end.
(* for an API: enabled without a callback, or with one *)
Definition an_api (n : bytes) (o : setting) : option (option N) :=
  match o with
  | WithApi m => if bytes_eqb m n then Some None else None
  | WithApiCallback m c => if bytes_eqb m n then Some (Some c) else None
  | _ => None
  end.
Definition built (received : bytes) (websockets : bool) (current : option N) (u : url) (l : list setting) : client + bytes :=
  build received websockets current (fold_left set l (new_builder u)).

Definition or_else {A} (a b : option A) : option A := match a with Some x => Some x | None => b end.
Lemma get_insert n c m l : api_get n (api_insert m c l) = if bytes_eqb m n then Some c else api_get n l.
Proof.
  unfold api_get, api_insert. cbn [find fst]. destruct (bytes_eqb m n) eqn:E; [reflexivity|]. f_equal.
  induction l as [|[k v] r IH]; [reflexivity|]. cbn [filter fst]. destruct (bytes_eqb k m) eqn:K; cbn [negb find fst].
  - rewrite IH. apply bytes_eqb_spec in K. subst k. rewrite E. reflexivity.
  - rewrite IH. reflexivity.
Qed.
Lemma settings l : forall b, let b' := fold_left set l b in
  b_url b' = b_url b /\ b_request b' = or_else (chosen a_request l) (b_request b) /\ b_connect b' = or_else (chosen a_connect l) (b_connect b) /\
  b_certificate b' = or_else (chosen a_certificate l) (b_certificate b) /\ b_runtime b' = or_else (chosen a_runtime l) (b_runtime b) /\
  forall n, api_get n (b_apis b') = or_else (chosen (an_api n) l) (api_get n (b_apis b)).
Proof.
  induction l as [|o r IH]; intros b; cbn zeta; [cbn; repeat match goal with |- _ /\ _ => split end; reflexivity|]. cbn [fold_left chosen].
  destruct (IH (set b o)) as (A & B & C & D & F & G). rewrite A, B, C, D, F.
  repeat match goal with |- _ /\ _ => split end; try (intros n; rewrite G; destruct (chosen (an_api n) r));
    try (destruct (chosen a_request r)); try (destruct (chosen a_connect r)); try (destruct (chosen a_certificate r)); try (destruct (chosen a_runtime r));
    destruct o as [h|m|m c|c|d|d]; cbn [set b_url b_request b_connect b_certificate b_runtime b_apis a_request a_connect a_certificate a_runtime an_api or_else]; try reflexivity;
    rewrite get_insert; destruct (bytes_eqb m n); reflexivity.
Qed.

(* C109 *)
(* the scheme decides: bonsaidb is QUIC, with port 5645 if the url has none; wss and ws are
   websockets if those are compiled in; anything else is refused, whatever was set *)
Theorem C109_worker : forall received websockets current u l,
  (u_scheme u = s_bonsaidb -> exists c, built received websockets current u l = inl c /\ c_worker c = Quic (chosen a_certificate l) /\
     c_port c = Some (match u_port u with Some p => p | None => 5645 end)) /\
  (u_scheme u = s_wss \/ u_scheme u = s_ws -> websockets = true -> exists c, built received websockets current u l = inl c /\ c_worker c = WebSocket /\ c_port c = u_port u) /\
  (u_scheme u <> s_bonsaidb -> (websockets = false \/ (u_scheme u <> s_wss /\ u_scheme u <> s_ws)) -> built received websockets current u l = inr (u_scheme u)).
Proof.
  intros received websockets current u l. destruct (settings l (new_builder u)) as (A & B & C & D & F & G). unfold built, build. rewrite A. cbn [new_builder b_url] in *.
  split; [|split].
  - intros ->. rewrite bytes_eqb_refl. eexists. split; [reflexivity|]. cbn [c_worker c_port]. rewrite D. split; [destruct (chosen a_certificate l); reflexivity|destruct (u_port u); reflexivity].
  - intros S W. rewrite W. destruct S as [-> | ->]; eexists; (split; [reflexivity|]); cbn; auto.
  - intros NB W. assert (Q : bytes_eqb (u_scheme u) s_bonsaidb = false) by (apply not_true_is_false; intros X; apply bytes_eqb_spec in X; exact (NB X)).
    rewrite Q. destruct W as [-> | [W1 W2]]; [reflexivity|].
    assert (Q1 : bytes_eqb (u_scheme u) s_wss = false) by (apply not_true_is_false; intros X; apply bytes_eqb_spec in X; exact (W1 X)).
    assert (Q2 : bytes_eqb (u_scheme u) s_ws = false) by (apply not_true_is_false; intros X; apply bytes_eqb_spec in X; exact (W2 X)).
    rewrite Q1, Q2, andb_false_r. reflexivity.
Qed.
(* of each kind of setting the last call counts; a timeout not set is a minute; the tasks run
   on the runtime given, else on the caller's, else on their own *)
Theorem C109_settings : forall received websockets current u l c, built received websockets current u l = inl c ->
  c_request c = match chosen a_request l with Some d => d | None => 60000 end /\
  c_connect c = match chosen a_connect l with Some d => d | None => 60000 end /\
  c_runtime c = match chosen a_runtime l, current with Some h, _ => OnHandle h | None, Some h => OnCurrent h | None, None => OnItsOwn end.
Proof.
  intros received websockets current u l c H. destruct (settings l (new_builder u)) as (A & B & C & D & F & G). revert H. unfold built, build.
  rewrite A, B, C, D, F. cbn [new_builder b_request b_connect b_runtime].
  replace (or_else (chosen a_request l) None) with (chosen a_request l) by (destruct (chosen a_request l); reflexivity).
  replace (or_else (chosen a_connect l) None) with (chosen a_connect l) by (destruct (chosen a_connect l); reflexivity).
  replace (or_else (chosen a_runtime l) None) with (chosen a_runtime l) by (destruct (chosen a_runtime l); reflexivity).
  destruct (bytes_eqb _ s_bonsaidb); [|destruct (websockets && _); [|discriminate]]; intros H; injection H as <-; cbn; (split; [reflexivity|]; split; [reflexivity|]);
    destruct (chosen a_runtime l); try reflexivity; destruct current; reflexivity.
Qed.
(* an API's callback is the one of the last with_api or with_api_callback for its name; the
   name of published messages is the client's own, whatever was set for it *)
Theorem C109_apis : forall received websockets current u l c, built received websockets current u l = inl c ->
  api_get received (c_apis c) = Some (Some messages) /\ forall n, n <> received -> api_get n (c_apis c) = chosen (an_api n) l.
Proof.
  intros received websockets current u l c H. destruct (settings l (new_builder u)) as (A & B & C & D & F & G).
  assert (K : c_apis c = api_insert received (Some messages) (b_apis (fold_left set l (new_builder u)))).
  { revert H. unfold built, build. destruct (bytes_eqb _ s_bonsaidb); [|destruct (websockets && _); [|discriminate]]; intros H; injection H as <-; reflexivity. }
  rewrite K. split; [rewrite get_insert, bytes_eqb_refl; reflexivity|]. intros n N. rewrite get_insert.
  replace (bytes_eqb received n) with false by (symmetry; apply not_true_is_false; intros X; apply bytes_eqb_spec in X; exact (N (eq_sym X))).
  rewrite G. cbn. destruct (chosen (an_api n) l); reflexivity.
Qed.
(* a message without an id is given to the callback of its name, and nobody else; one with an
   id only ever to the request that waits for it *)
Theorem C109_callback : forall received websockets current u l c waiting n v k r, built received websockets current u l = inl c -> n <> received ->
  react (c_apis c) waiting (mk_payload None n v) = Invoked k r <-> chosen (an_api n) l = Some (Some k) /\ v = Response r.
Proof.
  intros received websockets current u l c waiting n v k r H N. destruct (C109_apis _ _ _ _ _ _ H) as [_ G]. unfold react. cbn [p_id p_name p_value]. rewrite (G n N).
  destruct (chosen (an_api n) l) as [[k'|]|]; (split; [|intros [X Y]]); try (destruct v; discriminate); try discriminate.
  - destruct v; try discriminate. intros X. injection X as -> ->. auto.
  - injection X as ->. subst v. reflexivity.
Qed.
Theorem C109_answer : forall apis waiting i n v, react apis waiting (mk_payload (Some i) n v) = if in_dec N.eq_dec i waiting then Answered i v else Ignored.
Proof.
  intros apis waiting i n v. unfold react. cbn [p_id p_value]. destruct (in_dec N.eq_dec i waiting) as [I|I].
  - replace (existsb (N.eqb i) waiting) with true; [reflexivity|]. symmetry. apply existsb_exists. exists i. split; [exact I|apply N.eqb_refl].
  - replace (existsb (N.eqb i) waiting) with false; [reflexivity|]. symmetry. apply not_true_is_false. intros X. apply existsb_exists in X. destruct X as (j & J & E). apply N.eqb_eq in E. congruence.
Qed.
(* a certificate pinned for a websocket url is silently dropped *)
Theorem C109_certificate_refuted : exists u cert, forall received current l,
  chosen a_certificate l = None -> built received true current u (WithCertificate cert :: l) = built received true current u l.
Proof.
  exists (mk_url s_wss None), [1]. intros received current l _. unfold built, build.
  destruct (settings l (new_builder (mk_url s_wss None))) as (A & B & C & D & F & G).
  cbn [fold_left]. assert (E : forall b b', b_url b = b_url b' -> b_apis b = b_apis b' -> b_request b = b_request b' -> b_connect b = b_connect b' -> b_runtime b = b_runtime b' ->
    let c := fold_left set l b in let c' := fold_left set l b' in
    b_url c = b_url c' /\ b_apis c = b_apis c' /\ b_request c = b_request c' /\ b_connect c = b_connect c' /\ b_runtime c = b_runtime c').
  { clear. induction l as [|o r IH]; intros b b' H1 H2 H3 H4 H5; [auto|]. cbn [fold_left]. apply IH; destruct o; cbn; congruence. }
  destruct (E (set (new_builder (mk_url s_wss None)) (WithCertificate [1])) (new_builder (mk_url s_wss None)) eq_refl eq_refl eq_refl eq_refl eq_refl) as (E1 & E2 & E3 & E4 & E5).
  rewrite E1, E2, E3, E4, E5, A. reflexivity.
Qed.
(* with_api after with_api_callback takes the callback away *)
Theorem C109_callback_lost_refuted : exists n k, forall received current u c waiting r, n <> received ->
  built received true current u [WithApiCallback n k; WithApi n] = inl c ->
  react (c_apis c) waiting (mk_payload None n (Response r)) = Logged.
Proof.
  exists [7], 3. intros received current u c waiting r N H. destruct (C109_apis _ _ _ _ _ _ H) as [_ G]. unfold react. cbn [p_id p_name]. rewrite (G _ N). reflexivity.
Qed.
(* an out-of-band error of an API with a callback ends the client's task *)
Theorem C109_error_refuted : forall received websockets current u l c waiting n k e, built received websockets current u l = inl c -> n <> received ->
  chosen (an_api n) l = Some (Some k) -> react (c_apis c) waiting (mk_payload None n (ApiError e)) = Dies.
Proof.
  intros received websockets current u l c waiting n k e H N CH. destruct (C109_apis _ _ _ _ _ _ H) as [_ G]. unfold react. cbn [p_id p_name]. rewrite (G _ N), CH. reflexivity.
Qed.

(* and by nothing else: every other message leaves the task running, and one that is no answer
   and for which there is no callback, or that cannot be read, only leaves a line in the log *)
Theorem C109_survives : forall received websockets current u l c waiting p, built received websockets current u l = inl c -> p_name p <> received ->
  (react (c_apis c) waiting p = Dies <-> p_id p = None /\ (exists k, chosen (an_api (p_name p)) l = Some (Some k)) /\ exists e, p_value p = ApiError e) /\
  (react (c_apis c) waiting p = Logged <-> p_id p = None /\ ((forall k, chosen (an_api (p_name p)) l <> Some (Some k)) \/ p_value p = Failed \/ p_value p = Garbled)).
Proof.
  intros received websockets current u l c waiting [i n v] H N. destruct (C109_apis _ _ _ _ _ _ H) as [_ G]. cbn [p_name p_id p_value] in *. unfold react. cbn [p_id p_name p_value].
  destruct i as [i|]; [destruct (existsb (N.eqb i) waiting); split; split; try discriminate; intros [X _]; discriminate|]. rewrite (G n N).
  destruct (chosen (an_api n) l) as [[k|]|].
  - split; split.
    + destruct v; try discriminate. intros _. split; [reflexivity|]. split; eauto.
    + intros (_ & _ & e & ->). reflexivity.
    + destruct v; try discriminate; intros _; auto.
    + intros (_ & [X|[->| ->]]); [exfalso; exact (X k eq_refl)|reflexivity|reflexivity].
  - split; split; try (destruct v; discriminate); try (intros (_ & (k & X) & _); discriminate); [intros _; split; [reflexivity|left; intros k; discriminate]|intros _; destruct v; reflexivity].
  - split; split; try (destruct v; discriminate); try (intros (_ & (k & X) & _); discriminate); [intros _; split; [reflexivity|left; intros k; discriminate]|intros _; destruct v; reflexivity].
Qed.

Example C109_ex : let l := [WithRequestTimeout 5; WithApi [7]; WithApiCallback [7] 3; WithCertificate [1]; WithRequestTimeout 9; WithApiCallback [0] 4] in
  exists c, built [0] true None (mk_url s_bonsaidb None) l = inl c /\ c_worker c = Quic (Some [1]) /\ c_port c = Some 5645 /\ c_request c = 9 /\ c_connect c = 60000 /\ c_runtime c = OnItsOwn /\
  react (c_apis c) [4] (mk_payload None [7] (Response 2)) = Invoked 3 2 /\ react (c_apis c) [4] (mk_payload None [0] (Response 2)) = Invoked messages 2 /\
  react (c_apis c) [4] (mk_payload (Some 4) [7] (Response 2)) = Answered 4 (Response 2) /\ react (c_apis c) [4] (mk_payload (Some 5) [7] (Response 2)) = Ignored /\
  react (c_apis c) [4] (mk_payload None [8] (Response 2)) = Logged /\
  s_bonsaidb = [98; 111; 110; 115; 97; 105; 100; 98] /\ s_wss = [119; 115; 115] /\ s_ws = [119; 115] /\
  built [0] false None (mk_url s_wss None) l = inr s_wss /\ (exists d, built [0] true (Some 6) (mk_url s_ws (Some 80)) l = inl d /\ c_worker d = WebSocket /\ c_port d = Some 80 /\ c_runtime d = OnCurrent 6) /\
  built [0] true None (mk_url [104; 116; 116; 112] None) l = inr [104; 116; 116; 112].
Proof. eexists. split; [vm_compute; reflexivity|]. repeat match goal with |- _ /\ _ => split end; try (vm_compute; reflexivity). eexists. split; [vm_compute; reflexivity|]. vm_compute. auto. Qed.

Print Assumptions C109_worker.
Print Assumptions C109_settings.
Print Assumptions C109_apis.
Print Assumptions C109_callback.
Print Assumptions C109_answer.
Print Assumptions C109_certificate_refuted.
Print Assumptions C109_callback_lost_refuted.
Print Assumptions C109_error_refuted.
Print Assumptions C109_survives.
