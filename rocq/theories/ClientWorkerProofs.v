(* Invariants of the client worker: see PropClientWorker.v for the statements. *)
From Coq Require Import List Arith NArith Bool Lia Permutation ZifyBool.
From Verif Require Import ClientWorker.
Import ListNotations.
Open Scope N_scope.

Definition in_hand (p : phase) : list call :=
  match p with Connecting c | Sent c => [c] | _ => [] end.

Definition places (w : worker) : list call :=
  queue w ++ in_hand (ph w) ++ map snd (outstanding w) ++ map fst (results w).

(* specification: the calls written to the current connection *)
Definition log_step (w w' : worker) (log : list call) (ev : event) : list call :=
  match ev with
  | FirstSend => match ph w with Connecting c => [c] | _ => log end
  | Send => match ph w, queue w with
            | Connected, c :: _ | Closed, c :: _ => log ++ [c]
            | _, _ => log end
  | _ => log
  end.

Lemma take_id_perm : forall i m c r, take_id i m = Some (c, r) ->
  Permutation m ((i, c) :: r).
Proof.
  induction m as [|[j d] m IH]; cbn [take_id]; intros c r H; [discriminate|].
  destruct (j =? i) eqn:E.
  - inversion H; subst. apply N.eqb_eq in E. subst. apply Permutation_refl.
  - destruct (take_id i m) as [[d' r']|] eqn:T; [|discriminate].
    inversion H; subst. specialize (IH _ _ eq_refl).
    eapply Permutation_trans; [apply perm_skip; exact IH|apply perm_swap].
Qed.

Lemma take_id_none : forall i m, take_id i m = None -> ~ In i (map fst m).
Proof.
  induction m as [|[j d] m IH]; cbn [take_id map fst]; intros H; [easy|].
  destruct (j =? i) eqn:E; [discriminate|].
  destruct (take_id i m) as [[d' r']|] eqn:T; [discriminate|].
  intros [F|F]; [cbn in F; subst; rewrite N.eqb_refl in E; discriminate|now apply IH].
Qed.

Lemma take_id_some : forall i m, In i (map fst m) -> exists c r, take_id i m = Some (c, r).
Proof.
  intros i m H. destruct (take_id i m) as [[c r]|] eqn:T; [eauto|].
  exfalso. exact (take_id_none _ _ T H).
Qed.

(* counting *)
Definition cnt (c : call) (l : list call) : nat := count_occ N.eq_dec l c.

Lemma cnt_app : forall c l m, cnt c (l ++ m) = (cnt c l + cnt c m)%nat.
Proof. intros. apply count_occ_app. Qed.

Lemma cnt_perm : forall c l m, Permutation l m -> cnt c l = cnt c m.
Proof. intros c l m P. unfold cnt. induction P; cbn [count_occ]; repeat destruct N.eq_dec; congruence. Qed.

Definition total (c : call) (w : worker) : nat :=
  (cnt c (queue w) + cnt c (in_hand (ph w)) + cnt c (map snd (outstanding w)) + cnt c (map fst (results w)))%nat.

Lemma total_places : forall c w, cnt c (places w) = total c w.
Proof. intros. unfold places, total. rewrite !cnt_app. lia. Qed.

Lemma total_insert : forall d c w, total d (insert c w) = (total d w + cnt d [c])%nat.
Proof.
  intros d c w. unfold insert. destruct (take_id (wire_id c) (outstanding w)) as [[old r]|] eqn:T.
  - unfold total. cbn [queue ph outstanding results map snd]. rewrite map_app, cnt_app.
    pose proof (cnt_perm d _ _ (Permutation_map snd (take_id_perm _ _ _ _ T))) as P.
    cbn [map snd fst] in P. rewrite P. cbn [map fst].
    change (c :: map snd r) with ([c] ++ map snd r). change (old :: map snd r) with ([old] ++ map snd r).
    rewrite !cnt_app. lia.
  - unfold total. cbn [queue ph outstanding results map snd].
    change (c :: map snd (outstanding w)) with ([c] ++ map snd (outstanding w)).
    rewrite cnt_app. lia.
Qed.

Lemma drain_calls : forall e m rs p, drain e m = (rs, p) -> map fst rs = map snd m.
Proof.
  intros e [|[i c] m] rs p H; cbn [drain] in H; inversion H; subst; [reflexivity|].
  cbn [map fst snd]. f_equal. rewrite map_map. cbn. reflexivity.
Qed.

Lemma total_disconnect : forall d e w,
  total d (disconnect e w) = (cnt d (queue w) + cnt d (map snd (outstanding w)) + cnt d (map fst (results w)))%nat.
Proof.
  intros d e w. unfold disconnect. destruct (drain e (outstanding w)) as [rs p] eqn:D.
  unfold total. cbn [queue ph outstanding results in_hand map]. rewrite map_app, cnt_app.
  rewrite (drain_calls _ _ _ _ D). cbn [cnt count_occ]. unfold cnt. cbn [count_occ]. lia.
Qed.

Ltac cns := repeat match goal with
  | |- context [cnt ?d (?a :: ?b :: ?l)] => change (a :: b :: l) with ([a] ++ (b :: l)); rewrite cnt_app
  end.

Lemma cnt_cons : forall d a l, cnt d (a :: l) = (cnt d [a] + cnt d l)%nat.
Proof. intros. change (a :: l) with ([a] ++ l). apply cnt_app. Qed.
Lemma cnt_nil : forall d, cnt d [] = 0%nat.
Proof. reflexivity. Qed.

Lemma total_step : forall t d w ev,
  (forall c, ph w = Connecting c -> outstanding w = []) ->
  total d (step t w ev) = (total d w + cnt d (match ev with Call => [issued w] | _ => [] end))%nat.
Proof.
  intros t d w ev HC. destruct ev; cbn [step].
  - unfold total. cbn [queue ph outstanding results]. rewrite cnt_app. lia.
  - destruct (ph w) eqn:P; try (rewrite cnt_nil; lia).
    destruct (queue w) as [|c q] eqn:Q; [rewrite cnt_nil; lia|].
    destruct (pending w); unfold total; cbn [queue ph outstanding results in_hand];
      rewrite ?P, ?Q, ?map_app, ?cnt_app; cbn [in_hand map fst]; rewrite (cnt_cons d c q), ?cnt_nil; lia.
  - destruct (ph w) eqn:P; try (rewrite cnt_nil; lia).
    unfold total; cbn [queue ph outstanding results in_hand]; rewrite P, (HC _ eq_refl), ?map_app, ?cnt_app;
      cbn [in_hand map fst snd]; rewrite ?cnt_nil; lia.
  - destruct (ph w) eqn:P; try (rewrite cnt_nil; lia).
    unfold total; cbn [queue ph outstanding results in_hand]; rewrite P, (HC _ eq_refl), ?map_app, ?cnt_app;
      cbn [in_hand map fst snd]; rewrite ?cnt_nil; lia.
  - destruct (ph w) eqn:P; try (rewrite cnt_nil; lia).
    destruct t; [|rewrite total_insert];
    unfold total; cbn [queue ph outstanding results in_hand]; rewrite P, (HC _ eq_refl), ?map_app, ?cnt_app;
      cbn [in_hand map fst snd]; rewrite ?cnt_nil; lia.
  - destruct (ph w) eqn:P; try (rewrite cnt_nil; lia).
    rewrite total_insert. unfold total; cbn [queue ph outstanding results in_hand]; rewrite P.
      cbn [in_hand map fst snd]; rewrite ?cnt_nil; lia.
  - destruct (ph w) eqn:P; try (rewrite cnt_nil; lia);
    (destruct (queue w) as [|c q] eqn:Q; [rewrite cnt_nil; lia|]);
    rewrite total_insert; unfold total; cbn [queue ph outstanding results in_hand]; rewrite P, Q;
      cbn [in_hand]; rewrite (cnt_cons d c q), ?cnt_nil; lia.
  - destruct (ph w) eqn:P; try (rewrite cnt_nil; lia);
    (destruct (queue w) as [|c q] eqn:Q; [rewrite cnt_nil; lia|]);
    rewrite total_disconnect; unfold total; cbn [queue ph outstanding results in_hand]; rewrite P, Q, map_app, cnt_app;
      cbn [in_hand map fst]; rewrite (cnt_cons d c q), ?cnt_nil; lia.
  - destruct (ph w) eqn:P; try (rewrite cnt_nil; lia);
    (destruct (take_id i (outstanding w)) as [[x r]|] eqn:T; [|rewrite cnt_nil; lia]);
    pose proof (cnt_perm d _ _ (Permutation_map snd (take_id_perm _ _ _ _ T))) as X;
    cbn [map snd fst] in X; unfold total; cbn [queue ph outstanding results in_hand];
    rewrite P, X, map_app, cnt_app; cbn [in_hand map fst]; rewrite (cnt_cons d x (map snd r)), ?cnt_nil; lia.
  - destruct (ph w) eqn:P; try (rewrite cnt_nil; lia).
    rewrite total_disconnect; unfold total; rewrite P; cbn [in_hand]; rewrite ?cnt_nil; lia.
  - destruct t; [rewrite cnt_nil; lia|]. destruct (ph w) eqn:P; try (rewrite cnt_nil; lia).
    unfold total; cbn [queue ph outstanding results in_hand]; rewrite P; cbn [in_hand]; rewrite ?cnt_nil; lia.
Qed.

Lemma insert_ph : forall c w, ph (insert c w) = ph w.
Proof. intros. unfold insert. destruct take_id as [[]|]; reflexivity. Qed.
Lemma insert_issued : forall c w, issued (insert c w) = issued w.
Proof. intros. unfold insert. destruct take_id as [[]|]; reflexivity. Qed.
Lemma disconnect_ph : forall c w, ph (disconnect c w) = Idle.
Proof. intros. unfold disconnect. destruct drain; reflexivity. Qed.
Lemma disconnect_issued : forall c w, issued (disconnect c w) = issued w.
Proof. intros. unfold disconnect. destruct drain; reflexivity. Qed.
Lemma disconnect_out : forall c w, outstanding (disconnect c w) = [].
Proof. intros. unfold disconnect. destruct drain; reflexivity. Qed.

(* no outstanding request before a connection exists *)
Definition quiet (w : worker) : Prop :=
  match ph w with Idle | Connecting _ | Sent _ => outstanding w = [] | _ => True end.

Lemma quiet_step : forall t w ev, quiet w -> quiet (step t w ev).
Proof.
  intros t w ev Q. unfold quiet in *. destruct ev; cbn [step].
  - cbn [ph outstanding]. exact Q.
  - destruct (ph w) eqn:P; try (rewrite P; exact Q).
    destruct (queue w); [rewrite P; exact Q|]. destruct (pending w); cbn [ph outstanding]; exact Q.
  - destruct (ph w) eqn:P; try (rewrite P; exact Q). reflexivity.
  - destruct (ph w) eqn:P; try (rewrite P; exact Q). reflexivity.
  - destruct (ph w) eqn:P; try (rewrite P; exact Q).
    destruct t; [reflexivity|]. rewrite insert_ph. cbn [ph]. exact I.
  - destruct (ph w) eqn:P; try (rewrite P; exact Q).
    rewrite insert_ph. cbn [ph]. exact I.
  - destruct (ph w) eqn:P; try (rewrite P; exact Q);
    (destruct (queue w); [rewrite P; exact Q|]); rewrite insert_ph; cbn [ph]; exact I.
  - destruct (ph w) eqn:P; try (rewrite P; exact Q);
    (destruct (queue w); [rewrite P; exact Q|]); rewrite disconnect_ph; apply disconnect_out.
  - destruct (ph w) eqn:P; try (rewrite P; exact Q).
    + rewrite Q. cbn [take_id]. rewrite P. exact Q.
    + destruct take_id as [[c' r]|] eqn:T; [|rewrite P; exact Q]. cbn [ph]. exact I.
  - destruct (ph w) eqn:P; try (rewrite P; exact Q). rewrite disconnect_ph. apply disconnect_out.
  - destruct t; [exact Q|]. destruct (ph w) eqn:P; try (rewrite P; exact Q). exact I.
Qed.

Lemma quiet_connecting : forall w, quiet w -> forall c, ph w = Connecting c -> outstanding w = [].
Proof. intros w Q c P. unfold quiet in Q. rewrite P in Q. exact Q. Qed.

Lemma issued_step : forall t w ev, issued (step t w ev) = issued w + (match ev with Call => 1 | _ => 0 end).
Proof.
  intros t w ev. destruct ev; cbn [step]; rewrite ?N.add_0_r; try reflexivity;
  repeat (match goal with
    | |- context [match ?x with _ => _ end] => destruct x
    end); rewrite ?insert_issued, ?disconnect_issued; reflexivity.
Qed.

Definition calls (h : list event) : N :=
  N.of_nat (length (filter (fun e => match e with Call => true | _ => false end) h)).

(* each call is in exactly one place *)
Definition once (w : worker) : Prop :=
  forall d, total d w = (if (d <? issued w)%N then 1 else 0)%nat.

Lemma once_step : forall t w ev, quiet w -> once w -> once (step t w ev).
Proof.
  intros t w ev Q O d. rewrite (total_step t d w ev (quiet_connecting w Q)), (O d), issued_step.
  destruct ev; rewrite ?cnt_nil, ?N.add_0_r; try lia.
  unfold cnt. cbn [count_occ]. destruct (N.eq_dec (issued w) d) as [E|E].
  - subst. rewrite N.ltb_irrefl. replace (issued w <? issued w + 1) with true by lia. reflexivity.
  - destruct (d <? issued w) eqn:L.
    + replace (d <? issued w + 1) with true by lia. reflexivity.
    + replace (d <? issued w + 1) with false by lia. reflexivity.
Qed.

Lemma run_app : forall t h1 h2 w, run t w (h1 ++ h2) = run t (run t w h1) h2.
Proof. induction h1; cbn [run app]; intros; auto. Qed.

Lemma run_inv : forall t h w, quiet w -> once w ->
  quiet (run t w h) /\ once (run t w h) /\ issued (run t w h) = issued w + calls h.
Proof.
  induction h as [|ev h IH]; cbn [run]; intros w Q O.
  - repeat split; auto. unfold calls. cbn. lia.
  - destruct (IH (step t w ev) (quiet_step _ _ _ Q) (once_step _ _ _ Q O)) as (A & B & C).
    repeat split; auto. rewrite C, issued_step. unfold calls. cbn [filter].
    destruct ev; cbn [length]; lia.
Qed.

Lemma init_quiet : quiet init. Proof. reflexivity. Qed.
Lemma init_once : once init. Proof. intros d. unfold total. cbn. destruct d; reflexivity. Qed.

(* ---- the wire ---- *)
Fixpoint wire (t : transport) (w : worker) (log : list call) (h : list event) : list call :=
  match h with
  | [] => log
  | ev :: r => wire t (step t w ev) (log_step w (step t w ev) log ev) r
  end.

Lemma wire_app : forall t h1 h2 w log,
  wire t w log (h1 ++ h2) = wire t (run t w h1) (wire t w log h1) h2.
Proof. induction h1; cbn [run app wire]; intros; auto. Qed.

Definition keyed (w : worker) (log : list call) : Prop :=
  forall i c, In (i, c) (outstanding w) -> i = wire_id c /\ In c log.

Lemma keyed_insert : forall c w log, keyed w log -> keyed (insert c w) (log ++ [c]).
Proof.
  intros c w log K i d H. unfold insert in H.
  destruct (take_id (wire_id c) (outstanding w)) as [[old r]|] eqn:T; cbn [outstanding] in H;
  (destruct H as [H|H]; [inversion H; subst; split; [reflexivity|apply in_or_app; right; left; reflexivity]|]).
  - assert (I : In (i, d) (outstanding w)).
    { eapply Permutation_in; [apply Permutation_sym, (take_id_perm _ _ _ _ T)|right; exact H]. }
    destruct (K _ _ I). split; [assumption|apply in_or_app; auto].
  - destruct (K _ _ H). split; [assumption|apply in_or_app; auto].
Qed.

Definition hand_logged (w : worker) (log : list call) : Prop :=
  match ph w with Sent c => log = [c] | _ => True end.

Lemma keyed_step : forall t w log ev, quiet w -> keyed w log -> hand_logged w log ->
  keyed (step t w ev) (log_step w (step t w ev) log ev) /\
  hand_logged (step t w ev) (log_step w (step t w ev) log ev).
Proof.
  intros t w log ev Q K L. unfold hand_logged in *. destruct ev; cbn [step log_step].
  - split; [exact K|exact L].
  - destruct (ph w) eqn:P; try (rewrite P; auto; fail).
    destruct (queue w); [rewrite P; auto|]. destruct (pending w); cbn [ph]; auto.
  - destruct (ph w) eqn:P; try (rewrite P; auto; fail). split; [intros ? ? []|exact I].
  - destruct (ph w) eqn:P; try (rewrite P; auto; fail). split; [intros ? ? []|exact I].
  - destruct (ph w) eqn:P; try (rewrite P; auto; fail).
    destruct t.
    + split; [intros ? ? []|reflexivity].
    + split; [|rewrite insert_ph; exact I]. apply (keyed_insert _ _ []). intros ? ? [].
  - destruct (ph w) eqn:P; try (rewrite P; auto; fail).
    split; [|rewrite insert_ph; exact I].
    unfold quiet in Q. rewrite P in Q. subst log.
    apply (keyed_insert _ _ []). intros i d H. cbn [outstanding] in H. rewrite Q in H. destruct H.
  - destruct (ph w) eqn:P; try (rewrite P; auto; fail);
    (destruct (queue w); [rewrite P; auto|]); (split; [|rewrite insert_ph; exact I]);
    apply keyed_insert; exact K.
  - destruct (ph w) eqn:P; try (rewrite P; auto; fail);
    (destruct (queue w); [rewrite P; auto|]); (split; [|rewrite disconnect_ph; exact I]);
    intros i d H; rewrite disconnect_out in H; destruct H.
  - destruct (ph w) eqn:P; try (rewrite P; auto; fail);
    (destruct (take_id i (outstanding w)) as [[c' r]|] eqn:T; [|rewrite P; auto]);
    cbn [ph]; (split; [|try exact L; exact I]); intros j d H; cbn [outstanding] in H; apply K;
    (eapply Permutation_in; [apply Permutation_sym, (take_id_perm _ _ _ _ T)|right; exact H]).
  - destruct (ph w) eqn:P; try (rewrite P; auto; fail).
    split; [|rewrite disconnect_ph; exact I]. intros i d H; rewrite disconnect_out in H; destruct H.
  - destruct t; [auto|]. destruct (ph w) eqn:P; try (rewrite P; auto; fail). split; [exact K|exact I].
Qed.

Lemma results_step : forall t w log ev c v, keyed w log ->
  In (c, Answer v) (results (step t w ev)) ->
  In (c, Answer v) (results w) \/ (ev = Response (wire_id c) v /\ In c log).
Proof.
  assert (INS : forall c d v w, In (c, Answer v) (results (insert d w)) -> In (c, Answer v) (results w)).
  { intros c d v w H. unfold insert in H. destruct take_id as [[old r]|]; cbn [results] in H; auto.
    apply in_app_or in H. destruct H as [H|[H|[]]]; [auto|discriminate]. }
  assert (DIS : forall c e v w, In (c, Answer v) (results (disconnect e w)) -> In (c, Answer v) (results w)).
  { intros c e v w H. unfold disconnect in H. destruct (drain e (outstanding w)) as [rs p] eqn:D.
    cbn [results] in H. apply in_app_or in H. destruct H as [H|H]; [auto|]. exfalso.
    destruct (outstanding w) as [|[j d] m]; cbn [drain] in D; inversion D; subst; [destruct H|].
    destruct H as [H|H]; [discriminate|]. apply in_map_iff in H. destruct H as (x & X & _). discriminate. }
  assert (APP : forall (c d : call) v r (l : list (call * result)), In (c, Answer v) (l ++ [(d, r)]) -> (forall u, r <> Answer u) -> In (c, Answer v) l).
  { intros c d v r l H NA. apply in_app_or in H. destruct H as [H|[H|[]]]; [auto|].
    inversion H; subst. exfalso. exact (NA v eq_refl). }
  intros t w log ev c v K H. destruct ev; cbn [step] in H.
  - left. exact H.
  - left. destruct (ph w); auto. destruct (queue w); auto. destruct (pending w); cbn [results] in H; auto.
    eapply APP; [exact H|discriminate].
  - left. destruct (ph w); auto. cbn [results] in H. eapply APP; [exact H|discriminate].
  - left. destruct (ph w); auto. cbn [results] in H. eapply APP; [exact H|discriminate].
  - left. destruct (ph w); auto. destruct t; [exact H|]. apply INS in H. exact H.
  - left. destruct (ph w); auto. apply INS in H. exact H.
  - left. destruct (ph w); auto; destruct (queue w); auto; apply INS in H; exact H.
  - left. destruct (ph w); auto; destruct (queue w); auto; apply DIS in H; cbn [results] in H;
    (eapply APP; [exact H|discriminate]).
  - destruct (ph w); auto; (destruct (take_id i (outstanding w)) as [[c' r]|] eqn:T; [|auto]); cbn [results] in H;
    apply in_app_or in H; (destruct H as [H|[H|[]]]; [auto|]); inversion H; subst; right;
    (destruct (K i c) as [A B];
      [eapply Permutation_in; [apply Permutation_sym, (take_id_perm _ _ _ _ T)|left; reflexivity]|]);
    subst; auto.
  - left. destruct (ph w); auto; apply DIS in H; exact H.
  - left. destruct t; auto. destruct (ph w); auto.
Qed.

(* an answer always stems from a response with the call's id on its connection *)
Lemma answer_origin_gen : forall t h w log c v,
  quiet w -> keyed w log -> hand_logged w log ->
  In (c, Answer v) (results (run t w h)) ->
  In (c, Answer v) (results w) \/
  exists h1 h2, h = h1 ++ Response (wire_id c) v :: h2 /\ In c (wire t w log h1).
Proof.
  induction h as [|ev h IH]; cbn [run]; intros w log c v Q K L H; [left; exact H|].
  destruct (keyed_step t w log ev Q K L) as [K' L'].
  destruct (IH _ _ _ _ (quiet_step _ _ _ Q) K' L' H) as [A|(h1 & h2 & E & A)].
  - destruct (results_step _ _ _ _ _ _ K A) as [B|[B C]]; [left; exact B|].
    right. exists [], h. subst. split; [reflexivity|exact C].
  - right. exists (ev :: h1), h2. subst. split; [reflexivity|exact A].
Qed.

Lemma answer_origin : forall t h c v,
  In (c, Answer v) (results (run t init h)) ->
  exists h1 h2, h = h1 ++ Response (wire_id c) v :: h2 /\ In c (wire t init [] h1).
Proof.
  intros t h c v H. destruct (answer_origin_gen t h init [] c v) as [A|A]; auto.
  - exact init_quiet.
  - intros ? ? [].
  - exact I.
  - destruct A.
Qed.

(* logged calls have been issued *)
Lemma place_lt : forall w c, once w -> (cnt c (queue w) + cnt c (in_hand (ph w)) > 0)%nat -> c < issued w.
Proof.
  intros w c O H. specialize (O c). unfold total in O. destruct (c <? issued w) eqn:E; lia.
Qed.

Lemma wire_lt_gen : forall t h w log, quiet w -> once w -> (forall c, In c log -> c < issued w) ->
  forall c, In c (wire t w log h) -> c < issued (run t w h).
Proof.
  induction h as [|ev h IH]; cbn [run wire]; intros w log Q O L c H; [auto|].
  eapply IH; [apply quiet_step; exact Q|apply once_step; assumption| |exact H].
  intros d D. rewrite issued_step.
  assert (G : In d log \/ (cnt d (queue w) + cnt d (in_hand (ph w)) > 0)%nat).
  { destruct ev; cbn [log_step] in D; auto.
    - destruct (ph w); auto. destruct D as [D|[]]. subst. right. cbn [in_hand]. unfold cnt. cbn [count_occ].
      destruct (N.eq_dec d d); [lia|congruence].
    - destruct (ph w); auto; destruct (queue w) as [|x q]; auto; apply in_app_or in D;
      (destruct D as [D|[D|[]]]; [auto|]); subst; right; unfold cnt; cbn [count_occ];
      (destruct (N.eq_dec d d); [lia|congruence]). }
  destruct G as [G|G]; [specialize (L _ G); lia|pose proof (place_lt _ _ O G); lia].
Qed.

Lemma wire_id_inj : forall a b, a < 4294967296 -> b < 4294967296 -> wire_id a = wire_id b -> a = b.
Proof. intros a b A B. unfold wire_id. rewrite !N.mod_small by assumption. auto. Qed.

Lemma run_prefix_issued : forall t h1 h2, issued (run t init h1) <= calls (h1 ++ h2).
Proof.
  intros. destruct (run_inv t h1 init init_quiet init_once) as (_ & _ & E). rewrite E.
  cbn [issued init]. unfold calls. rewrite filter_app, app_length. lia.
Qed.

Lemma right_answer : forall t h answer, calls h <= 4294967296 ->
  (forall h1 i v h2, h = h1 ++ Response i v :: h2 ->
     exists c, In c (wire t init [] h1) /\ wire_id c = i /\ v = answer c) ->
  forall c v, In (c, Answer v) (results (run t init h)) -> v = answer c.
Proof.
  intros t h answer B H c v R. destruct (answer_origin _ _ _ _ R) as (h1 & h2 & E & W).
  destruct (H _ _ _ _ E) as (d & D & I & A). subst v. f_equal.
  assert (LT : forall x, In x (wire t init [] h1) -> x < 4294967296).
  { intros x X. assert (x < issued (run t init h1)).
    { apply (wire_lt_gen t h1 init []); auto; [exact init_quiet|exact init_once|intros ? []]. }
    pose proof (run_prefix_issued t h1 (Response (wire_id c) (answer d) :: h2)) as G. rewrite <- E in G. lia. }
  apply wire_id_inj; auto.
Qed.

Lemma in_cnt : forall c l, In c l <-> (cnt c l > 0)%nat.
Proof. intros. apply count_occ_In. Qed.

Definition held (w : worker) (c : call) : Prop :=
  In c (queue w) \/ ph w = Connecting c \/ ph w = Sent c \/ In c (map snd (outstanding w)).

Lemma in_hand_spec : forall p c, (cnt c (in_hand p) > 0)%nat <-> (p = Connecting c \/ p = Sent c).
Proof.
  intros p c. rewrite <- in_cnt. destruct p; cbn [in_hand In]; intuition (try congruence).
Qed.

Lemma run_once : forall t h, once (run t init h).
Proof. intros. apply (run_inv t h init init_quiet init_once). Qed.
Lemma run_quiet : forall t h, quiet (run t init h).
Proof. intros. apply (run_inv t h init init_quiet init_once). Qed.
Lemma run_issued : forall t h, issued (run t init h) = calls h.
Proof. intros. destruct (run_inv t h init init_quiet init_once) as (_ & _ & E). rewrite E. reflexivity. Qed.

Lemma results_nodup : forall t h, NoDup (map fst (results (run t init h))).
Proof.
  intros. apply (NoDup_count_occ N.eq_dec). intros c. pose proof (run_once t h c) as O.
  unfold total, cnt in O. destruct (c <? _) in O; lia.
Qed.

Lemma held_or_result : forall t h c, c < calls h <->
  held (run t init h) c \/ In c (map fst (results (run t init h))).
Proof.
  intros t h c. pose proof (run_once t h c) as O. rewrite run_issued in O. unfold total in O.
  unfold held. rewrite (in_cnt c (queue _)), (in_cnt c (map snd _)), (in_cnt c (map fst _)).
  pose proof (in_hand_spec (ph (run t init h)) c) as IH.
  destruct (c <? calls h) eqn:L.
  - split; [intros _|lia].
    destruct (Nat.eq_dec (cnt c (map fst (results (run t init h)))) 0); [left|right; lia].
    destruct (Nat.eq_dec (cnt c (queue (run t init h))) 0); [|left; lia].
    destruct (Nat.eq_dec (cnt c (map snd (outstanding (run t init h)))) 0); [|right; right; right; lia].
    destruct IH as [IH _]. destruct IH as [IH|IH]; [lia| |]; auto.
  - split; [lia|]. intros [[H|[H|[H|H]]]|H]; try lia;
    (assert (cnt c (in_hand (ph (run t init h))) > 0)%nat by (apply IH; auto); lia).
Qed.

Lemma held_not_result : forall t h c,
  held (run t init h) c -> ~ In c (map fst (results (run t init h))).
Proof.
  intros t h c H R. pose proof (run_once t h c) as O. unfold total in O.
  pose proof (in_hand_spec (ph (run t init h)) c) as IH. apply in_cnt in R.
  unfold held in H. rewrite (in_cnt c (queue _)), (in_cnt c (map snd _)) in H.
  destruct (c <? _) in O; destruct H as [H|[H|[H|H]]]; try lia;
  (assert (cnt c (in_hand (ph (run t init h))) > 0)%nat by (apply IH; auto); lia).
Qed.

(* results are never taken back *)
Lemma results_grow_step : forall t w ev, exists l, results (step t w ev) = results w ++ l.
Proof.
  assert (INS : forall d w, exists l, results (insert d w) = results w ++ l).
  { intros. unfold insert. destruct take_id as [[]|]; cbn [results]; [eauto|exists []; now rewrite app_nil_r]. }
  assert (DIS : forall e w, exists l, results (disconnect e w) = results w ++ l).
  { intros. unfold disconnect. destruct drain; cbn [results]; eauto. }
  assert (Z : forall w, exists l, results w = results w ++ l) by (intros; exists []; now rewrite app_nil_r).
  intros t w ev. destruct ev; cbn [step].
  - exact (Z w).
  - destruct (ph w); auto. destruct (queue w); auto. destruct (pending w); cbn [results]; eauto.
  - destruct (ph w); auto; cbn [results]; eauto.
  - destruct (ph w); auto; cbn [results]; eauto.
  - destruct (ph w); auto. destruct t; cbn [results]; auto. destruct (INS c (mkW (issued w) (queue w) Connected [] (pending w) (results w))) as [l E]. exists l. exact E.
  - destruct (ph w); auto. destruct (INS c (mkW (issued w) (queue w) Connected (outstanding w) (pending w) (results w))) as [l E]. exists l. exact E.
  - destruct (ph w) eqn:P; auto; destruct (queue w) as [|c q]; auto;
    match goal with |- exists l, results (insert ?c ?x) = _ => destruct (INS c x) as [l E]; exists l; exact E end.
  - destruct (ph w) eqn:P; auto; destruct (queue w) as [|c q]; auto;
    match goal with |- exists l, results (disconnect ?c ?x) = _ => destruct (DIS c x) as [l E]; rewrite E; cbn [results]; rewrite <- app_assoc; eauto end.
  - destruct (ph w); auto; destruct (take_id i (outstanding w)) as [[c' r]|]; cbn [results]; eauto.
  - destruct (ph w); auto.
  - destruct t; auto. destruct (ph w); auto. cbn [results]. auto.
Qed.

Lemma results_grow : forall t h w, exists l, results (run t w h) = results w ++ l.
Proof.
  induction h as [|ev h IH]; cbn [run]; intros w; [exists []; now rewrite app_nil_r|].
  destruct (IH (step t w ev)) as [l E]. destruct (results_grow_step t w ev) as [l' E'].
  rewrite E, E', <- app_assoc. eauto.
Qed.

(* a disconnection resolves everything that was outstanding *)
Lemma drain_failed : forall e m i c, In (i, c) m -> exists e', In (c, Failed e') (fst (drain e m)).
Proof.
  intros e [|[j d] m] i c H; [destruct H|]. cbn [drain fst].
  destruct H as [H|H]; [inversion H; subst; exists e; left; reflexivity|].
  exists disconnected. right. apply in_map_iff. exists (i, c). auto.
Qed.

Lemma drain_error : forall e m, snd (drain e m) = Some e \/ exists c, In (c, Failed e) (fst (drain e m)).
Proof. intros e [|[j d] m]; cbn [drain fst snd]; [left; reflexivity|right; exists d; left; reflexivity]. Qed.

(* liveness-like: a sent request is outstanding or resolved while its connection lives *)
Definition tracked (w : worker) (log : list call) : Prop :=
  match ph w with
  | Connected | Closed => forall c, In c log -> In c (map snd (outstanding w)) \/ In c (map fst (results w))
  | _ => True
  end.

Lemma insert_tracks : forall c w d,
  In d (map snd (outstanding w)) \/ In d (map fst (results w)) \/ d = c ->
  In d (map snd (outstanding (insert c w))) \/ In d (map fst (results (insert c w))).
Proof.
  intros c w d H. unfold insert. destruct (take_id (wire_id c) (outstanding w)) as [[old r]|] eqn:T;
  cbn [outstanding results map snd].
  - rewrite map_app, in_app_iff. cbn [map fst In].
    destruct H as [H|[H|H]]; [|auto|subst; auto].
    apply (Permutation_in _ (Permutation_map snd (take_id_perm _ _ _ _ T))) in H.
    cbn [map snd In] in H. destruct H; auto.
  - cbn [In]. destruct H as [H|[H|H]]; subst; auto.
Qed.

Lemma tracked_step : forall t w log ev, quiet w -> keyed w log -> hand_logged w log -> tracked w log ->
  tracked (step t w ev) (log_step w (step t w ev) log ev).
Proof.
  intros t w log ev Q K L T. unfold tracked in *. destruct ev; cbn [step log_step].
  - exact T.
  - destruct (ph w) eqn:P; try (rewrite P; exact T). destruct (queue w); [rewrite P; exact I|].
    destruct (pending w); exact I.
  - destruct (ph w) eqn:P; try (rewrite P; exact T). exact I.
  - destruct (ph w) eqn:P; try (rewrite P; exact T). exact I.
  - destruct (ph w) eqn:P; try (rewrite P; exact T). destruct t; [exact I|].
    rewrite insert_ph. cbn [ph]. intros d [D|[]]. apply insert_tracks. auto.
  - destruct (ph w) eqn:P; try (rewrite P; exact T). rewrite insert_ph. cbn [ph].
    unfold hand_logged in L. rewrite P in L. subst log. intros d [D|[]]. apply insert_tracks. auto.
  - destruct (ph w) eqn:P; try (rewrite P; exact T);
    (destruct (queue w); [rewrite P; exact T|]); rewrite insert_ph; cbn [ph]; intros d D;
    apply insert_tracks; apply in_app_or in D; cbn [outstanding results];
    (destruct D as [D|[D|[]]]; [destruct (T d D); auto|auto]).
  - destruct (ph w) eqn:P; try (rewrite P; exact T);
    (destruct (queue w); [rewrite P; exact T|]); rewrite disconnect_ph; exact I.
  - destruct (ph w) eqn:P; try (rewrite P; exact T).
    + destruct take_id as [[c' r]|]; [cbn [ph]; exact I|rewrite P; exact I].
    + destruct (take_id i (outstanding w)) as [[c' r]|] eqn:X; [|rewrite P; exact T].
      cbn [ph outstanding results]. intros d D. rewrite map_app, in_app_iff. cbn [map fst In].
      destruct (T d D) as [H|H]; [|auto].
      apply (Permutation_in _ (Permutation_map snd (take_id_perm _ _ _ _ X))) in H.
      cbn [map snd In] in H. destruct H; auto.
  - destruct (ph w) eqn:P; try (rewrite P; exact T). rewrite disconnect_ph; exact I.
  - destruct t; [exact T|]. destruct (ph w) eqn:P; try (rewrite P; exact T). exact T.
Qed.

Lemma wire_inv : forall t h w log, quiet w -> keyed w log -> hand_logged w log -> tracked w log ->
  keyed (run t w h) (wire t w log h) /\ hand_logged (run t w h) (wire t w log h) /\ tracked (run t w h) (wire t w log h).
Proof.
  induction h as [|ev h IH]; cbn [run wire]; intros w log Q K L T; [auto|].
  destruct (keyed_step t w log ev Q K L). apply IH; auto using quiet_step. apply tracked_step; auto.
Qed.

Lemma wire_init : forall t h, 
  keyed (run t init h) (wire t init [] h) /\ hand_logged (run t init h) (wire t init [] h) /\ tracked (run t init h) (wire t init [] h).
Proof. intros. apply wire_inv; try exact I; [exact init_quiet|intros ? ? []]. Qed.

Lemma answered_live : forall t h c v,
  calls h <= 4294967296 ->
  ph (run t init h) = Connected -> In c (wire t init [] h) ->
  In c (map fst (results (run t init (h ++ [Response (wire_id c) v])))) /\
  (~ In c (map fst (results (run t init h))) ->
   In (c, Answer v) (results (run t init (h ++ [Response (wire_id c) v])))).
Proof.
  intros t h c v B P W. destruct (wire_init t h) as (K & _ & T). unfold tracked in T. rewrite P in T.
  rewrite run_app. cbn [run].
  destruct (T c W) as [O|R].
  - assert (X : In (c, Answer v) (results (step t (run t init h) (Response (wire_id c) v)))).
    { cbn [step]. rewrite P.
      assert (LT : forall x, In x (wire t init [] h) -> x < 4294967296).
      { intros x X. assert (x < issued (run t init h)).
        { apply (wire_lt_gen t h init []); auto; [exact init_quiet|exact init_once|intros ? []]. }
        rewrite run_issued in *. lia. }
      apply in_map_iff in O. destruct O as ([i d] & E & O). cbn in E. subst d.
      destruct (K _ _ O) as [-> _].
      destruct (take_id_some (wire_id c) (outstanding (run t init h))) as (d & r & Y).
      { apply in_map_iff. exists (wire_id c, c). auto. }
      rewrite Y. cbn [results]. apply in_or_app. right. left.
      assert (D : In (wire_id c, d) (outstanding (run t init h))).
      { eapply Permutation_in; [apply Permutation_sym, (take_id_perm _ _ _ _ Y)|left; reflexivity]. }
      destruct (K _ _ D) as [E1 E2]. f_equal. symmetry. apply wire_id_inj; auto. }
    split; [|intros _; exact X]. apply in_map_iff. exists (c, Answer v). auto.
  - split; [|contradiction]. destruct (results_grow_step t (run t init h) (Response (wire_id c) v)) as [l E].
    rewrite E, map_app. apply in_or_app. auto.
Qed.
