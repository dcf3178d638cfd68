(* C55: PubSub topics of different databases are separate. *)
From Verif Require Import Base Databases DatabasesProofs PubSub.
Local Open Scope N_scope.

(* ---------- specification ---------- *)
(* What subscriber [id] of database [db] must be given, in order, for a history
   of calls: it only knows plain topics. *)
Record view := mkview { v_live : bool; v_topics : bytes -> bool; v_inbox : list (bytes * bytes) }.
Definition v0 : view := mkview false (fun _ => false) [].
Definition beq (a b : bytes) : bool := if list_eq_dec N.eq_dec a b then true else false.

Definition see (id : N) (db : bytes) (v : view) (o : PubSub.op) : view :=
  match o with
  | OCreate i d => if i =? id then mkview true (fun _ => false) [] else v
  | ODrop i => if i =? id then v0 else v
  | OSubscribe ok i t => if (i =? id) && ok t then mkview (v_live v) (fun x => beq t x || v_topics v x) (v_inbox v) else v
  | OUnsubscribe ok i t => if (i =? id) && ok t then mkview (v_live v) (fun x => negb (beq t x) && v_topics v x) (v_inbox v) else v
  | OPublish ok d t p =>
      if beq d db && ok t && v_topics v t then mkview (v_live v) (v_topics v) (v_inbox v ++ [(t, p)]) else v
  | OPublishAll ok d ts p =>
      if beq d db && forallb ok ts
      then mkview (v_live v) (v_topics v) (v_inbox v ++ map (fun t => (t, p)) (filter (v_topics v) ts)) else v
  | OReceive _ => v
  end.
Definition expected (id : N) (db : bytes) (h : list PubSub.op) : view := fold_left (see id db) h v0.

(* A history a storage can produce: database names are the accepted ones, a
   subscriber id belongs to one database and is not in use when it is handed out. *)
Fixpoint history_ok (live : list N) (dbof : N -> bytes) (h : list PubSub.op) : Prop :=
  match h with
  | [] => True
  | OCreate i d :: h' => ~ In i live /\ dbof i = d /\ validate_name d = true /\ history_ok (i :: live) dbof h'
  | ODrop i :: h' => history_ok (remove N.eq_dec i live) dbof h'
  | OSubscribe _ i _ :: h' | OUnsubscribe _ i _ :: h' | OReceive i :: h' => In i live /\ history_ok live dbof h'
  | OPublish _ d _ _ :: h' | OPublishAll _ d _ _ :: h' => validate_name d = true /\ history_ok live dbof h'
  end.

(* ---------- topics ---------- *)
Lemma database_topic_inj d1 t1 d2 t2 : ~ In 0 d1 -> ~ In 0 d2 ->
  database_topic d1 t1 = database_topic d2 t2 -> d1 = d2 /\ t1 = t2.
Proof.
  unfold database_topic. revert d2. induction d1 as [|a d1 IH]; intros [|b d2] H1 H2 E; cbn [app] in E.
  - injection E as E2. split; [reflexivity|exact E2].
  - exfalso. apply H2. left. congruence.
  - exfalso. apply H1. left. congruence.
  - injection E as E1 E2. destruct (IH d2) as [-> ->]; [intro K; apply H1; right; exact K|intro K; apply H2; right; exact K|exact E2|].
    split; congruence.
Qed.
Lemma strip_database_topic d t p : ~ In 0 d -> remove_database_prefix (database_topic d t, p) = (t, p).
Proof.
  intro H. unfold remove_database_prefix, database_topic. cbn [fst snd].
  assert (E : position_zero (d ++ 0 :: t) = Some (length d)).
  { induction d as [|a d IH]; [reflexivity|]. cbn [app position_zero length].
    destruct (N.eqb_spec a 0) as [->|N]; [exfalso; apply H; left; reflexivity|].
    rewrite IH; [reflexivity|]. intro K. apply H. right. exact K. }
  rewrite E. f_equal. rewrite Nat.add_1_r. clear. induction d as [|a d IH]; [reflexivity|exact IH].
Qed.
Lemma valid_no_nul d : validate_name d = true -> ~ In 0 d.
Proof. intros V H. destruct (all_from_chars _ _ _ V H). congruence. Qed.

Theorem C55_topics_separate : forall d1 t1 d2 t2,
  validate_name d1 = true -> validate_name d2 = true ->
  (database_topic d1 t1 = database_topic d2 t2 <-> d1 = d2 /\ t1 = t2) /\
  (forall p, remove_database_prefix (database_topic d1 t1, p) = (t1, p)).
Proof.
  intros d1 t1 d2 t2 H1 H2. split.
  - split; [apply database_topic_inj; apply valid_no_nul; assumption|intros [-> ->]; reflexivity].
  - intro p. apply strip_database_topic, valid_no_nul, H1.
Qed.
Example C55_topics_example :
  validate_name [97] = true /\ validate_name [97; 98] = true /\
  database_topic [97] [98; 0; 99] <> database_topic [97; 98] [0; 99] /\
  remove_database_prefix (database_topic [97; 98] [0; 99], [7]) = ([0; 99], [7]).
Proof. repeat split. discriminate. Qed.

(* ---------- delivery ---------- *)
Lemma beq_spec a b : beq a b = true <-> a = b.
Proof. unfold beq. destruct list_eq_dec; split; congruence. Qed.
Lemma bytes_eqb_spec a b : bytes_eqb a b = true <-> a = b.
Proof. unfold bytes_eqb. destruct (lex a b) eqn:E; split; try discriminate; try (intros ->; rewrite lex_refl in E; discriminate).
  - intros _. apply lex_eq. exact E.
  - reflexivity.
Qed.
Lemma mem_topic_spec t l : mem_topic t l = true <-> In t l.
Proof.
  unfold mem_topic. rewrite existsb_exists. split.
  - intros (x & H & E). apply bytes_eqb_spec in E. rewrite E; exact H.
  - intro H. exists t. split; [exact H|]. apply bytes_eqb_spec. reflexivity.
Qed.
Lemma eq_bool (a b : bool) : (a = true <-> b = true) -> a = b.
Proof. destruct a, b; intros [H1 H2]; auto. symmetry. auto. Qed.

(* how one subscriber is seen *)
Definition agrees (s : sub) (v : view) : Prop :=
  v_live v = true /\ ~ In 0 (s_db s) /\
  (forall t, mem_topic (database_topic (s_db s) t) (s_topics s) = v_topics v t) /\
  (forall r, In r (s_topics s) -> exists t, r = database_topic (s_db s) t) /\
  (forall m, In m (s_queue s) -> exists t p, m = (database_topic (s_db s) t, p)) /\
  s_got s ++ map remove_database_prefix (s_queue s) = v_inbox v.

Lemma agrees_publish s v d t p : agrees s v -> ~ In 0 d ->
  agrees (if mem_topic (database_topic d t) (s_topics s)
          then mksub (s_id s) (s_db s) (s_topics s) (s_queue s ++ [(database_topic d t, p)]) (s_got s) else s)
         (if beq d (s_db s) && v_topics v t then mkview (v_live v) (v_topics v) (v_inbox v ++ [(t, p)]) else v).
Proof.
  intros (L & Z & T & F & Q & G) D.
  assert (E : mem_topic (database_topic d t) (s_topics s) = beq d (s_db s) && v_topics v t).
  { rewrite <- T. apply eq_bool. rewrite andb_true_iff, beq_spec, !mem_topic_spec. split.
    - intro H. destruct (F _ H) as (t' & E). destruct (database_topic_inj _ _ _ _ D Z E) as [-> _]. split; [reflexivity|exact H].
    - intros [-> H]. exact H. }
  rewrite E. destruct (beq d (s_db s)) eqn:B; cbn [andb]; [|repeat split; assumption].
  apply beq_spec in B. subst d. destruct (v_topics v t); [|repeat split; assumption].
  unfold agrees. cbn [s_db s_topics s_queue s_got v_live v_topics v_inbox].
  split; [exact L|]. split; [exact Z|]. split; [exact T|]. split; [exact F|]. split.
  - intros m H. apply in_app_iff in H. destruct H as [H|[<-|[]]]; [apply Q, H|eauto].
  - rewrite map_app, app_assoc, G. cbn [map]. rewrite strip_database_topic by exact Z. reflexivity.
Qed.

Definition all_agree (dbof : N -> bytes) (l : list sub) (h : N -> view) : Prop :=
  forall s, In s l -> s_db s = dbof (s_id s) /\ agrees s (h (s_id s)).

Lemma relay_publish_agree dbof l h d t p : all_agree dbof l h -> ~ In 0 d ->
  all_agree dbof (relay_publish l (database_topic d t) p)
    (fun i => if beq d (dbof i) && v_topics (h i) t then mkview (v_live (h i)) (v_topics (h i)) (v_inbox (h i) ++ [(t, p)]) else h i).
Proof.
  intros A D s H. unfold relay_publish in H. apply in_map_iff in H. destruct H as (s' & E & H).
  destruct (A _ H) as [B C]. pose proof (agrees_publish s' _ d t p C D) as K.
  rewrite E in K. 
  assert (s_id s = s_id s' /\ s_db s = s_db s') as [E1 E2] by (rewrite <- E; destruct mem_topic; split; reflexivity).
  rewrite E1, <- B. split; [congruence|exact K].
Qed.

Lemma all_agree_ext dbof l h h' : (forall s, In s l -> h (s_id s) = h' (s_id s)) -> all_agree dbof l h -> all_agree dbof l h'.
Proof. intros E A s H. rewrite <- (E s H). apply A, H. Qed.

Lemma relay_ids l t p : map s_id (relay_publish l t p) = map s_id l.
Proof. unfold relay_publish. rewrite map_map. apply map_ext. intro s. destruct mem_topic; reflexivity. Qed.

Lemma relay_publish_all_agree dbof ts d p : ~ In 0 d -> forall l h, all_agree dbof l h ->
  all_agree dbof (relay_publish_all l (map (database_topic d) ts) p)
    (fun i => if beq d (dbof i) then mkview (v_live (h i)) (v_topics (h i)) (v_inbox (h i) ++ map (fun t => (t, p)) (filter (v_topics (h i)) ts)) else h i).
Proof.
  intro D. induction ts as [|t ts IH]; intros l h A; cbn [map relay_publish_all fold_left].
  - eapply all_agree_ext; [|exact A]. intros s _. cbv beta. destruct (beq d _); [|reflexivity]. cbn [filter map].
    rewrite app_nil_r. destruct (h (s_id s)); reflexivity.
  - change (fold_left _ ?x ?y) with (relay_publish_all y x p).
    specialize (IH _ _ (relay_publish_agree dbof l h d t p A D)). 
    eapply all_agree_ext; [|exact IH]. intros s _. cbv beta. destruct (beq d (dbof (s_id s))); [|reflexivity].
    cbn [andb filter]. destruct (v_topics (h (s_id s)) t); [|reflexivity].
    cbn [v_live v_topics v_inbox map]. rewrite <- app_assoc. reflexivity.
Qed.
Lemma relay_all_ids ts p : forall l, map s_id (relay_publish_all l ts p) = map s_id l.
Proof.
  induction ts as [|t ts IH]; intro l; [reflexivity|]. cbn [relay_publish_all fold_left].
  change (fold_left _ ts ?y) with (relay_publish_all y ts p). rewrite IH. apply relay_ids.
Qed.
Lemma on_sub_ids id f l : (forall s, s_id (f s) = s_id s) -> map s_id (on_sub id f l) = map s_id l.
Proof. intro H. unfold on_sub. rewrite map_map. apply map_ext. intro s. destruct (s_id s =? id); [apply H|reflexivity]. Qed.

Lemma step_agree dbof live l h o : all_agree dbof l h -> (forall i, In i (map s_id l) <-> In i live) ->
  history_ok live dbof [o] ->
  let l' := PubSub.step l o in
  all_agree dbof l' (fun i => see i (dbof i) (h i) o).
Proof.
  intros A L H l'. subst l'. destruct o as [i d|i|ok i t|ok i t|ok d t p|ok d ts p|i]; cbn [PubSub.step see history_ok] in *.
  - destruct H as (H1 & H2 & H3 & _). intros s K. apply in_app_iff in K. destruct K as [K|[<-|[]]].
    + destruct (N.eqb_spec i (s_id s)) as [->|]; [|apply A, K]. exfalso. apply H1, L, in_map, K.
    + cbn [s_id s_db]. rewrite N.eqb_refl. split; [congruence|]. unfold agrees. cbn [s_db s_topics s_queue s_got v_live v_topics v_inbox].
      repeat split; try contradiction. apply valid_no_nul, H3.
  - intros s K. apply filter_In in K. destruct K as [K1 K2]. rewrite N.eqb_sym. apply negb_true_iff in K2. rewrite K2. apply A, K1.
  - destruct (ok t); [|intros s K; rewrite andb_false_r; apply A, K]. 
    intros s K. unfold on_sub in K. apply in_map_iff in K. destruct K as (s' & E & K). destruct (A _ K) as [B C].
    destruct (s_id s' =? i) eqn:I.
    + subst s. cbn [s_id s_db]. rewrite N.eqb_sym, I. cbn [andb]. split; [exact B|].
      destruct C as (C1 & C2 & C3 & C4 & C5 & C6). unfold agrees. cbn [s_db s_topics s_queue s_got v_live v_topics v_inbox].
      split; [exact C1|]. split; [exact C2|]. split.
      * intro x. apply eq_bool. rewrite orb_true_iff, beq_spec, <- C3, !mem_topic_spec.
        destruct (mem_topic (database_topic (s_db s') t) (s_topics s')) eqn:M.
        -- apply mem_topic_spec in M. split; [tauto|]. intros [<-|F]; assumption.
        -- rewrite in_app_iff. cbn [In]. split.
           ++ intros [F|[F|[]]]; [tauto|]. left. apply (database_topic_inj _ _ _ _ C2 C2) in F. tauto.
           ++ intros [->|F]; tauto.
      * split; [|split; assumption]. intros r F. destruct (mem_topic _ _); [apply C4, F|].
        apply in_app_iff in F. destruct F as [F|[<-|[]]]; [apply C4, F|eauto].
    + subst s. rewrite N.eqb_sym, I. cbn [andb]. split; [exact B|exact C].
  - destruct (ok t); [|intros s K; rewrite andb_false_r; apply A, K]. 
    intros s K. unfold on_sub in K. apply in_map_iff in K. destruct K as (s' & E & K). destruct (A _ K) as [B C].
    destruct (s_id s' =? i) eqn:I.
    + subst s. cbn [s_id s_db]. rewrite N.eqb_sym, I. cbn [andb]. split; [exact B|].
      destruct C as (C1 & C2 & C3 & C4 & C5 & C6). unfold agrees. cbn [s_db s_topics s_queue s_got v_live v_topics v_inbox].
      split; [exact C1|]. split; [exact C2|]. split.
      * intro x. apply eq_bool. rewrite andb_true_iff, <- C3, !mem_topic_spec, filter_In, !negb_true_iff. split.
        -- intros [F1 F2]. split; [|exact F1]. destruct (beq t x) eqn:BB; [|reflexivity]. apply beq_spec in BB. subst x.
           rewrite (proj2 (bytes_eqb_spec _ _) eq_refl) in F2. discriminate.
        -- intros [F1 F2]. split; [exact F2|]. destruct (bytes_eqb _ _) eqn:BB; [|reflexivity]. apply bytes_eqb_spec in BB.
           apply (database_topic_inj _ _ _ _ C2 C2) in BB. destruct BB as [_ ->]. rewrite (proj2 (beq_spec x x) eq_refl) in F1. discriminate.
      * split; [|split; assumption]. intros r F. apply filter_In in F. apply C4, F.
    + subst s. rewrite N.eqb_sym, I. cbn [andb]. split; [exact B|exact C].
  - destruct H as [V _]. destruct (ok t).
    + eapply all_agree_ext; [|apply relay_publish_agree; [exact A|apply valid_no_nul, V]].
      intros s _. cbv beta. rewrite andb_true_r. reflexivity.
    + intros s K. rewrite andb_false_r. apply A, K.
  - destruct H as [V _]. destruct (forallb ok ts).
    + eapply all_agree_ext; [|apply relay_publish_all_agree; [apply valid_no_nul, V|exact A]].
      intros s _. cbv beta. rewrite andb_true_r. reflexivity.
    + intros s K. rewrite andb_false_r. apply A, K.
  - intros s K. unfold on_sub in K. apply in_map_iff in K. destruct K as (s' & E & K). destruct (A _ K) as [B C].
    destruct (s_id s' =? i) eqn:I; [|subst s; split; assumption].
    destruct C as (C1 & C2 & C3 & C4 & C5 & C6). destruct (s_queue s') as [|m q] eqn:Q.
    + subst s. split; [exact B|]. repeat split; try assumption; rewrite ?Q; assumption.
    + subst s. cbn [s_id s_db]. split; [exact B|]. unfold agrees. cbn [s_db s_topics s_queue s_got].
      repeat split; try assumption.
      * intros m' F. apply C5. right. exact F.
      * rewrite <- C6. cbn [map]. rewrite <- app_assoc. reflexivity.
Qed.

Lemma step_ids live dbof l o : NoDup (map s_id l) -> (forall i, In i (map s_id l) <-> In i live) -> history_ok live dbof [o] ->
  NoDup (map s_id (PubSub.step l o)) /\
  (forall i, In i (map s_id (PubSub.step l o)) <-> In i (match o with OCreate i _ => i :: live | ODrop i => remove N.eq_dec i live | _ => live end)).
Proof.
  intros N L H. destruct o as [i d|i|ok i t|ok i t|ok d t p|ok d ts p|i]; cbn [PubSub.step history_ok] in *.
  - destruct H as (H1 & _). rewrite map_app. cbn [map s_id]. split.
    + apply NoDup_snoc; [exact N|]. intro K. apply H1, L, K.
    + intro j. rewrite in_app_iff, L. cbn [In]. tauto.
  - split.
    + clear - N. induction l as [|s l IH]; [constructor|]. cbn [map filter] in *. inversion N as [|? ? N1 N2]; subst.
      destruct (negb _); [|apply IH, N2]. cbn [map]. constructor; [|apply IH, N2]. intro K. apply N1.
      apply in_map_iff in K. destruct K as (x & E & K). apply filter_In in K. rewrite <- E. apply in_map, K.
    + intro j. rewrite in_map_iff. split.
      * intros (s & E & K). apply filter_In in K. destruct K as [K1 K2]. apply negb_true_iff, N.eqb_neq in K2.
        apply in_in_remove; [congruence|]. apply L. rewrite <- E. apply in_map, K1.
      * intro K. apply in_remove in K. destruct K as [K1 K2]. apply L, in_map_iff in K1. destruct K1 as (s & E & K1).
        exists s. split; [exact E|]. apply filter_In. split; [exact K1|]. apply negb_true_iff, N.eqb_neq. congruence.
  - destruct (ok t); [|split; assumption]. rewrite on_sub_ids by reflexivity. split; assumption.
  - destruct (ok t); [|split; assumption]. rewrite on_sub_ids by reflexivity. split; assumption.
  - destruct (ok t); [|split; assumption]. rewrite relay_ids. split; assumption.
  - destruct (forallb ok ts); [|split; assumption]. rewrite relay_all_ids. split; assumption.
  - rewrite on_sub_ids; [split; assumption|]. intro s. destruct (s_queue s); reflexivity.
Qed.

Lemma run_agree dbof : forall hist live l h, all_agree dbof l h -> NoDup (map s_id l) -> (forall i, In i (map s_id l) <-> In i live) ->
  (forall i, In i live <-> v_live (h i) = true) ->
  history_ok live dbof hist ->
  all_agree dbof (PubSub.run l hist) (fun i => fold_left (see i (dbof i)) hist (h i)) /\
  NoDup (map s_id (PubSub.run l hist)) /\
  forall i, In i (map s_id (PubSub.run l hist)) <-> v_live (fold_left (see i (dbof i)) hist (h i)) = true.
Proof.
  induction hist as [|o hist IH]; intros live l h A N L V H.
  - cbn [PubSub.run fold_left]. split; [exact A|]. split; [exact N|]. intro i. rewrite L. apply V.
  - assert (H1 : history_ok live dbof [o]) by (destruct o; cbn [history_ok] in *; tauto).
    assert (H2 : history_ok (match o with OCreate i _ => i :: live | ODrop i => remove N.eq_dec i live | _ => live end) dbof hist)
      by (destruct o; cbn [history_ok] in *; tauto).
    pose proof (step_agree dbof live l h o A L H1) as A'.
    destruct (step_ids live dbof l o N L H1) as [N' L'].
    cbn [PubSub.run fold_left]. change (fold_left PubSub.step hist ?x) with (PubSub.run x hist).
    apply (IH _ _ _ A' N' L'); [|exact H2].
    intro j. clear - V H1. destruct o as [i d|i|ok i t|ok i t|ok d t p|ok d ts p|i]; cbn [see history_ok] in *.
    + cbn [In]. destruct (N.eqb_spec i j) as [->|E]; [cbn [v_live]; tauto|]. rewrite V. tauto.
    + destruct (N.eqb_spec i j) as [->|E].
      * cbn [v0 v_live]. split; [|discriminate]. intro K. apply in_remove in K. tauto.
      * rewrite <- V. split; [intro K; apply in_remove in K; tauto|]. intro K. apply in_in_remove; [congruence|exact K].
    + destruct ((i =? j) && ok t); cbn [v_live]; apply V.
    + destruct ((i =? j) && ok t); cbn [v_live]; apply V.
    + destruct (_ && _); cbn [v_live]; apply V.
    + destruct (_ && _); cbn [v_live]; apply V.
    + apply V.
Qed.

(* After any history of creating, dropping, subscribing, unsubscribing,
   publishing and receiving in any number of databases: what a subscriber has
   received followed by what it will receive next is exactly the messages
   published, with permission, in its own database to topics it was subscribed
   to at that moment, in publication order and with their plain topic; and the
   subscribers in existence are exactly those created and not dropped. *)
Theorem C55_delivery : forall dbof hist, history_ok [] dbof hist ->
  let l := PubSub.run [] hist in
  NoDup (map s_id l) /\
  (forall i, In i (map s_id l) <-> v_live (expected i (dbof i) hist) = true) /\
  (forall s, In s l ->
    s_db s = dbof (s_id s) /\
    s_got s ++ map remove_database_prefix (s_queue s) = v_inbox (expected (s_id s) (s_db s) hist)).
Proof.
  intros dbof hist H l.
  assert (A0 : all_agree dbof [] (fun _ => v0)) by (intros s []).
  destruct (run_agree dbof hist [] [] (fun _ => v0) A0 (NoDup_nil _)) as (A & N & L).
  - reflexivity.
  - intro i. cbn. split; [contradiction|discriminate].
  - exact H.
  - split; [exact N|]. split; [exact L|]. intros s K. destruct (A s K) as [B (_ & _ & _ & _ & _ & G)].
    split; [exact B|]. unfold expected. rewrite B. exact G.
Qed.

(* Receiving takes the oldest undelivered message. *)
Theorem C55_receive_order : forall l i s, NoDup (map s_id l) -> In s l -> s_id s = i ->
  exists s', In s' (PubSub.step l (OReceive i)) /\ s_id s' = i /\
  match s_queue s with
  | [] => s' = s
  | m :: q => s_got s' = s_got s ++ [remove_database_prefix m] /\ s_queue s' = q
  end.
Proof.
  intros l i s N H E. cbn [PubSub.step]. unfold on_sub.
  eexists. split; [apply in_map_iff; exists s; split; [reflexivity|exact H]|].
  rewrite (proj2 (N.eqb_eq _ _) E). destruct (s_queue s); auto.
Qed.

Definition ok_all : allow := fun _ => true.
Definition ex_hist : list PubSub.op :=
  [OCreate 1 [97]; OCreate 2 [98]; OSubscribe ok_all 1 [5]; OSubscribe ok_all 2 [5]; OSubscribe ok_all 1 [6];
   OPublish ok_all [97] [5] [100]; OPublish ok_all [98] [5] [101]; OReceive 1; OUnsubscribe ok_all 1 [5];
   OPublishAll ok_all [97] [[5]; [6]; [7]] [102]; OPublishAll (beq [6]) [97] [[6]; [7]] [103]].
Definition ex_dbof (i : N) : bytes := if i =? 1 then [97] else [98].
Example C55_delivery_example :
  history_ok [] ex_dbof ex_hist /\
  map (fun s => (s_id s, s_got s ++ map remove_database_prefix (s_queue s))) (PubSub.run [] ex_hist) =
    [(1, [([5], [100]); ([6], [102])]); (2, [([5], [101])])] /\
  v_inbox (expected 1 [97] ex_hist) = [([5], [100]); ([6], [102])].
Proof. split; [cbn; intuition discriminate|]. split; reflexivity. Qed.

Print Assumptions C55_topics_separate.
Print Assumptions C55_delivery.
Print Assumptions C55_receive_order.
