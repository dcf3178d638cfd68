(* Proofs about RemotePubSub.v. *)
From Coq Require Import List Arith Bool Lia.
From Verif Require Import RemotePubSub RemotePubSubSpec.
Import ListNotations.

Lemma mem_In t l : mem t l = true <-> In t l.
Proof.
  unfold mem. rewrite existsb_exists. split.
  - intros (x & Hx & E). apply Nat.eqb_eq in E. now subst.
  - intros H. exists t. now rewrite Nat.eqb_refl.
Qed.
Lemma In_del t x l : In t (del x l) <-> In t l /\ t <> x.
Proof.
  unfold del. rewrite filter_In, negb_true_iff, Nat.eqb_neq. tauto.
Qed.
Lemma nth_setn {A} n (v : A) l k :
  nth_error (setn n v l) k
  = if k =? n then match nth_error l k with Some _ => Some v | None => None end
    else nth_error l k.
Proof.
  revert n k; induction l as [|x l IH]; intros n k.
  - destruct n, k; cbn; try reflexivity; now destruct (_ =? _).
  - destruct n, k; cbn; try reflexivity. apply IH.
Qed.
Lemma setn_length {A} n (v : A) l : length (setn n v l) = length l.
Proof. revert n; induction l; intros [|n]; cbn; auto. Qed.

Lemma due_snoc h i evs e : due_of h i (evs ++ [e]) = due_step h i (due_of h i evs) e.
Proof. unfold due_of. now rewrite fold_left_app. Qed.
Lemma online_snoc i evs e : online i (evs ++ [e]) = online_step i (online i evs) e.
Proof. unfold online. now rewrite fold_left_app. Qed.
Lemma run_snoc q evs e : run q (evs ++ [e]) = step q (run q evs) e.
Proof. unfold run, run_from. now rewrite fold_left_app. Qed.
Lemma valid_from_app q a : forall st b,
  valid_from q st (a ++ b) = valid_from q st a && valid_from q (run_from q st a) b.
Proof.
  induction a as [|e a IH]; intros st b; [reflexivity|].
  cbn. rewrite IH. now rewrite andb_assoc.
Qed.
Lemma valid_snoc q evs e : valid q (evs ++ [e]) = valid q evs && allowed (run q evs) e.
Proof. unfold valid. rewrite valid_from_app. cbn. now rewrite andb_true_r. Qed.

Definition sopen (s : option ssub) : bool :=
  match s with Some s => s_open s | None => false end.

(* What is true of a handle h with id i (record r), given what it is due. *)
Record HI (d : due) (st : state) (h i : nat) (r : hrec) : Prop := {
  hi_open : d_open d = sopen (srv st i);
  hi_topics : forall s, srv st i = Some s -> s_open s = true ->
              forall t, mem t (s_topics s) = existsb (Nat.eqb t) (d_topics d);
  hi_map : h_alive r = true ->
           cmap st i = Some h \/ (srv st i = None /\ on_wire i (wire st) = []);
  hi_msgs : h_alive r = true ->
            exists lost, d_msgs d = h_got r ++ in_flight i st ++ lost
                         /\ (srv st i <> None -> lost = []);
  hi_prefix : exists rest, d_msgs d = h_got r ++ rest
}.

Record Inv (evs : list event) (st : state) : Prop := {
  iv_pend : forall i, In i (pend st) -> In i (used st);
  iv_ids : forall h r, nth_error (hs st) h = Some r ->
           In (h_id r) (used st) /\ ~ In (h_id r) (pend st);
  iv_distinct : forall h k r r', nth_error (hs st) h = Some r -> nth_error (hs st) k = Some r' ->
                h_id r = h_id r' -> h = k;
  iv_cmap : forall i h, cmap st i = Some h -> id_of h st = Some i;
  iv_fresh : forall i, ~ In i (used st) ->
             srv st i = None /\ on_wire i (wire st) = []
             /\ forall h, due_of h i evs = mkDue false [] [];
  iv_new : forall i, In i (pend st) ->
           on_wire i (wire st) = []
           /\ (forall s, srv st i = Some s -> s_topics s = [] /\ s_queue s = [])
           /\ forall h, length (hs st) <= h ->
              due_of h i evs = mkDue (sopen (srv st i)) [] [];
  iv_handle : forall h r, nth_error (hs st) h = Some r -> HI (due_of h (h_id r) evs) st h (h_id r) r;
  iv_online : forall i, online i evs = true -> srv st i <> None
}.

Lemma inv_start : Inv [] start.
Proof.
  constructor; cbn; try (intros; contradiction); try discriminate; auto.
  - intros [|h]; discriminate.
  - intros [|h]; discriminate.
  - intros [|h]; discriminate.
Qed.

Lemma on_wire_app i a b : on_wire i (a ++ b) = on_wire i a ++ on_wire i b.
Proof. unfold on_wire. now rewrite filter_app, map_app. Qed.
Lemma on_wire_firstn i n w : exists l, on_wire i w = on_wire i (firstn n w) ++ l.
Proof.
  exists (on_wire i (skipn n w)). now rewrite <- on_wire_app, firstn_skipn.
Qed.
Lemma upd_eq {A} (f : nat -> option A) i v : upd f i v i = v.
Proof. unfold upd. now rewrite Nat.eqb_refl. Qed.
Lemma upd_ne {A} (f : nat -> option A) i j v : j <> i -> upd f i v j = f j.
Proof. intros H. unfold upd. now rewrite (proj2 (Nat.eqb_neq _ _) H). Qed.

Lemma nth_lt {A} (l : list A) n x : nth_error l n = Some x -> n < length l.
Proof. intros H. apply nth_error_Some. congruence. Qed.

Lemma existsb_del t x l :
  existsb (Nat.eqb t) (filter (fun y => negb (y =? x)) l)
  = existsb (Nat.eqb t) l && negb (t =? x).
Proof.
  induction l as [|y l IH]; [reflexivity|]. cbn.
  destruct (y =? x) eqn:E; cbn; rewrite IH; destruct (t =? y) eqn:F; cbn; try reflexivity.
  - apply Nat.eqb_eq in F. subst. rewrite E. cbn. now rewrite andb_false_r.
  - apply Nat.eqb_eq in F. subst. now rewrite E.
Qed.
Lemma mem_add t x l : mem t (add x l) = (t =? x) || mem t l.
Proof.
  unfold add. destruct (mem x l) eqn:E; [|reflexivity].
  destruct (t =? x) eqn:F; [|reflexivity]. apply Nat.eqb_eq in F. subst. now rewrite E.
Qed.

(* A change of one server subscriber (subscribe, unsubscribe, unregister, close) that keeps
   the queue. *)
Section OnSub.
  Context (f : ssub -> ssub) (i : nat) (st : state).
  Hypothesis Fq : forall s, s_queue (f s) = s_queue s.
  Lemma on_sub_queue j : queued j (on_sub f i st) = queued j st.
  Proof.
    unfold on_sub, queued. destruct (srv st i) as [s|] eqn:E; [|reflexivity].
    destruct (s_open s); [|reflexivity]. cbn. unfold upd. destruct (j =? i) eqn:F; [|reflexivity].
    apply Nat.eqb_eq in F. subst. now rewrite E, Fq.
  Qed.
  Lemma on_sub_none j : srv (on_sub f i st) j = None <-> srv st j = None.
  Proof.
    unfold on_sub. destruct (srv st i) as [s|] eqn:E; [|reflexivity].
    destruct (s_open s); [|reflexivity]. cbn. unfold upd. destruct (j =? i) eqn:F; [|reflexivity].
    apply Nat.eqb_eq in F. subst. rewrite E. split; discriminate.
  Qed.
  Lemma on_sub_srv j : srv (on_sub f i st) j
    = if (j =? i) && sopen (srv st i) then option_map f (srv st i) else srv st j.
  Proof.
    unfold on_sub. destruct (srv st i) as [s|] eqn:E; [|cbn; now rewrite andb_false_r].
    cbn. destruct (s_open s) eqn:O; [|now rewrite andb_false_r].
    cbn. unfold upd. now rewrite andb_true_r.
  Qed.
  Lemma on_sub_rest : wire (on_sub f i st) = wire st /\ used (on_sub f i st) = used st
    /\ pend (on_sub f i st) = pend st /\ cmap (on_sub f i st) = cmap st /\ hs (on_sub f i st) = hs st.
  Proof.
    unfold on_sub. destruct (srv st i) as [s|]; [|tauto]. destruct (s_open s); cbn; tauto.
  Qed.
End OnSub.

Lemma due_event_other h i d e :
  match e with
  | Create _ | Subscribe _ _ | Unsubscribe _ _ | Publish _ _ | Unregister _ | Close _
  | Disconnect _ | Reconnect | Restart => False
  | _ => True
  end -> due_step h i d e = d.
Proof. destruct e; cbn; tauto. Qed.

(* an event that leaves the server, the wire, the specification and the bookkeeping alone *)
Lemma inv_frame evs e st st' :
  Inv evs st -> wire st' = wire st ->
  (forall j, queued j st' = queued j st) ->
  (forall j, srv st' j = None <-> srv st j = None) ->
  used st' = used st -> pend st' = pend st -> cmap st' = cmap st -> hs st' = hs st ->
  (forall i, online_step i (online i evs) e = online i evs) ->
  (forall h i, d_msgs (due_step h i (due_of h i evs) e) = d_msgs (due_of h i evs)) ->
  (forall i h, ~ In i (used st) -> due_step h i (due_of h i evs) e = due_of h i evs) ->
  (forall i, In i (pend st) ->
     (forall s, srv st' i = Some s -> s_topics s = [])
     /\ forall h, length (hs st) <= h ->
        d_topics (due_step h i (due_of h i evs) e) = []
        /\ d_open (due_step h i (due_of h i evs) e) = sopen (srv st' i)) ->
  (forall h r, nth_error (hs st) h = Some r ->
     d_open (due_step h (h_id r) (due_of h (h_id r) evs) e) = sopen (srv st' (h_id r))
     /\ forall s, srv st' (h_id r) = Some s -> s_open s = true ->
        forall t, mem t (s_topics s)
                  = existsb (Nat.eqb t) (d_topics (due_step h (h_id r) (due_of h (h_id r) evs) e))) ->
  Inv (evs ++ [e]) st'.
Proof.
  intros I W Q N0 U P C H On Dm Df Dp Dh.
  constructor.
  - intros i. rewrite P, U. apply I.
  - intros h r. rewrite H, U, P. apply I.
  - intros h k r r'. rewrite H. apply I.
  - intros i h. unfold id_of. rewrite C, H. apply I.
  - intros i. rewrite U, W. intros Hi. destruct (iv_fresh _ _ I i Hi) as (A & B & D).
    split; [now apply N0|]. split; [exact B|]. intros h. rewrite due_snoc, (Df i h Hi). apply D.
  - intros i. rewrite P, W, H. intros Hi. destruct (iv_new _ _ I i Hi) as (A & B & D).
    destruct (Dp i Hi) as (T & E). split; [exact A|]. split.
    + intros s Hs. split; [now apply T|]. specialize (Q i). unfold queued in Q. rewrite Hs in Q.
      rewrite Q. destruct (srv st i) as [s0|] eqn:E0; [|reflexivity]. now apply B.
    + intros h Hh. rewrite due_snoc. destruct (E h Hh) as (E1 & E2).
      specialize (Dm h i). rewrite (D h Hh) in Dm. cbn in Dm. rewrite (D h Hh) in E1, E2.
      rewrite (D h Hh).
      destruct (due_step _ _ _ _) as [a b c]. cbn in *. now subst.
  - intros h r. rewrite H. intros Hr. destruct (iv_handle _ _ I h r Hr) as [A B Cm D E].
    destruct (Dh h r Hr) as (X & Y). rewrite due_snoc. constructor.
    + exact X.
    + exact Y.
    + intros L. rewrite C, W. destruct (Cm L) as [Z|[Z Z']]; [now left|right]. split; [now apply N0|exact Z'].
    + intros L. destruct (D L) as (lost & Z & Z'). exists lost. rewrite Dm. unfold in_flight. rewrite W, Q.
      split; [exact Z|]. intros V. apply Z'. intros V'. apply V. now apply N0.
    + destruct E as (rest & Z). exists rest. now rewrite Dm.
  - intros i. rewrite online_snoc, On. intros O V. apply (iv_online _ _ I i O). now apply N0.
Qed.

Ltac eqbs := repeat match goal with
  | H : (_ =? _) = true |- _ => apply Nat.eqb_eq in H
  | H : (_ =? _) = false |- _ => apply Nat.eqb_neq in H end.

Lemma id_of_some h st i : id_of h st = Some i -> exists r, nth_error (hs st) h = Some r /\ h_id r = i.
Proof. unfold id_of. destruct (nth_error _ _) as [r|] eqn:E; [|discriminate]. intros [= <-]. eauto. Qed.

Lemma inv_by_handle evs e st h0 f :
  Inv evs st ->
  (forall s, s_queue (f s) = s_queue s) ->
  (forall h i d, d_msgs (due_step h i d e) = d_msgs d) ->
  (forall i b, online_step i b e = b) ->
  (forall h i d, h <> h0 -> due_step h i d e = d) ->
  (forall i d, d_open d = false -> d_open (due_step h0 i d e) = false
      /\ d_topics (due_step h0 i d e) = d_topics d) ->
  (forall i d s, d_open d = true -> s_open s = true ->
      (forall t, mem t (s_topics s) = existsb (Nat.eqb t) (d_topics d)) ->
      d_open (due_step h0 i d e) = s_open (f s)
      /\ (s_open (f s) = true -> forall t, mem t (s_topics (f s)) = existsb (Nat.eqb t) (d_topics (due_step h0 i d e)))) ->
  h0 < length (hs st) ->
  Inv (evs ++ [e]) (by_handle f h0 st).
Proof.
  intros I Fq Dm On Dn Dc Do L. unfold by_handle.
  destruct (id_of h0 st) as [i0|] eqn:E0.
  2:{ unfold id_of in E0. destruct (nth_error (hs st) h0) eqn:E; [discriminate|].
      apply nth_error_None in E. lia. }
  destruct (id_of_some _ _ _ E0) as (r0 & Hr0 & Hi0).
  destruct (on_sub_rest f i0 st) as (R1 & R2 & R3 & R4 & R5).
  assert (Dclosed : forall i d, d_open d = false -> due_step h0 i d e = d).
  { intros i d O. destruct (Dc i d O) as (A & B). pose proof (Dm h0 i d).
    destruct d as [a b c], (due_step h0 i _ e) as [a' b' c']. cbn in *. now subst. }
  apply inv_frame with (st := st); auto.
  - intros j. now apply on_sub_queue.
  - intros j. apply on_sub_none.
  - intros i h Hi. destruct (Nat.eq_dec h h0) as [->|D]; [|now apply Dn].
    apply Dclosed. destruct (iv_fresh _ _ I i Hi) as (_ & _ & F). now rewrite F.
  - intros i Hi. destruct (iv_new _ _ I i Hi) as (A & B & C).
    assert (i <> i0). { intros ->. destruct (iv_ids _ _ I _ _ Hr0) as (_ & X). apply X. now rewrite Hi0. }
    rewrite on_sub_srv. rewrite (proj2 (Nat.eqb_neq _ _) H). cbn. split.
    + intros s Hs. now apply B.
    + intros h Hh. rewrite Dn by lia. rewrite (C h Hh). cbn. now split.
  - intros h r Hr. destruct (iv_handle _ _ I h r Hr) as [A B _ _ _]. rewrite on_sub_srv.
    destruct (Nat.eq_dec h h0) as [->|D].
    + rewrite Hr0 in Hr. injection Hr as <-. rewrite Hi0 in *. rewrite Nat.eqb_refl. cbn.
      destruct (srv st i0) as [s|] eqn:Es; cbn in *.
      * destruct (s_open s) eqn:Os; cbn.
        -- destruct (Do i0 (due_of h0 i0 evs) s A Os (B s eq_refl Os)) as (X & Y).
           split; [exact X|]. intros s' [= <-]. exact Y.
        -- destruct (Dc i0 _ A) as (X & Y). rewrite X. split; [symmetry; exact Os|].
           intros s' [= <-] O'. congruence.
      * destruct (Dc i0 _ A) as (X & Y). rewrite X. split; [reflexivity|discriminate].
    + rewrite Dn by exact D.
      assert (h_id r <> i0). { intros X. apply D. eapply (iv_distinct _ _ I); eauto. congruence. }
      rewrite (proj2 (Nat.eqb_neq _ _) H). cbn. split; [exact A|]. intros s Hs Os. now apply B.
Qed.

Lemma inv_step q evs e :
  Inv evs (run q evs) -> allowed (run q evs) e = true -> e <> Restart ->
  Inv (evs ++ [e]) (step q (run q evs) e).
Proof.
  intros I Al NR. remember (run q evs) as st eqn:Est. clear Est.
  destruct e as [i|h i|h t|h t|t p|i| |h|h|h|i|n| |]; cbn [step].
  - (* Create *)
    cbn in Al. apply negb_true_iff in Al.
    assert (Hi : ~ In i (used st)). { intros H. apply mem_In in H. congruence. }
    destruct (iv_fresh _ _ I i Hi) as (F1 & F2 & F3).
    constructor; cbn.
    + intros j [->|H]; [now left|]. right. now apply I.
    + intros h r Hr. destruct (iv_ids _ _ I _ _ Hr) as (A & B). split; [now right|].
      intros [X|X]; [|now apply B]. apply Hi. now rewrite X.
    + apply I.
    + apply I.
    + intros j Hj. assert (j <> i) by (intros ->; apply Hj; now left).
      rewrite upd_ne by assumption. destruct (iv_fresh _ _ I j) as (A & B & C); [tauto|].
      split; [exact A|]. split; [exact B|]. intros h. rewrite due_snoc, C. cbn.
      destruct (i =? j) eqn:E; [eqbs; congruence|reflexivity].
    + intros j [<-|Hj].
      * split; [exact F2|]. rewrite upd_eq. split; [intros s [= <-]; now split|].
        intros h _. rewrite due_snoc. cbn. now rewrite Nat.eqb_refl.
      * assert (j <> i) by (intros ->; apply Hi; now apply I).
        destruct (iv_new _ _ I j Hj) as (A & B & C). rewrite upd_ne by assumption.
        split; [exact A|]. split; [exact B|]. intros h Hh. rewrite due_snoc. cbn.
        destruct (i =? j) eqn:E; [eqbs; congruence|]. now apply C.
    + intros h r Hr. destruct (iv_ids _ _ I _ _ Hr) as (U & _).
      assert (h_id r <> i) by (intros X; apply Hi; now rewrite <- X).
      destruct (iv_handle _ _ I h r Hr) as [A B C D E]. rewrite due_snoc. cbn.
      destruct (i =? h_id r) eqn:X; [eqbs; congruence|].
      constructor; cbn [srv wire cmap]; rewrite ?upd_ne by assumption; auto.
      intros L. destruct (D L) as (lost & Y & Z). exists lost. unfold in_flight, queued in *. cbn [srv wire].
      rewrite upd_ne by assumption. now split.
    + intros j. rewrite online_snoc. cbn. destruct (i =? j) eqn:X.
      * eqbs. subst. now rewrite upd_eq.
      * eqbs. rewrite upd_ne by auto. apply I.
  - (* Register *)
    cbn in Al. apply andb_true_iff in Al. destruct Al as (Hp & Hh). apply mem_In in Hp. eqbs. subst h.
    destruct (iv_new _ _ I i Hp) as (N1 & N2 & N3).
    set (n := length (hs st)) in *.
    assert (nth_old : forall k r, nth_error (hs st ++ [mkH i true []]) k = Some r ->
              nth_error (hs st) k = Some r \/ (k = n /\ r = mkH i true [])).
    { intros k r Hk. destruct (Nat.lt_ge_cases k n) as [X|X].
      - rewrite nth_error_app1 in Hk by exact X. now left.
      - rewrite nth_error_app2 in Hk by exact X. destruct (k - n) as [|z] eqn:Y; fold n in Hk; rewrite Y in Hk; cbn in Hk.
        + injection Hk as <-. right. split; [lia|reflexivity].
        + destruct z; discriminate. }
    constructor; cbn.
    + intros j Hj. apply In_del in Hj. now apply I.
    + intros h r Hr. destruct (nth_old _ _ Hr) as [Hr'|(-> & ->)].
      * destruct (iv_ids _ _ I _ _ Hr') as (A & B). split; [exact A|]. intros X. apply In_del in X. tauto.
      * cbn. split; [now apply I|]. intros X. apply In_del in X. tauto.
    + intros h k r r' Hr Hk E. destruct (nth_old _ _ Hr) as [A|(-> & ->)], (nth_old _ _ Hk) as [B|(-> & ->)]; cbn in *.
      * eapply (iv_distinct _ _ I); eauto.
      * exfalso. destruct (iv_ids _ _ I _ _ A) as (_ & X). apply X. now rewrite E.
      * exfalso. destruct (iv_ids _ _ I _ _ B) as (_ & X). apply X. now rewrite <- E.
      * reflexivity.
    + intros j h. unfold upd. destruct (j =? i) eqn:X.
      * intros [= <-]. eqbs. subst. unfold id_of. cbn. rewrite nth_error_app2 by lia. now rewrite Nat.sub_diag.
      * intros Hc. apply (iv_cmap _ _ I) in Hc. apply id_of_some in Hc. destruct Hc as (r & Hr & <-).
        unfold id_of. cbn. rewrite nth_error_app1 by (eapply nth_lt; eauto). now rewrite Hr.
    + intros j Hj. destruct (iv_fresh _ _ I j Hj) as (A & B & C). split; [exact A|]. split; [exact B|].
      intros h. rewrite due_snoc. cbn. apply C.
    + intros j Hj. apply In_del in Hj. destruct Hj as (Hj & Ne). destruct (iv_new _ _ I j Hj) as (A & B & C).
      split; [exact A|]. split; [exact B|]. intros h. rewrite app_length. cbn. intros Hh. rewrite due_snoc. cbn.
      apply C. lia.
    + intros h r Hr. rewrite due_snoc. cbn. destruct (nth_old _ _ Hr) as [Hr'|(-> & ->)].
      * assert (h_id r <> i). { intros X. destruct (iv_ids _ _ I _ _ Hr') as (_ & Y). apply Y. now rewrite X. }
        destruct (iv_handle _ _ I h r Hr') as [A B C D E]. constructor; cbn; auto.
        rewrite upd_ne by assumption. exact C.
      * cbn [h_id]. rewrite (N3 n) by lia. constructor; cbn [d_open d_topics d_msgs h_alive h_got srv wire cmap]; auto.
        -- intros s Hs _ t. destruct (N2 s Hs) as (-> & _). reflexivity.
        -- intros _. left. apply upd_eq.
        -- intros _. exists []. split; [|reflexivity]. unfold in_flight, queued. cbn [srv wire h_got]. rewrite N1.
           destruct (srv st i) as [s|] eqn:Es; [|reflexivity]. now destruct (N2 s eq_refl) as (_ & ->).
        -- now exists [].
    + intros j. rewrite online_snoc. cbn. apply I.
  - (* Subscribe *)
    cbn in Al. apply Nat.ltb_lt in Al.
    apply inv_by_handle; auto; cbn; intros.
    + now destruct (_ && _).
    + now rewrite (proj2 (Nat.eqb_neq _ _) (not_eq_sym H)).
    + rewrite H, andb_false_r. now split.
    + rewrite Nat.eqb_refl, H. cbn. split; [reflexivity|]. intros _ t'. pose proof (mem_add t' t (s_topics s)) as X. unfold mem in *. rewrite X, H1. reflexivity.
  - (* Unsubscribe *)
    cbn in Al. apply Nat.ltb_lt in Al.
    apply inv_by_handle; auto; cbn; intros.
    + now destruct (_ && _).
    + now rewrite (proj2 (Nat.eqb_neq _ _) (not_eq_sym H)).
    + rewrite H, andb_false_r. now split.
    + rewrite Nat.eqb_refl, H. cbn. split; [reflexivity|]. intros _ t'. unfold mem, del in *.
      rewrite !existsb_del. now rewrite H1.
  - (* Publish *)
    assert (Hs : forall j s', option_map (offer t p) (srv st j) = Some s' ->
               exists s, srv st j = Some s /\ s' = offer t p s).
    { intros j s'. destruct (srv st j); [|discriminate]. intros [= <-]. eauto. }
    assert (So : forall j, sopen (option_map (offer t p) (srv st j)) = sopen (srv st j)).
    { intros j. destruct (srv st j) as [[o ts qq]|]; [|reflexivity]. cbn [option_map]. unfold offer. cbn [s_open s_topics]. destruct o; [|reflexivity]. now destruct (mem t ts). }
    assert (St : forall s, s_topics (offer t p s) = s_topics s).
    { intros s. unfold offer. now destruct (_ && _). }
    constructor; cbn; try apply I.
    + intros j Hj. destruct (iv_fresh _ _ I j Hj) as (A & B & C). rewrite A. split; [reflexivity|].
      split; [exact B|]. intros h. rewrite due_snoc, C. reflexivity.
    + intros j Hj. destruct (iv_new _ _ I j Hj) as (A & B & C). split; [exact A|]. rewrite So. split.
      * intros s' E. destruct (Hs _ _ E) as (s & E1 & ->). destruct (B s E1) as (X & Y).
        unfold offer. rewrite X. cbn. rewrite andb_false_r. now split.
      * intros h Hh. rewrite due_snoc, (C h Hh). cbn. now rewrite andb_false_r.
    + intros h r Hr. destruct (iv_handle _ _ I h r Hr) as [A B C D E]. rewrite due_snoc.
      set (d := due_of h (h_id r) evs) in *.
      assert (Q : d_open d && existsb (Nat.eqb t) (d_topics d)
                  = match srv st (h_id r) with
                    | Some s => s_open s && mem t (s_topics s) | None => false end).
      { rewrite A. destruct (srv st (h_id r)) as [s|] eqn:Es; [|reflexivity]. cbn.
        destruct (s_open s) eqn:Os; [|reflexivity]. cbn. symmetry. now apply (B s). }
      assert (DT : d_topics (due_step h (h_id r) d (Publish t p)) = d_topics d).
      { cbn. now destruct (_ && _). }
      assert (DM : d_msgs (due_step h (h_id r) d (Publish t p))
                 = d_msgs d ++ if d_open d && existsb (Nat.eqb t) (d_topics d) then [(t, p)] else []).
      { cbn. destruct (_ && _); [reflexivity|]. now rewrite app_nil_r. }
      constructor; cbn [srv wire cmap].
      * rewrite So, <- A. cbn. destruct (d_open d) eqn:X; cbn; [|now rewrite X]. destruct (existsb _ _); cbn; auto.
      * intros s' E' O' t'. destruct (Hs _ _ E') as (s & E1 & ->). rewrite St, DT. apply (B s E1).
        clear - O'. revert O'. unfold offer. destruct (s_open s) eqn:O; cbn; [auto|congruence].
      * intros L. destruct (C L) as [Z|[Z Z']]; [now left|right]. now rewrite Z.
      * intros L. destruct (D L) as (lost & Y & Z). rewrite DM, Q, Y.
        exists lost. unfold in_flight, queued in *. cbn [srv wire].
        destruct (srv st (h_id r)) as [s|] eqn:Es; cbn [option_map].
        -- rewrite (Z ltac:(discriminate)) in *. split; [|reflexivity].
           unfold offer. destruct (s_open s && mem t (s_topics s)) eqn:W; cbn; rewrite !app_nil_r;
           rewrite <- ?app_assoc; reflexivity.
        -- rewrite !app_nil_r. split; [reflexivity|congruence].
      * destruct E as (rest & Y). rewrite DM, Y. rewrite <- app_assoc. eauto.
    + intros j. rewrite online_snoc. cbn. intros O. pose proof (iv_online _ _ I j O).
      now destruct (srv st j).
  - (* Forward *)
    unfold forward. destruct (srv st i) as [[o ts [|m qq]]|] eqn:Es.
    1,3: apply inv_frame with (st := st); auto; try reflexivity;
      [intros j Hj; destruct (iv_new _ _ I j Hj) as (A & B & C); split; [intros s Hs; now apply B|];
       intros h Hh; cbn; rewrite (C h Hh); now split
      |intros h r Hr; destruct (iv_handle _ _ I h r Hr) as [A B _ _ _]; cbn; split; [exact A|exact B]].
    assert (Hu : In i (used st)).
    { destruct (in_dec Nat.eq_dec i (used st)); [assumption|]. destruct (iv_fresh _ _ I i n) as (X & _). congruence. }
    assert (Hnp : ~ In i (pend st)).
    { intros X. destruct (iv_new _ _ I i X) as (_ & Y & _). destruct (Y _ Es) as (_ & Z). cbn in Z. discriminate. }
    assert (OW : forall j, j <> i -> on_wire j (wire st ++ [(i, m)]) = on_wire j (wire st)).
    { intros j Hj. rewrite on_wire_app. unfold on_wire at 2. cbn.
      rewrite (proj2 (Nat.eqb_neq _ _) (not_eq_sym Hj)). cbn. apply app_nil_r. }
    constructor; cbn [srv wire used pend cmap hs]; try apply I.
    + intros j Hj. assert (j <> i) by congruence. rewrite upd_ne, OW by assumption.
      destruct (iv_fresh _ _ I j Hj) as (A & B & C). split; [exact A|]. split; [exact B|].
      intros h. rewrite due_snoc. apply C.
    + intros j Hj. assert (j <> i) by congruence. rewrite upd_ne, OW by assumption.
      destruct (iv_new _ _ I j Hj) as (A & B & C). split; [exact A|]. split; [exact B|].
      intros h Hh. rewrite due_snoc. now apply C.
    + intros h r Hr. destruct (iv_handle _ _ I h r Hr) as [A B C D E]. rewrite due_snoc. cbn [due_step].
      destruct (Nat.eq_dec (h_id r) i) as [X|X].
      * rewrite X in *. rewrite Es in *. constructor; cbn [srv wire cmap]; rewrite ?upd_eq; auto.
        -- intros s [= <-]. cbn. intros O. apply (B _ eq_refl O).
        -- intros L. left. destruct (C L) as [Z|[Z _]]; [exact Z|discriminate].
        -- intros L. destruct (D L) as (lost & Y & Z). exists []. split; [|reflexivity].
           rewrite (Z ltac:(discriminate)) in Y. rewrite Y. unfold in_flight, queued. cbn [srv wire].
           rewrite upd_eq, Es, on_wire_app. unfold on_wire at 3. cbn. rewrite Nat.eqb_refl. cbn.
           rewrite <- !app_assoc. reflexivity.
      * constructor; cbn [srv wire cmap]; rewrite ?upd_ne, ?OW by assumption; auto.
        intros L. destruct (D L) as (lost & Y & Z). exists lost. unfold in_flight, queued in *. cbn [srv wire].
        rewrite upd_ne, OW by assumption. now split.
    + intros j. rewrite online_snoc. cbn. intros O. destruct (Nat.eq_dec j i) as [->|X].
      * now rewrite upd_eq.
      * rewrite upd_ne by assumption. now apply I.
  - (* Deliver *)
    unfold deliver. destruct (wire st) as [|[i m] w] eqn:Ew.
    { apply inv_frame with (st := st); auto; try reflexivity.
      - intros j Hj; destruct (iv_new _ _ I j Hj) as (A & B & C); split; [intros s Hs; now apply B|];
        intros h Hh; cbn; rewrite (C h Hh); now split.
      - intros h r Hr; destruct (iv_handle _ _ I h r Hr) as [A B _ _ _]; cbn; split; [exact A|exact B]. }
    cbn [cmap srv used pend hs].
    assert (OWi : on_wire i (wire st) = m :: on_wire i w).
    { rewrite Ew. unfold on_wire. cbn. now rewrite Nat.eqb_refl. }
    assert (OW : forall j, j <> i -> on_wire j (wire st) = on_wire j w).
    { intros j Hj. rewrite Ew. unfold on_wire. cbn. now rewrite (proj2 (Nat.eqb_neq _ _) (not_eq_sym Hj)). }
    assert (Hu : In i (used st)).
    { destruct (in_dec Nat.eq_dec i (used st)); [assumption|]. destruct (iv_fresh _ _ I i n) as (_ & X & _). congruence. }
    assert (Hnp : ~ In i (pend st)).
    { intros X. destruct (iv_new _ _ I i X) as (Y & _). congruence. }
    (* what all branches share *)
    assert (Fr : forall j, ~ In j (used st) -> srv st j = None /\ on_wire j w = []
                 /\ forall h, due_of h j (evs ++ [Deliver]) = mkDue false [] []).
    { intros j Hj. assert (j <> i) by congruence. destruct (iv_fresh _ _ I j Hj) as (A & B & C).
      rewrite <- OW by assumption. split; [exact A|]. split; [exact B|]. intros h. rewrite due_snoc. apply C. }
    assert (Nw : forall j, In j (pend st) -> on_wire j w = []
                 /\ (forall s, srv st j = Some s -> s_topics s = [] /\ s_queue s = [])
                 /\ forall h, length (hs st) <= h ->
                    due_of h j (evs ++ [Deliver]) = mkDue (sopen (srv st j)) [] []).
    { intros j Hj. assert (j <> i) by congruence. destruct (iv_new _ _ I j Hj) as (A & B & C).
      rewrite <- OW by assumption. split; [exact A|]. split; [exact B|]. intros h Hh. rewrite due_snoc. now apply C. }
    assert (On : forall j, online j (evs ++ [Deliver]) = true -> srv st j <> None).
    { intros j. rewrite online_snoc. apply I. }
    (* other handles, and dropped ones, whatever becomes of their map entry *)
    assert (Ot : forall cm hs' h r, nth_error (hs st) h = Some r ->
               (h_id r <> i -> cm (h_id r) = cmap st (h_id r)) ->
               h_id r <> i \/ h_alive r = false ->
               HI (due_of h (h_id r) (evs ++ [Deliver])) (mkSt (srv st) w (used st) (pend st) cm hs') h (h_id r) r).
    { intros cm hs' h r Hr Cm Or. destruct (iv_handle _ _ I h r Hr) as [A B C D E]. rewrite due_snoc. cbn [due_step].
      constructor; cbn [srv wire cmap]; auto.
      - intros L. destruct Or as [X|X]; [|congruence]. rewrite Cm, <- OW by assumption. now apply C.
      - intros L. destruct Or as [X|X]; [|congruence]. destruct (D L) as (lost & Y & Z). exists lost.
        unfold in_flight, queued in *. cbn [srv wire]. rewrite <- OW by assumption. now split. }
    destruct (cmap st i) as [h0|] eqn:Ec.
    2:{ constructor; cbn [srv wire used pend cmap hs]; try apply I; auto.
        intros h r Hr. apply Ot; auto. destruct (Nat.eq_dec (h_id r) i) as [X|X]; [|now left].
        right. destruct (h_alive r) eqn:L; [|reflexivity].
        destruct (hi_map _ _ _ _ _ (iv_handle _ _ I h r Hr) L) as [Z|[_ Z]]; rewrite X in Z; congruence. }
    pose proof (iv_cmap _ _ I _ _ Ec) as Hid. apply id_of_some in Hid. destruct Hid as (r0 & Hr0 & Hi0).
    rewrite Hr0. destruct (h_alive r0) eqn:L0.
    + (* delivered *)
      set (r1 := mkH (h_id r0) true (h_got r0 ++ [m])).
      assert (nth_new : forall k r, nth_error (setn h0 r1 (hs st)) k = Some r ->
                (k <> h0 /\ nth_error (hs st) k = Some r) \/ (k = h0 /\ r = r1)).
      { intros k r. rewrite nth_setn. destruct (k =? h0) eqn:X; eqbs; [|now left].
        subst. rewrite Hr0. intros [= <-]. now right. }
      constructor; cbn [srv wire used pend cmap hs]; auto; try apply I.
      * intros h r Hr. destruct (nth_new _ _ Hr) as [[_ Hr']|[-> ->]]; [now apply (iv_ids _ _ I h)|].
        now apply (iv_ids _ _ I h0 r0).
      * intros h k r r' Hr Hk E. destruct (nth_new _ _ Hr) as [[Ha A]|[-> ->]], (nth_new _ _ Hk) as [[Hb B]|[-> ->]]; cbn in *.
        -- eapply (iv_distinct _ _ I); eauto.
        -- exact (iv_distinct _ _ I _ _ _ _ A Hr0 E).
        -- exact (iv_distinct _ _ I _ _ _ _ Hr0 B E).
        -- reflexivity.
      * intros j h Hj. apply (iv_cmap _ _ I) in Hj. revert Hj. unfold id_of. cbn. rewrite nth_setn.
        destruct (h =? h0) eqn:X; eqbs; [|auto]. subst. rewrite Hr0. now intros [= <-].
      * intros j Hj. rewrite setn_length. now apply Nw.
      * intros h r Hr. destruct (nth_new _ _ Hr) as [[Ne Hr']|[-> ->]].
        -- apply Ot; auto. left. intros X. apply Ne. eapply (iv_distinct _ _ I); eauto. congruence.
        -- destruct (iv_handle _ _ I h0 r0 Hr0) as [A B C D E]. unfold r1. cbn [h_id]. rewrite due_snoc. cbn [due_step].
           rewrite Hi0 in *. constructor; cbn [srv wire cmap h_alive h_got]; auto.
           ++ intros _. destruct (D L0) as (lost & Y & Z). exists lost. split; [|exact Z].
              rewrite Y. unfold in_flight, queued. cbn [srv wire]. rewrite OWi, <- !app_assoc. reflexivity.
           ++ destruct (D L0) as (lost & Y & _). rewrite Y. unfold in_flight. rewrite OWi. cbn.
              eexists. rewrite <- !app_assoc. cbn. reflexivity.
    + (* the receiver is gone *)
      constructor; cbn [srv wire used pend cmap hs]; auto; try apply I.
      * intros j h. unfold upd. destruct (j =? i); [discriminate|]. apply I.
      * intros h r Hr. apply Ot; auto.
        -- intros X. now apply upd_ne.
        -- destruct (Nat.eq_dec (h_id r) i) as [X|X]; [|now left]. right.
           assert (h = h0) by (eapply (iv_distinct _ _ I); eauto; congruence). subst. congruence.
  - (* Drop *)
    cbn in Al. apply Nat.ltb_lt in Al. destruct (nth_error (hs st) h) as [r0|] eqn:Hr0.
    2:{ apply nth_error_None in Hr0. lia. }
    set (r1 := mkH (h_id r0) false (h_got r0)).
    assert (nth_new : forall k r, nth_error (setn h r1 (hs st)) k = Some r ->
              exists r', nth_error (hs st) k = Some r' /\ h_id r' = h_id r /\ h_got r' = h_got r
                         /\ (h_alive r = true -> r = r')).
    { intros k r. rewrite nth_setn. destruct (k =? h) eqn:X; eqbs.
      - subst. rewrite Hr0. intros [= <-]. exists r0. cbn. repeat split; discriminate.
      - intros Hk. exists r. auto. }
    constructor; cbn [srv wire used pend cmap hs]; auto; try apply I.
    + intros k r Hr. destruct (nth_new _ _ Hr) as (r' & A & <- & _). now apply (iv_ids _ _ I k).
    + intros a b r r' Hr Hk E. destruct (nth_new _ _ Hr) as (r1' & A & A' & _), (nth_new _ _ Hk) as (r2' & B & B' & _).
      eapply (iv_distinct _ _ I); eauto. congruence.
    + intros j k Hj. apply (iv_cmap _ _ I) in Hj. revert Hj. unfold id_of. cbn. rewrite nth_setn.
      destruct (k =? h) eqn:X; eqbs; [|auto]. subst. rewrite Hr0. now intros [= <-].
    + intros j Hj. destruct (iv_fresh _ _ I j Hj) as (A & B & C). split; [exact A|]. split; [exact B|].
      intros k. rewrite due_snoc. apply C.
    + intros j Hj. rewrite setn_length. destruct (iv_new _ _ I j Hj) as (A & B & C). split; [exact A|]. split; [exact B|].
      intros k Hk. rewrite due_snoc. now apply C.
    + intros k r Hr. destruct (nth_new _ _ Hr) as (r' & Hr' & <- & G & Al').
      destruct (iv_handle _ _ I k r' Hr') as [A B C D E]. rewrite due_snoc. cbn [due_step].
      constructor; cbn [srv wire cmap]; auto.
      * intros L. apply C. now rewrite <- (Al' L).
      * intros L. rewrite <- G. apply D. now rewrite <- (Al' L).
      * now rewrite <- G.
    + intros j. rewrite online_snoc. apply I.
  - (* Unregister *)
    cbn in Al. unfold dropped in Al. destruct (nth_error (hs st) h) as [r0|] eqn:Hr0; [|discriminate].
    apply inv_by_handle; auto; cbn; intros.
    + now destruct (_ =? _).
    + now rewrite (proj2 (Nat.eqb_neq _ _) (not_eq_sym H)).
    + rewrite Nat.eqb_refl. now split.
    + rewrite Nat.eqb_refl. split; [reflexivity|discriminate].
    + eapply nth_lt; eauto.
  - (* Removed *)
    cbn in Al. unfold dropped in Al. unfold id_of. destruct (nth_error (hs st) h) as [r0|] eqn:Hr0; [|discriminate].
    cbn [option_map]. apply negb_true_iff in Al.
    constructor; cbn [srv wire used pend cmap hs]; auto; try apply I.
    + intros j k. unfold upd. destruct (j =? h_id r0); [discriminate|]. apply I.
    + intros j Hj. destruct (iv_fresh _ _ I j Hj) as (A & B & C). split; [exact A|]. split; [exact B|].
      intros k. rewrite due_snoc. apply C.
    + intros j Hj. destruct (iv_new _ _ I j Hj) as (A & B & C). split; [exact A|]. split; [exact B|].
      intros k Hk. rewrite due_snoc. now apply C.
    + intros k r Hr. destruct (iv_handle _ _ I k r Hr) as [A B C D E]. rewrite due_snoc. cbn [due_step].
      constructor; cbn [srv wire cmap]; auto.
      intros L. destruct (Nat.eq_dec (h_id r) (h_id r0)) as [X|X].
      * assert (k = h) by (eapply (iv_distinct _ _ I); eauto). subst. congruence.
      * rewrite upd_ne by assumption. now apply C.
    + intros j. rewrite online_snoc. apply I.
  - (* Close *)
    destruct (on_sub_rest closed i st) as (R1 & R2 & R3 & R4 & R5).
    apply inv_frame with (st := st); auto.
    + intros j. now apply on_sub_queue.
    + intros j. apply on_sub_none.
    + intros h j. cbn. now destruct (_ =? _).
    + intros j h Hj. cbn. destruct (iv_fresh _ _ I j Hj) as (_ & _ & C). rewrite C. now destruct (_ =? _).
    + intros j Hj. destruct (iv_new _ _ I j Hj) as (A & B & C). rewrite on_sub_srv. cbn.
      rewrite (Nat.eqb_sym i j). destruct (j =? i) eqn:X; cbn; eqbs.
      * subst. destruct (srv st i) as [s|] eqn:Es; cbn.
        -- destruct (s_open s) eqn:Os; cbn.
           ++ split; [now intros s' [= <-]|]. intros h Hh. now rewrite (C h Hh).
           ++ split; [intros s' [= <-]; now apply (B s)|]. intros h Hh. rewrite (C h Hh). cbn. now rewrite Os.
        -- split; [discriminate|]. intros h Hh. now rewrite (C h Hh).
      * split; [intros s Hs; now apply B|]. intros h Hh. rewrite (C h Hh). now split.
    + intros h r Hr. destruct (iv_handle _ _ I h r Hr) as [A B _ _ _]. rewrite on_sub_srv. cbn.
      rewrite (Nat.eqb_sym i (h_id r)). destruct (h_id r =? i) eqn:X; cbn; eqbs.
      * rewrite X in *. destruct (srv st i) as [s|] eqn:Es; cbn in *.
        -- destruct (s_open s) eqn:Os; cbn; (split; [auto|]); intros s' [= <-]; cbn; congruence.
        -- split; [reflexivity|discriminate].
      * split; [exact A|]. intros s Hs Os. now apply B.
  - (* Disconnect *)
    assert (Wn : forall j, on_wire j (wire st) = [] -> on_wire j (firstn n (wire st)) = []).
    { intros j Hj. destruct (on_wire_firstn j n (wire st)) as (l & E). rewrite Hj in E. symmetry in E.
      now apply app_eq_nil in E. }
    constructor; cbn [srv wire used pend cmap hs]; auto; try apply I.
    + intros j Hj. destruct (iv_fresh _ _ I j Hj) as (A & B & C). split; [reflexivity|]. split; [now apply Wn|].
      intros k. rewrite due_snoc, C. reflexivity.
    + intros j Hj. destruct (iv_new _ _ I j Hj) as (A & B & C). split; [now apply Wn|]. split; [discriminate|].
      intros k Hk. rewrite due_snoc, (C k Hk). reflexivity.
    + intros k r Hr. destruct (iv_handle _ _ I k r Hr) as [A B C D E]. rewrite due_snoc. cbn [due_step]. unfold shut.
      constructor; cbn [srv wire cmap d_open d_topics d_msgs]; auto.
      * discriminate.
      * intros L. destruct (C L) as [Z|[Z Z']]; [now left|right]. split; [reflexivity|]. now apply Wn.
      * intros L. destruct (D L) as (lost & Y & Z). destruct (on_wire_firstn (h_id r) n (wire st)) as (l & El).
        unfold in_flight, queued in *. cbn [srv wire]. rewrite El in Y. rewrite Y.
        exists (l ++ match srv st (h_id r) with Some s => s_queue s | None => [] end ++ lost).
        split; [rewrite app_nil_r, <- !app_assoc; reflexivity|congruence].
    + intros j. rewrite online_snoc. discriminate.
  - (* Reconnect *)
    unfold reconnect. constructor; cbn [srv wire used pend cmap hs]; auto; try apply I.
    + intros j k. destruct q; [apply I|discriminate].
    + intros j Hj. destruct (iv_fresh _ _ I j Hj) as (A & B & C). split; [reflexivity|]. split; [reflexivity|].
      intros k. rewrite due_snoc, C. reflexivity.
    + intros j Hj. destruct (iv_new _ _ I j Hj) as (A & B & C). split; [reflexivity|]. split; [discriminate|].
      intros k Hk. rewrite due_snoc, (C k Hk). reflexivity.
    + intros k r Hr. destruct (iv_handle _ _ I k r Hr) as [A B C D E]. rewrite due_snoc. cbn [due_step]. unfold shut.
      constructor; cbn [srv wire cmap d_open d_topics d_msgs]; auto.
      * discriminate.
      * intros L. destruct (D L) as (lost & Y & Z). unfold in_flight, queued in *. cbn [srv wire].
        eexists. split; [rewrite Y; cbn; reflexivity|congruence].
    + intros j. rewrite online_snoc. discriminate.
  - congruence.
Qed.

Lemma inv_run q evs : valid q evs = true -> no_restart evs -> Inv evs (run q evs).
Proof.
  induction evs as [|e evs IH] using rev_ind; [intros; apply inv_start|].
  rewrite valid_snoc, run_snoc. intros V NR. apply andb_true_iff in V. destruct V as (V & Al).
  apply inv_step; auto.
  - apply IH; auto. intros X. apply NR. apply in_or_app. now left.
  - intros ->. apply NR. apply in_or_app. right. now left.
Qed.
