(* Property theorems C108: a client's session is reported while the connection it was made
   on is the latest, and it is logged out when the last handle that has it is dropped. *)
From Verif Require Import Base ClientSession.
From Coq Require Import Lia Arith.
Local Open Scope N_scope.

Definition reachable (s : state) : Prop := exists l, s = run new_client l.
(* handle i is in use, with session a *)
Definition live (s : state) (i a : nat) : Prop := nth_error (handles s) i = Some (a, Live).
Definition logged_out (s : state) (a : nat) : Prop := In a (logouts s).

(* ---------- lists ---------- *)
Lemma put_same {A} (x : A) : forall l i, (i < length l)%nat -> nth_error (put i x l) i = Some x.
Proof. induction l as [|y r IH]; intros [|i] H; cbn in *; try lia; [reflexivity|apply IH; lia]. Qed.
Lemma put_other {A} (x : A) : forall l i j, i <> j -> nth_error (put i x l) j = nth_error l j.
Proof. induction l as [|y r IH]; intros [|i] [|j] H; cbn; try reflexivity; try congruence. apply IH. congruence. Qed.
Lemma in_range {A} (l : list A) i x : nth_error l i = Some x -> (i < length l)%nat.
Proof. intros H. apply nth_error_Some. congruence. Qed.
Lemma app_at {A} (l : list A) x j y : nth_error (l ++ [x]) j = Some y -> nth_error l j = Some y \/ (j = length l /\ y = x).
Proof.
  intros H. destruct (Nat.lt_ge_cases j (length l)) as [L|L].
  - left. rewrite nth_error_app1 in H by exact L. exact H.
  - right. rewrite nth_error_app2 in H by exact L. destruct (j - length l)%nat eqn:D; cbn in H; [split; [lia|congruence]|destruct n; discriminate].
Qed.
(* the strong count is one exactly if no other handle holds the arc *)
Lemma count_one a : forall l i p, nth_error l i = Some (a, p) -> p <> Gone ->
  length (filter (held a) l) = 1%nat <-> forall j q, nth_error l j = Some (a, q) -> q <> Gone -> j = i.
Proof.
  assert (Z : forall l, length (filter (held a) l) = 0%nat <-> forall j q, nth_error l j = Some (a, q) -> q = Gone).
  { induction l as [|[b r] l IH]; cbn [filter]; [split; [intros _ [|j] q H; discriminate|reflexivity]|].
    unfold held at 1. cbn [fst snd]. split.
    - intros L j q H. destruct j as [|j]; cbn in H.
      + injection H as -> ->. rewrite Nat.eqb_refl in L. destruct q; [discriminate L|discriminate L|reflexivity].
      + destruct (Nat.eqb b a && _); [discriminate|]. apply (proj1 IH L j q H).
    - intros H. destruct (Nat.eqb b a) eqn:B; cbn [andb].
      + apply Nat.eqb_eq in B. subst b. rewrite (H 0%nat r eq_refl). apply IH. intros j q. apply (H (Datatypes.S j)).
      + apply IH. intros j q. apply (H (Datatypes.S j)). }
  induction l as [|[b r] l IH]; intros i p H NG; [destruct i; discriminate|]. cbn [filter]. unfold held at 1. cbn [fst snd].
  destruct i as [|i]; cbn in H.
  - injection H as -> ->. rewrite Nat.eqb_refl. replace (match p with Gone => false | _ => true end) with true by (destruct p; congruence). cbn [andb length].
    split.
    + intros L j q J NQ. destruct j as [|j]; [reflexivity|]. exfalso. apply NQ. injection L as L. apply (proj1 (Z l) L j q J).
    + intros U. f_equal. apply Z. intros j q J. destruct q; [|  |reflexivity]; specialize (U (Datatypes.S j) _ J); assert (Datatypes.S j = 0%nat) by (apply U; discriminate); discriminate.
  - destruct (Nat.eqb b a) eqn:B.
    + apply Nat.eqb_eq in B. subst b. destruct r.
      * cbn [andb length]. split; [intros L; injection L as L; exfalso; apply NG; apply (proj1 (Z l) L i p H)|].
        intros U. exfalso. specialize (U 0%nat Live eq_refl ltac:(discriminate)). discriminate.
      * cbn [andb length]. split; [intros L; injection L as L; exfalso; apply NG; apply (proj1 (Z l) L i p H)|].
        intros U. exfalso. specialize (U 0%nat Dropping eq_refl ltac:(discriminate)). discriminate.
      * cbn [andb]. rewrite (IH i p H NG). split; intros U j q J NQ.
        -- destruct j as [|j]; [cbn in J; congruence|]. f_equal. apply (U j q J NQ).
        -- specialize (U (Datatypes.S j) q J NQ). congruence.
    + cbn [andb]. rewrite (IH i p H NG). split; intros U j q J NQ.
      * destruct j as [|j]; [cbn in J; injection J as -> ->; rewrite Nat.eqb_refl in B; discriminate|]. f_equal. apply (U j q J NQ).
      * specialize (U (Datatypes.S j) q J NQ). congruence.
Qed.

(* ---------- the invariant ---------- *)
Record ok (s : state) : Prop := {
  k_arc : forall i a p, nth_error (handles s) i = Some (a, p) -> (a < length (arcs s))%nat;
  k_log : forall a, In a (logouts s) -> (a < length (arcs s))%nat;
  k_out : forall i a p, In a (logouts s) -> nth_error (handles s) i = Some (a, p) -> p <> Live;
  k_once : NoDup (logouts s);
  k_made : forall a, (a < length (arcs s))%nat -> a_made (arc_at s a) <= a_tag (arc_at s a) <= counter s;
  k_ans : forall n sid made, nth_error (answers s) n = Some (Some (sid, made)) -> made <= counter s;
  k_sid : forall a, In a (logouts s) -> a_sid (arc_at s a) <> None }.
Lemma ok_new : ok new_client.
Proof.
  constructor; cbn; try contradiction.
  - intros [|[|i]] a p H; try discriminate. injection H as <- <-. lia.
  - constructor.
  - intros [|a] H; [cbn; lia|lia].
  - intros [|n] sid made H; discriminate.
Qed.
Lemma arc_at_app s x a (l : list arc) : (a < length (arcs s))%nat -> nth a (arcs s ++ [x]) (mk_arc None 0 0) = arc_at s a.
Proof. intros L. unfold arc_at. apply app_nth1, L. Qed.
Lemma ok_step s e : ok s -> ok (step s e).
Proof.
  intros K. destruct e as [| |sid|n|i|i|i]; cbn [step].
  - destruct K. constructor; auto.
  - destruct (connected s); [exact K|]. destruct K as [K1 K2 K3 K4 K5 K6 K7]. constructor; auto; cbn [counter].
    + intros a L. specialize (K5 a L). unfold arc_at in *. cbn [arcs]. lia.
    + intros n sid made H. specialize (K6 n sid made H). lia.
  - destruct (connected s); [|exact K]. destruct K as [K1 K2 K3 K4 K5 K6 K7]. constructor; auto. cbn [answers counter].
    intros n sid' made H. apply app_at in H. destruct H as [H|[_ H]]; [exact (K6 n sid' made H)|]. injection H as _ ->. lia.
  - destruct (nth_error (answers s) n) as [[[sid made]|]|] eqn:A; [|exact K|exact K]. destruct K as [K1 K2 K3 K4 K5 K6 K7].
    pose proof (K6 _ _ _ A) as MC. constructor; cbn [handles arcs logouts counter answers]; rewrite ?app_length; cbn [length].
    + intros i a p H. apply app_at in H. destruct H as [H|[_ H]]; [specialize (K1 _ _ _ H); lia|]. injection H as -> _. lia.
    + intros a H. specialize (K2 a H). lia.
    + intros i a p H J. apply app_at in J. destruct J as [J|[_ J]]; [exact (K3 i a p H J)|]. injection J as -> ->. specialize (K2 _ H). lia.
    + exact K4.
    + intros a L. unfold arc_at. cbn [arcs]. destruct (Nat.eq_dec a (length (arcs s))) as [->|NE].
      * rewrite app_nth2, Nat.sub_diag by lia. cbn. lia.
      * rewrite arc_at_app by (try exact []; lia). apply K5. lia.
    + intros m sid' made' H. destruct (Nat.eq_dec n m) as [->|NE]; [rewrite put_same in H by exact (in_range _ _ _ A); discriminate|].
      rewrite put_other in H by exact NE. exact (K6 m sid' made' H).
    + intros a H. unfold arc_at. cbn [arcs]. rewrite arc_at_app by (try exact []; apply K2, H). apply K7, H.
  - destruct (nth_error (handles s) i) as [[a [| |]]|] eqn:H; try exact K. destruct K as [K1 K2 K3 K4 K5 K6 K7]. constructor; auto; cbn [handles logouts with_handles].
    + intros j b p J. apply app_at in J. destruct J as [J|[_ J]]; [exact (K1 j b p J)|]. injection J as -> ->. exact (K1 _ _ _ H).
    + intros j b p L J. apply app_at in J. destruct J as [J|[_ J]]; [exact (K3 j b p L J)|]. injection J as -> ->. exfalso. exact (K3 _ _ _ L H eq_refl).
  - destruct (nth_error (handles s) i) as [[a [| |]]|] eqn:H; try exact K. destruct K as [K1 K2 K3 K4 K5 K6 K7].
    assert (HA : forall j b p, nth_error (put i (a, Dropping) (handles s)) j = Some (b, p) -> (j = i /\ b = a /\ p = Dropping) \/ (j <> i /\ nth_error (handles s) j = Some (b, p))).
    { intros j b p J. destruct (Nat.eq_dec i j) as [->|NE].
      - rewrite put_same in J by exact (in_range _ _ _ H). injection J as <- <-. auto.
      - rewrite put_other in J by exact NE. right. auto. }
    assert (NI : ~ In a (logouts s)) by (intros L; exact (K3 _ _ _ L H eq_refl)).
    assert (C1 : forall j b p, nth_error (put i (a, Dropping) (handles s)) j = Some (b, p) -> (b < length (arcs s))%nat).
    { intros j b p J. destruct (HA _ _ _ J) as [(_ & -> & _)|[_ J']]; [exact (K1 _ _ _ H)|exact (K1 _ _ _ J')]. }
    assert (C3 : forall j b p, In b (logouts s) -> nth_error (put i (a, Dropping) (handles s)) j = Some (b, p) -> p <> Live).
    { intros j b p L J. destruct (HA _ _ _ J) as [(_ & _ & ->)|[_ J']]; [discriminate|exact (K3 _ _ _ L J')]. }
    destruct (current s a && Nat.eqb (strong_count s a) 1) eqn:T; [|constructor; auto].
    destruct (a_sid (arc_at s a)) as [sid|] eqn:SI; [|constructor; auto].
    apply andb_true_iff in T. destruct T as [_ T]. apply Nat.eqb_eq in T.
    pose proof (proj1 (count_one a (handles s) i Live H ltac:(discriminate)) T) as ONE.
    constructor; cbn [handles logouts with_handles]; auto.
    + intros b L. apply in_app_iff in L. destruct L as [L|[<-|[]]]; [exact (K2 b L)|exact (K1 _ _ _ H)].
    + intros j b p L J. apply in_app_iff in L. destruct L as [L|[<-|[]]]; [exact (C3 j b p L J)|].
      destruct (HA _ _ _ J) as [(_ & _ & ->)|[NE J']]; [discriminate|]. intros ->. apply NE. apply (ONE j Live J'). discriminate.
    + apply NoDup_Add with (a := a) (l := logouts s); [|split; assumption]. rewrite <- (app_nil_r (logouts s)) at 1. apply Add_app.
    + intros b L. apply in_app_iff in L. destruct L as [L|[<-|[]]]; [exact (K7 b L)|]. change (a_sid (arc_at s a) <> None). congruence.
  - destruct (nth_error (handles s) i) as [[a [| |]]|] eqn:H; try exact K. destruct K as [K1 K2 K3 K4 K5 K6 K7].
    assert (HA : forall j b p, nth_error (put i (a, Gone) (handles s)) j = Some (b, p) -> (b = a /\ p = Gone) \/ nth_error (handles s) j = Some (b, p)).
    { intros j b p J. destruct (Nat.eq_dec i j) as [->|NE].
      - rewrite put_same in J by exact (in_range _ _ _ H). injection J as <- <-. auto.
      - rewrite put_other in J by exact NE. auto. }
    constructor; auto; cbn [handles logouts with_handles].
    + intros j b p J. destruct (HA _ _ _ J) as [(-> & _)|J']; [exact (K1 _ _ _ H)|exact (K1 _ _ _ J')].
    + intros j b p L J. destruct (HA _ _ _ J) as [(_ & ->)|J']; [discriminate|exact (K3 _ _ _ L J')].
Qed.
Lemma ok_run l : forall s, ok s -> ok (run s l).
Proof. induction l as [|e r IH]; intros s K; [exact K|]. apply IH, ok_step, K. Qed.
Lemma reachable_ok s : reachable s -> ok s.
Proof. intros [l ->]. apply ok_run, ok_new. Qed.

Lemma step_arc_len s e : (length (arcs s) <= length (arcs (step s e)))%nat /\ True.
Proof.
  split; [|exact I]. destruct e as [| |sid|n|i|i|i]; cbn [step]; auto.
  - destruct (connected s); reflexivity.
  - destruct (connected s); reflexivity.
  - destruct (nth_error (answers s) n) as [[[? ?]|]|]; cbn [arcs]; rewrite ?app_length; cbn; lia.
  - destruct (nth_error (handles s) i) as [[b [| |]]|]; reflexivity.
  - destruct (nth_error (handles s) i) as [[b [| |]]|]; reflexivity.
  - destruct (nth_error (handles s) i) as [[b [| |]]|]; reflexivity.
Qed.

(* C108 *)
(* in every schedule a session is logged out at most once, and never while a handle with it
   is still in use *)
Theorem C108_at_most_once : forall s, reachable s -> NoDup (logouts s).
Proof. intros s R. apply k_once, reachable_ok, R. Qed.
Theorem C108_not_in_use : forall s i a, reachable s -> live s i a -> ~ logged_out s a.
Proof. intros s i a R L O. exact (k_out s (reachable_ok s R) i a Live O L eq_refl). Qed.
(* only dropping a handle logs out, and only the session of that handle *)
Theorem C108_only_drops : forall s e a, reachable s -> logged_out (step s e) a -> logged_out s a \/ exists i, e = DropStart i /\ live s i a.
Proof.
  unfold logged_out, live. intros s e a R L. destruct e as [| |sid|n|i|i|i]; cbn [step] in L; auto.
  - destruct (connected s); auto.
  - destruct (connected s); auto.
  - destruct (nth_error (answers s) n) as [[[? ?]|]|]; auto.
  - destruct (nth_error (handles s) i) as [[b [| |]]|]; auto.
  - destruct (nth_error (handles s) i) as [[b [| |]]|] eqn:H; auto. cbn [logouts with_handles] in L.
    destruct (_ && _); auto. destruct (a_sid _); auto. apply in_app_iff in L. destruct L as [L|[<-|[]]]; auto. right. exists i. auto.
  - destruct (nth_error (handles s) i) as [[b [| |]]|]; auto.
Qed.
(* a handle is dropped with no other drop of the same session under way: the session is
   logged out exactly if no other handle has it, it has an id and it is the current one *)
Theorem C108_drop : forall s i a, live s i a -> (forall j p, nth_error (handles s) j = Some (a, p) -> p <> Dropping) -> ~ logged_out s a ->
  logged_out (step s (DropStart i)) a <->
  (forall j, live s j a -> j = i) /\ a_sid (arc_at s a) <> None /\ current s a = true.
Proof.
  unfold live, logged_out. intros s i a L ND NO. cbn [step]. rewrite L. cbn [logouts with_handles].
  assert (CO : strong_count s a = 1%nat <-> forall j, nth_error (handles s) j = Some (a, Live) -> j = i).
  { unfold strong_count. rewrite (count_one a (handles s) i Live L ltac:(discriminate)). split.
    - intros U j J. apply (U j Live J). discriminate.
    - intros U j q J NQ. destruct q; [apply U, J|exfalso; exact (ND _ _ J eq_refl)|congruence]. }
  destruct (current s a) eqn:C; cbn [andb].
  2: { split; [contradiction|intros (_ & _ & X); discriminate]. }
  destruct (Nat.eqb (strong_count s a) 1) eqn:T.
  - apply Nat.eqb_eq in T. destruct (a_sid (arc_at s a)) as [sid|].
    + split; [|intros _; apply in_app_iff; right; left; reflexivity]. intros _. split; [apply CO, T|]. split; [discriminate|reflexivity].
    + split; [contradiction|intros (_ & X & _); congruence].
  - apply Nat.eqb_neq in T. split; [contradiction|]. intros (U & _). exfalso. apply T, CO, U.
Qed.
(* but two handles dropped at the same time can each see the other: the session is never
   logged out, although the connection is the one it was made on *)
Theorem C108_race_refuted : exists l s, s = run new_client l /\ connected s = true /\
  (forall i p, nth_error (handles s) i = Some (1%nat, p) -> p = Gone) /\
  a_sid (arc_at s 1) = Some 7 /\ current s 1 = true /\ a_made (arc_at s 1) = counter s /\
  (exists l', l' = [DropStart 1; DropEnd 1; DropStart 2; DropEnd 2] /\ logged_out (run (run new_client [Request; Answer 7; Finish 0; Clone 1]) l') 1) /\
  forall l', ~ logged_out (run s l') 1.
Proof.
  exists [Request; Answer 7; Finish 0; Clone 1; DropStart 1; DropStart 2; DropEnd 1; DropEnd 2]. eexists. split; [reflexivity|].
  split; [reflexivity|]. split.
  - intros [|[|[|[|i]]]] p H; vm_compute in H; try discriminate; injection H as <-; reflexivity.
  - split; [reflexivity|]. split; [reflexivity|]. split; [reflexivity|]. split.
    + eexists. split; [reflexivity|]. vm_compute. auto.
    + assert (G : forall l' s, (1 < length (arcs s))%nat -> ~ logged_out s 1 -> (forall i p, nth_error (handles s) i = Some (1%nat, p) -> p = Gone) -> ~ logged_out (run s l') 1).
      { induction l' as [|e r IH]; intros s LA NO NH; [exact NO|]. cbn [run fold_left]. apply (IH (step s e)).
        - destruct (step_arc_len s e). lia.
        - unfold logged_out in *. destruct e as [| |sid|n|i|i|i]; cbn [step]; auto; try assumption.
          + destruct (connected s); auto; try assumption.
          + destruct (connected s); auto; try assumption.
          + destruct (nth_error (answers s) n) as [[[? ?]|]|]; auto; try assumption.
          + destruct (nth_error (handles s) i) as [[b [| |]]|]; auto; try assumption.
          + destruct (nth_error (handles s) i) as [[b [| |]]|] eqn:J; auto; try assumption. cbn [logouts with_handles]. destruct (_ && _); auto. destruct (a_sid _); auto; try assumption.
            intros X. apply in_app_iff in X. destruct X as [X|[->|[]]]; [auto|]. discriminate (NH _ _ J).
          + destruct (nth_error (handles s) i) as [[b [| |]]|]; auto; try assumption.
        - intros j p. destruct e as [| |sid|n|i|i|i]; cbn [step]; try exact (NH j p).
          + destruct (connected s); exact (NH j p).
          + destruct (connected s); exact (NH j p).
          + destruct (nth_error (answers s) n) as [[[? ?]|]|]; try exact (NH j p). cbn [handles]. intros J. apply app_at in J. destruct J as [J|[_ J]]; [exact (NH _ _ J)|]. injection J as J _. lia.
          + destruct (nth_error (handles s) i) as [[b [| |]]|] eqn:Q; try exact (NH j p). cbn [handles with_handles]. intros J. apply app_at in J. destruct J as [J|[_ J]]; [exact (NH _ _ J)|].
            injection J as <- ->. discriminate (NH _ _ Q).
          + destruct (nth_error (handles s) i) as [[b [| |]]|] eqn:Q; try exact (NH j p). cbn [handles with_handles]. intros J. destruct (Nat.eq_dec i j) as [->|NE].
            * rewrite put_same in J by exact (in_range _ _ _ Q). injection J as -> <-. discriminate (NH _ _ Q).
            * rewrite put_other in J by exact NE. exact (NH _ _ J).
          + destruct (nth_error (handles s) i) as [[b [| |]]|] eqn:Q; try exact (NH j p). cbn [handles with_handles]. intros J. destruct (Nat.eq_dec i j) as [->|NE].
            * rewrite put_same in J by exact (in_range _ _ _ Q). congruence.
            * rewrite put_other in J by exact NE. exact (NH _ _ J). }
      intros l'. apply G; [vm_compute; lia|vm_compute; auto|].
      intros [|[|[|[|i]]]] p H; vm_compute in H; try discriminate; injection H as <-; reflexivity.
Qed.

(* the session is reported as long as the client has not connected again since the server
   made it; a reported session was tagged with the latest connection *)
Theorem C108_reported : forall s i a, reachable s -> live s i a -> a_made (arc_at s a) = counter s -> session s i = Some (a_sid (arc_at s a)).
Proof.
  intros s i a R L M. unfold session. rewrite L. unfold current. destruct (a_sid (arc_at s a)) as [sid|] eqn:A; [|reflexivity].
  pose proof (k_made s (reachable_ok s R) a (k_arc s (reachable_ok s R) _ _ _ L)) as B.
  replace (counter s =? a_tag (arc_at s a)) with true by (symmetry; apply N.eqb_eq; lia). reflexivity.
Qed.
Lemma step_mono s e : counter s <= counter (step s e).
Proof.
  destruct e as [| |sid|n|i|i|i]; cbn [step]; try (destruct (nth_error (handles s) i) as [[? [| |]]|]; cbn; lia); try (cbn; lia).
  - destruct (connected s); cbn; lia.
  - destruct (connected s); cbn; lia.
  - destruct (nth_error (answers s) n) as [[[? ?]|]|]; cbn; lia.
Qed.
Lemma run_mono l : forall s, counter s <= counter (run s l).
Proof. induction l as [|e r IH]; intros s; [reflexivity|]. cbn [run fold_left]. etransitivity; [apply (step_mono s e)|apply IH]. Qed.
Lemma step_handle s e i a p : nth_error (handles s) i = Some (a, p) -> exists q, nth_error (handles (step s e)) i = Some (a, q).
Proof.
  intros H. assert (AP : forall x, nth_error (handles s ++ [x]) i = Some (a, p)) by (intros x; rewrite nth_error_app1; [exact H|exact (in_range _ _ _ H)]).
  assert (PU : forall j b q, nth_error (handles s) j = Some (b, q) -> forall r, exists q', nth_error (put j (b, r) (handles s)) i = Some (a, q')).
  { intros j b q J r. destruct (Nat.eq_dec j i) as [->|NE].
    - rewrite put_same by exact (in_range _ _ _ H). exists r. congruence.
    - rewrite put_other by exact NE. eauto. }
  destruct e as [| |sid|n|j|j|j]; cbn [step]; eauto.
  - destruct (connected s); eauto.
  - destruct (connected s); eauto.
  - destruct (nth_error (answers s) n) as [[[? ?]|]|]; cbn [handles]; eauto.
  - destruct (nth_error (handles s) j) as [[b [| |]]|]; cbn [handles with_handles]; eauto.
  - destruct (nth_error (handles s) j) as [[b [| |]]|] eqn:J; cbn [handles with_handles]; eauto.
  - destruct (nth_error (handles s) j) as [[b [| |]]|] eqn:J; cbn [handles with_handles]; eauto.
Qed.
Lemma step_arc s e a : (a < length (arcs s))%nat -> arc_at (step s e) a = arc_at s a /\ (a < length (arcs (step s e)))%nat.
Proof.
  intros L. destruct e as [| |sid|n|j|j|j]; cbn [step]; auto.
  - destruct (connected s); auto.
  - destruct (connected s); auto.
  - destruct (nth_error (answers s) n) as [[[? ?]|]|]; auto. unfold arc_at. cbn [arcs]. rewrite arc_at_app by (try exact []; exact L). rewrite app_length. split; [reflexivity|lia].
  - destruct (nth_error (handles s) j) as [[b [| |]]|]; auto.
  - destruct (nth_error (handles s) j) as [[b [| |]]|]; auto.
  - destruct (nth_error (handles s) j) as [[b [| |]]|]; auto.
Qed.
Lemma run_arc l : forall s a, (a < length (arcs s))%nat -> arc_at (run s l) a = arc_at s a.
Proof. induction l as [|e r IH]; intros s a L; [reflexivity|]. cbn [run fold_left]. destruct (step_arc s e a L) as [E L']. rewrite <- E. apply IH, L'. Qed.
Lemma run_handle l : forall s i a p, nth_error (handles s) i = Some (a, p) -> exists q, nth_error (handles (run s l)) i = Some (a, q).
Proof. induction l as [|e r IH]; intros s i a p H; [eauto|]. destruct (step_handle s e i a p H) as [q Q]. exact (IH _ _ _ _ Q). Qed.
(* once the client has connected again, an authenticated session is not reported any more *)
Theorem C108_gone_after_reconnect : forall s l i a sid, reachable s -> live s i a -> a_sid (arc_at s a) = Some sid ->
  counter s < counter (run s l) -> session (run s l) i = None.
Proof.
  intros s l i a sid R L A C. destruct (run_handle l s i a Live L) as [q Q]. unfold session. rewrite Q. destruct q; try reflexivity.
  unfold current. pose proof (k_arc s (reachable_ok s R) _ _ _ L) as LA. rewrite (run_arc l s a LA), A.
  pose proof (k_made s (reachable_ok s R) a LA) as B. replace (counter (run s l) =? a_tag (arc_at s a)) with false; [reflexivity|].
  symmetry. apply N.eqb_neq. lia.
Qed.
(* but the connection may have been replaced between the server's answer and the reading of
   the counter: the session is then taken for one of the new connection, on which the server
   does not know it *)
Theorem C108_stale_refuted : exists l s i, s = run new_client l /\ connected s = true /\ session s i = Some (Some 7) /\
  exists a, live s i a /\ a_made (arc_at s a) < counter s.
Proof.
  exists [Request; Answer 7; Lost; Request; Finish 0]. eexists. exists 1%nat. split; [reflexivity|]. split; [reflexivity|]. split; [reflexivity|].
  exists 1%nat. split; reflexivity.
Qed.
(* and after the connection is lost the session is reported until the next request *)
Theorem C108_lost_refuted : exists l s i, s = run new_client l /\ connected s = false /\ session s i = Some (Some 7) /\ session (step s Request) i = None.
Proof. exists [Request; Answer 7; Finish 0; Lost]. eexists. exists 1%nat. repeat split. Qed.

Example C108_ex : let s := run new_client [Request; Answer 7; Finish 0; Clone 1] in
  reachable s /\ live s 1 1 /\ live s 2 1 /\ a_made (arc_at s 1) = counter s /\ session s 1 = Some (Some 7) /\ ~ logged_out s 1 /\
  logouts (run s [DropStart 1; DropEnd 1]) = [] /\ logouts (run s [DropStart 1; DropEnd 1; DropStart 2; DropEnd 2]) = [1%nat] /\
  logouts (run s [Lost; Request; DropStart 1; DropEnd 1; DropStart 2; DropEnd 2]) = [] /\
  counter s < counter (run s [Lost; Request]) /\ logouts (run s [DropStart 0; DropEnd 0]) = [].
Proof. split; [eexists; reflexivity|]. vm_compute. repeat match goal with |- _ /\ _ => split end; try reflexivity. intros []. Qed.

Print Assumptions C108_at_most_once.
Print Assumptions C108_not_in_use.
Print Assumptions C108_only_drops.
Print Assumptions C108_drop.
Print Assumptions C108_race_refuted.
Print Assumptions C108_reported.
Print Assumptions C108_gone_after_reconnect.
Print Assumptions C108_stale_refuted.
Print Assumptions C108_lost_refuted.
