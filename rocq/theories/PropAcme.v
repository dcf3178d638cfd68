(* C104. The task that keeps the certificate renewed (Acme.v). *)
From Verif Require Import Base Acme.
From Coq Require Import Lia ZifyBool.
Local Open Scope Z_scope.

(* no task of [s] is more than [delta] late when [d] more seconds pass, and no order takes
   longer than [slow] *)
Definition in_time {K} (delta slow d : Z) (s : state K) : Prop :=
  Forall (fun p : nat * place K => match snd p with
                      | Top since => now s + d <= since + delta
                      | Asleep _ wake => now s + d <= wake + delta
                      | Ordering since => now s + d <= since + slow
                      | Over => True
                      end) (tasks s).
Fixpoint prompt {K} (left : option K -> Z -> Z) (delta slow : Z) (l : list (event K)) (s : state K) : Prop :=
  match l with
  | [] => True
  | e :: r => match e with EPass d => in_time delta slow d s | _ => True end /\
              match step left e s with Some s' => prompt left delta slow r s' | None => True end
  end.
(* the time left passes no faster than the clock *)
Definition clockwise {K} (left : option K -> Z -> Z) : Prop := forall k t d, 0 <= d -> left k t - d <= left k (t + d).

Section S.
Context {K : Type} (left : option K -> Z -> Z).
Notation run := (run left). Notation step := (step left).
Implicit Types (s : state K) (l : list (event K)) (i j : nat) (p : place K).

Lemma run_app l1 : forall l2 s, run (l1 ++ l2) s = match run l1 s with Some s' => run l2 s' | None => None end.
Proof. induction l1 as [|e l1 IH]; intros l2 s; [reflexivity|]. cbn [app Acme.run]. destruct (step e s); [apply IH|reflexivity]. Qed.

Lemma find_set i j p (t : list (nat * place K)) :
  find (fun q => Nat.eqb (fst q) j) (set_place i p t) =
  match find (fun q => Nat.eqb (fst q) j) t with Some q => Some (if Nat.eqb i j then (i, p) else q) | None => None end.
Proof.
  induction t as [|[k q] t IH]; [reflexivity|]. cbn [set_place map find fst snd]. unfold set_place in IH.
  destruct (Nat.eqb_spec k i) as [->|NE]; cbn [fst].
  - destruct (Nat.eqb_spec i j) as [->|NJ]; [reflexivity|exact IH].
  - destruct (Nat.eqb_spec k j) as [->|NJ]; [destruct (Nat.eqb_spec i j); [congruence|reflexivity]|exact IH].
Qed.
Lemma place_set i j p s0 a b c t : place_of j (mk_state a b c (set_place i p (tasks s0)) t) =
  match place_of j s0 with Some q => Some (if Nat.eqb i j then p else q) | None => None end.
Proof. unfold place_of. cbn [tasks]. rewrite find_set. destruct (find _ (tasks s0)) as [q|]; [|reflexivity]. destruct (Nat.eqb i j); reflexivity. Qed.

(* ---------- an order is begun only for a certificate that was served and is due ---------- *)
Definition own (e : event K) (i : nat) : bool := match e with EStep j | EIssued j _ | EFail j _ => Nat.eqb i j | _ => false end.
Lemma step_place e s s' j : step e s = Some s' -> own e j = false ->
  (place_of j s' = place_of j s \/ (place_of j s = None /\ e = EListen j)).
Proof.
  intros E O.
  assert (SP : forall i p a b c d, Nat.eqb j i = false -> place_of j (mk_state a b c (set_place i p (tasks s)) d) = place_of j s).
  { intros i p a b c d N. unfold place_of. cbn [tasks]. rewrite find_set, Nat.eqb_sym, N. destruct (find _ (tasks s)); reflexivity. }
  destruct e as [i|d|k|i|i n k|i k|i o]; cbn [step Acme.step own] in *.
  - destruct (place_of i s) eqn:P; [discriminate|]. injection E as <-. destruct (Nat.eqb_spec i j) as [->|NE]; [right; auto|left].
    unfold place_of. cbn [tasks find fst]. destruct (Nat.eqb_spec i j); [congruence|reflexivity].
  - destruct (d <? 0); [discriminate|]. injection E as <-. left. reflexivity.
  - injection E as <-. left. reflexivity.
  - left. assert (L : forall k, place_of j (look left i k s) = place_of j s) by (intros k; unfold look, at_place; destruct (two_weeks <? left k (now s)); apply SP, O).
    destruct (place_of i s) as [[since|k wake|since|]|]; try discriminate; [injection E as <-; apply L|]. destruct (wake <=? now s); [|discriminate]. injection E as <-. apply L.
  - left. destruct (place_of i s) as [[since|k' wake|since|]|]; try discriminate. injection E as <-. reflexivity.
  - left. destruct (place_of i s) as [[since|k' wake|since|]|]; try discriminate. injection E as <-. apply SP, O.
  - left. destruct (place_of i s) as [[since|k' wake|since|]|]; try discriminate. injection E as <-. apply SP, O.
Qed.
Lemma step_now e s s' : step e s = Some s' -> now s <= now s'.
Proof.
  destruct e as [i|d|k|i|i n k|i k|i o]; cbn [Acme.step]; intros E.
  - destruct (place_of i s); [discriminate|]. injection E as <-. cbn. lia.
  - destruct (Z.ltb_spec d 0); [discriminate|]. injection E as <-. cbn. lia.
  - injection E as <-. cbn. lia.
  - assert (L : forall k, now (look left i k s) = now s) by (intros k; unfold look, at_place; destruct (two_weeks <? left k (now s)); reflexivity).
    destruct (place_of i s) as [[since|k wake|since|]|]; try discriminate; [injection E as <-; rewrite L; lia|]. destruct (wake <=? now s); [|discriminate]. injection E as <-. rewrite L. lia.
  - destruct (place_of i s) as [[since|k' wake|since|]|]; try discriminate. injection E as <-. cbn. lia.
  - destruct (place_of i s) as [[since|k' wake|since|]|]; try discriminate. injection E as <-. cbn. lia.
  - destruct (place_of i s) as [[since|k' wake|since|]|]; try discriminate. injection E as <-. cbn. lia.
Qed.
(* [k] was served at some moment of the run, not after [t] *)
Definition was_served (l : list (event K)) (s0 : state K) (k : option K) (t : Z) : Prop :=
  exists l1 l2 s1, l = l1 ++ l2 /\ run l1 s0 = Some s1 /\ served s1 = k /\ now s1 <= t.
Lemma was_more l e s0 k t : was_served l s0 k t -> was_served (l ++ [e]) s0 k t.
Proof. intros (l1 & l2 & s1 & -> & R). exists l1, (l2 ++ [e]), s1. split; [rewrite app_assoc; reflexivity|exact R]. Qed.

Theorem C104_only_when_due : forall t0 l s o, run l (init t0) = Some s -> In o (orders s) ->
  left (o_for o) (o_at o) <= 14 * 24 * 3600 /\ was_served l (init t0) (o_for o) (o_at o) /\ o_at o <= now s.
Proof.
  intros t0 l s o. enough (G : run l (init t0) = Some s ->
    (forall o, In o (orders s) -> left (o_for o) (o_at o) <= 14 * 24 * 3600 /\ was_served l (init t0) (o_for o) (o_at o) /\ o_at o <= now s) /\
    (forall i k wake, place_of i s = Some (Asleep k wake) -> was_served l (init t0) k (now s))).
  { intros R. apply (proj1 (G R)). }
  clear o. revert s. induction l as [|e l IH] using rev_ind; intros s R.
  - cbn in R. injection R as <-. split; [intros o []|]. intros i k wake. cbn. discriminate.
  - rewrite run_app in R. destruct (run l (init t0)) as [s1|] eqn:R1; [|discriminate]. cbn [Acme.run] in R. destruct (step e s1) as [s2|] eqn:E; [|discriminate]. injection R as ->.
    destruct (IH _ eq_refl) as (IO & IA). pose proof (step_now _ _ _ E) as NW.
    assert (OLD : forall o, In o (orders s1) -> left (o_for o) (o_at o) <= 14 * 24 * 3600 /\ was_served (l ++ [e]) (init t0) (o_for o) (o_at o) /\ o_at o <= now s).
    { intros o I. destruct (IO o I) as (A & B & C). repeat split; [exact A|apply was_more, B|lia]. }
    assert (OLDA : forall i k wake, place_of i s1 = Some (Asleep k wake) -> was_served (l ++ [e]) (init t0) k (now s)).
    { intros i k wake P. destruct (IA i k wake P) as (l1 & l2 & s3 & -> & X & Y & Z0). exists l1, (l2 ++ [e]), s3. rewrite app_assoc. repeat split; try assumption. lia. }
    assert (LK : forall i k, s = look left i k s1 -> was_served (l ++ [e]) (init t0) k (now s1) ->
      (forall o, In o (orders s) -> left (o_for o) (o_at o) <= 14 * 24 * 3600 /\ was_served (l ++ [e]) (init t0) (o_for o) (o_at o) /\ o_at o <= now s) /\
      (forall i k wake, place_of i s = Some (Asleep k wake) -> was_served (l ++ [e]) (init t0) k (now s))).
    { intros i k Q W. assert (NS : now s = now s1) by (rewrite Q; unfold look, at_place; destruct (two_weeks <? left k (now s1)); reflexivity).
      assert (Q' := Q). unfold look, at_place in Q. destruct (Z.ltb_spec two_weeks (left k (now s1))) as [L|L]; split.
      - intros o I. apply OLD. rewrite Q in I. exact I.
      - intros j k' wake P. rewrite Q in P. rewrite place_set in P. destruct (place_of j s1) as [q|] eqn:PJ; [|discriminate].
        destruct (Nat.eqb i j); [|injection P as ->; eapply OLDA; exact PJ]. injection P as <- _. rewrite NS. exact W.
      - intros o I. rewrite Q in I. cbn [orders] in I. destruct I as [<-|I]; [|apply OLD, I]. cbn [o_for o_at]. split; [unfold two_weeks in L; lia|]. split; [exact W|lia].
      - intros j k' wake P. rewrite Q in P. rewrite place_set in P. destruct (place_of j s1) as [q|] eqn:PJ; [|discriminate].
        destruct (Nat.eqb i j); [discriminate|]. injection P as ->. eapply OLDA; exact PJ. }
    destruct (match e with EStep i => true | _ => false end) eqn:ES.
    + destruct e as [|?|?|i|? ? ?|? ?|? ?]; try discriminate. cbn [Acme.step] in E. destruct (place_of i s1) as [[since|k wake|since|]|] eqn:P; try discriminate.
      * injection E as <-. apply (LK i (served s1) eq_refl). exists l, [EStep i], s1. repeat split; [exact R1|lia].
      * destruct (wake <=? now s1); [|discriminate]. injection E as <-. apply (LK i k eq_refl). destruct (IA i k wake P) as (l1 & l2 & s3 & -> & X & Y & Z0). exists l1, (l2 ++ [EStep i]), s3. rewrite app_assoc. repeat split; assumption.
    + assert (OS : orders s = orders s1).
      { destruct e as [i|d|k|i|i n k|i k|i o]; cbn [Acme.step] in E; try discriminate ES.
        - destruct (place_of i s1); [discriminate|]. injection E as <-. reflexivity.
        - destruct (d <? 0); [discriminate|]. injection E as <-. reflexivity.
        - injection E as <-. reflexivity.
        - destruct (place_of i s1) as [[]|]; try discriminate. injection E as <-. reflexivity.
        - destruct (place_of i s1) as [[]|]; try discriminate. injection E as <-. reflexivity.
        - destruct (place_of i s1) as [[]|]; try discriminate. injection E as <-. reflexivity. }
      rewrite OS. split; [exact OLD|]. intros i k wake P. destruct (own e i) eqn:OW.
      * exfalso. destruct e as [j|d|k0|j|j n k0|j k0|j o]; try discriminate; cbn [own] in OW; apply Nat.eqb_eq in OW; subst j; cbn [Acme.step] in E;
          destruct (place_of i s1) as [[]|] eqn:P1; try discriminate; injection E as <-; unfold place_of in P; cbn [tasks] in P; rewrite find_set, Nat.eqb_refl in P;
          unfold place_of in P1; destruct (find _ (tasks s1)); discriminate.
      * destruct (step_place _ _ _ i E OW) as [X|(X & ->)]; [rewrite X in P; eapply OLDA; exact P|].
        exfalso. cbn [Acme.step] in E. rewrite X in E. injection E as <-. unfold place_of in P. cbn [tasks find fst] in P. rewrite Nat.eqb_refl in P. discriminate.
Qed.

(* a task whose order failed is gone: it never orders again, whatever happens *)
Theorem C104_failure_refuted : forall l s s' i, place_of i s = Some Over -> run l s = Some s' ->
  place_of i s' = Some Over /\ filter (fun o => Nat.eqb (o_task o) i) (orders s') = filter (fun o => Nat.eqb (o_task o) i) (orders s).
Proof.
  induction l as [|e l IH]; intros s s' i P R; [cbn in R; injection R as <-; auto|]. cbn [Acme.run] in R. destruct (step e s) as [s1|] eqn:E; [|discriminate].
  assert (O : own e i = false).
  { destruct e as [j|d|k|j|j n k|j k|j o]; try reflexivity; cbn [own]; destruct (Nat.eqb_spec i j) as [<-|]; try reflexivity; cbn [Acme.step] in E; rewrite P in E; discriminate. }
  assert (P1 : place_of i s1 = Some Over) by (destruct (step_place _ _ _ i E O) as [X|(X & _)]; congruence).
  destruct (IH _ _ _ P1 R) as (A & B). split; [exact A|]. rewrite B. clear IH A B R.
  destruct e as [j|d|k|j|j n k|j k|j o]; cbn [Acme.step own] in *.
  - destruct (place_of j s); [discriminate|]. injection E as <-. reflexivity.
  - destruct (d <? 0); [discriminate|]. injection E as <-. reflexivity.
  - injection E as <-. reflexivity.
  - assert (L : forall k, filter (fun o => Nat.eqb (o_task o) i) (orders (look left j k s)) = filter (fun o => Nat.eqb (o_task o) i) (orders s)).
    { intros k. unfold look, at_place. destruct (two_weeks <? left k (now s)); [reflexivity|]. cbn [orders filter o_task]. rewrite Nat.eqb_sym, O. reflexivity. }
    destruct (place_of j s) as [[]|]; try discriminate; [injection E as <-; apply L|]. destruct (wake <=? now s); [|discriminate]. injection E as <-. apply L.
  - destruct (place_of j s) as [[]|]; try discriminate. injection E as <-. reflexivity.
  - destruct (place_of j s) as [[]|]; try discriminate. injection E as <-. reflexivity.
  - destruct (place_of j s) as [[]|]; try discriminate. injection E as <-. reflexivity.
Qed.
(* a failed order ends its task, and changes what is served only if it got as far as that *)
Theorem C104_failed_order : forall i s since o, place_of i s = Some (Ordering since) ->
  exists s', step (EFail i o) s = Some s' /\ place_of i s' = Some Over /\ orders s' = orders s /\ (forall j, j <> i -> place_of j s' = place_of j s).
Proof.
  intros i s since o P. cbn [Acme.step]. rewrite P. eexists. split; [reflexivity|]. split; [rewrite place_set, P, Nat.eqb_refl; reflexivity|]. split; [reflexivity|].
  intros j N. rewrite place_set. destruct (place_of j s) as [q|]; [|reflexivity]. destruct (Nat.eqb_spec i j); [congruence|reflexivity].
Qed.
(* what is served is what was installed last, by a call, a finished order or one that failed after it *)
Fixpoint last_served (l : list (event K)) (d : option K) : option K :=
  match l with [] => d | EServe k :: r | EIssued _ k :: r | EFail _ (Some k) :: r => last_served r (Some k) | _ :: r => last_served r d end.
Theorem C104_served : forall l s s', run l s = Some s' -> served s' = last_served l (served s).
Proof.
  induction l as [|e l IH]; intros s s' R; [cbn in R; injection R as <-; reflexivity|]. cbn [Acme.run] in R. destruct (step e s) as [s1|] eqn:E; [|discriminate].
  rewrite (IH s1 s' R). clear IH R. destruct e as [j|d|k|j|j n k|j k|j o]; cbn [Acme.step last_served] in *.
  - destruct (place_of j s); [discriminate|]. injection E as <-. reflexivity.
  - destruct (d <? 0); [discriminate|]. injection E as <-. reflexivity.
  - injection E as <-. reflexivity.
  - f_equal. assert (L : forall k, served (look left j k s) = served s) by (intros k; unfold look, at_place; destruct (two_weeks <? left k (now s)); reflexivity).
    destruct (place_of j s) as [[]|]; try discriminate; [injection E as <-; apply L|]. destruct (wake <=? now s); [|discriminate]. injection E as <-. apply L.
  - destruct (place_of j s) as [[]|]; try discriminate. injection E as <-. reflexivity.
  - destruct (place_of j s) as [[]|]; try discriminate. injection E as <-. reflexivity.
  - destruct (place_of j s) as [[]|]; try discriminate. injection E as <-. destruct o; reflexivity.
Qed.
(* while it waits, only the key it cloned counts: whatever is served meanwhile, it does
   nothing as long as that key is not due *)
Theorem C104_stale_refuted : forall l s s' i k wake, place_of i s = Some (Asleep k wake) -> run l s = Some s' ->
  (forall t, now s <= t <= now s' -> 14 * 24 * 3600 < left k t) ->
  (exists wake', place_of i s' = Some (Asleep k wake')) /\
  filter (fun o => Nat.eqb (o_task o) i) (orders s') = filter (fun o => Nat.eqb (o_task o) i) (orders s).
Proof.
  induction l as [|e l IH]; intros s s' i k wake P R L; [cbn in R; injection R as <-; eauto|]. cbn [Acme.run] in R. destruct (step e s) as [s1|] eqn:E; [|discriminate].
  pose proof (step_now _ _ _ E) as N1.
  assert (N2 : now s1 <= now s').
  { clear -R. revert s1 R. induction l as [|e l IH]; intros s1 R; [cbn in R; injection R as <-; lia|]. cbn [Acme.run] in R. destruct (step e s1) as [s2|] eqn:E; [|discriminate].
    pose proof (step_now _ _ _ E). specialize (IH _ R). lia. }
  enough (G : (exists w, place_of i s1 = Some (Asleep k w)) /\ filter (fun o => Nat.eqb (o_task o) i) (orders s1) = filter (fun o => Nat.eqb (o_task o) i) (orders s)).
  { destruct G as ((w & P1) & B). destruct (IH _ _ _ _ _ P1 R) as (A' & B'); [intros t T; apply L; lia|]. split; [exact A'|congruence]. }
  destruct (own e i) eqn:O.
  - destruct e as [j|d|k0|j|j n k0|j k0|j o]; try discriminate; cbn [own] in O; apply Nat.eqb_eq in O; subst j; cbn [Acme.step] in E; rewrite P in E; try discriminate.
    destruct (wake <=? now s); [|discriminate]. injection E as <-. unfold look, at_place in *. specialize (L (now s) ltac:(lia)).
    destruct (Z.ltb_spec two_weeks (left k (now s))) as [_|Q]; [|unfold two_weeks in Q; lia]. split; [|reflexivity]. eexists. rewrite place_set, P, Nat.eqb_refl. reflexivity.
  - split; [exists wake; destruct (step_place _ _ _ i E O) as [X|(X & _)]; congruence|].
    destruct e as [j|d|k0|j|j n k0|j k0|j o]; cbn [Acme.step own] in *.
    + destruct (place_of j s); [discriminate|]. injection E as <-. reflexivity.
    + destruct (d <? 0); [discriminate|]. injection E as <-. reflexivity.
    + injection E as <-. reflexivity.
    + assert (LL : forall k, filter (fun o => Nat.eqb (o_task o) i) (orders (look left j k s)) = filter (fun o => Nat.eqb (o_task o) i) (orders s)).
      { intros k1. unfold look, at_place. destruct (two_weeks <? left k1 (now s)); [reflexivity|]. cbn [orders filter o_task]. rewrite Nat.eqb_sym, O. reflexivity. }
      destruct (place_of j s) as [[]|]; try discriminate; [injection E as <-; apply LL|]. destruct (wake0 <=? now s); [|discriminate]. injection E as <-. apply LL.
    + destruct (place_of j s) as [[]|]; try discriminate. injection E as <-. reflexivity.
    + destruct (place_of j s) as [[]|]; try discriminate. injection E as <-. reflexivity.
    + destruct (place_of j s) as [[]|]; try discriminate. injection E as <-. reflexivity.
Qed.
(* a certificate that is due the moment it is issued is ordered again at once, without end *)
Theorem C104_short_refuted : forall n i k s since, place_of i s = Some (Ordering since) -> left (Some k) (now s) <= 14 * 24 * 3600 ->
  exists s', run (concat (repeat [EIssued i k; EStep i] n)) s = Some s' /\ now s' = now s /\ (exists since', place_of i s' = Some (Ordering since')) /\
    length (orders s') = (n + length (orders s))%nat.
Proof.
  induction n as [|n IH]; intros i k s since P L; [exists s; cbn; eauto|]. cbn [repeat concat app Acme.run Acme.step]. rewrite P.
  rewrite place_set, P, Nat.eqb_refl. cbn [served]. unfold look. cbn [now]. destruct (Z.ltb_spec two_weeks (left (Some k) (now s))) as [Q|_]; [unfold two_weeks in Q; lia|].
  match goal with |- exists s', Acme.run left _ ?s1 = _ /\ _ => destruct (IH i k s1 (now s)) as (s' & R & N1 & PP & LN) end.
  - unfold place_of. cbn [tasks served keys now orders]. rewrite !find_set. unfold place_of in P. destruct (find _ (tasks s)); [|discriminate]. rewrite Nat.eqb_refl. reflexivity.
  - exact L.
  - exists s'. split; [exact R|]. split; [exact N1|]. split; [exact PP|]. rewrite LN. cbn [orders length]. lia.
Qed.

(* ---------- in time ---------- *)
(* the certificate a task watches never comes closer than an hour and its delay below the two
   weeks without an order being under way *)
Theorem C104_in_time : forall delta slow t0 l s i k wake, clockwise left -> 0 <= delta ->
  run l (init t0) = Some s -> prompt left delta slow l (init t0) -> In (i, Asleep k wake) (tasks s) ->
  14 * 24 * 3600 - 3600 - delta < left k (now s).
Proof.
  intros delta slow t0 l s i k wake CW D0. set (J := fun s : state K => forall i k wake, In (i, Asleep k wake) (tasks s) ->
    exists t, wake = t + 3600 /\ t <= now s /\ two_weeks < left k t /\ now s <= wake + delta).
  assert (G : forall l s, J s -> forall s', run l s = Some s' -> prompt left delta slow l s -> J s').
  { clear l s i k wake. induction l as [|e l IH]; intros s JS s' R PR; [cbn in R; injection R as <-; exact JS|]. cbn [Acme.run prompt] in *. destruct PR as (PE & PR). destruct (step e s) as [s1|] eqn:E; [|discriminate].
    apply (IH s1); [|exact R|exact PR]. clear IH R PR.
    assert (SET : forall i p o a b, (match p with Asleep k w => exists t, w = t + 3600 /\ t <= now s /\ two_weeks < left k t /\ now s <= w + delta | _ => True end) ->
      J (mk_state (now s) a b (set_place i p (tasks s)) o)).
    { intros i p o a b Q j k w I. cbn [tasks now] in *. unfold set_place in I. apply in_map_iff in I as ([j0 q] & X & I). cbn [fst] in X. destruct (Nat.eqb j0 i).
      - injection X as <- ->. exact Q.
      - injection X as -> ->. apply (JS j k w I). }
    assert (LK : forall i k, J (look left i k s)).
    { intros i k. unfold look, at_place. destruct (Z.ltb_spec two_weeks (left k (now s))) as [L|L]; apply SET; [|exact I]. exists (now s). unfold one_hour. repeat split; lia. }
    destruct e as [i|d|k|i|i n k|i k|i o]; cbn [Acme.step] in E.
    - destruct (place_of i s); [discriminate|]. injection E as <-. intros j k w [I|I]; [discriminate|]. apply (JS j k w I).
    - destruct (Z.ltb_spec d 0); [discriminate|]. injection E as <-. intros j k w I. cbn [tasks now] in *. destruct (JS j k w I) as (t & A & B & C & F).
      exists t. unfold in_time in PE. rewrite Forall_forall in PE. specialize (PE _ I). cbn [snd] in PE. repeat split; try lia.
    - injection E as <-. exact JS.
    - destruct (place_of i s) as [[since|k wake|since|]|]; try discriminate; [injection E as <-; apply LK|]. destruct (wake <=? now s); [|discriminate]. injection E as <-. apply LK.
    - destruct (place_of i s) as [[]|]; try discriminate. injection E as <-. exact JS.
    - destruct (place_of i s) as [[]|]; try discriminate. injection E as <-. apply SET. exact I.
    - destruct (place_of i s) as [[]|]; try discriminate. injection E as <-. apply SET. exact I. }
  intros R PR IN. destruct (G l (init t0) (fun _ _ _ I => match I with end) s R PR i k wake IN) as (t & A & B & C & F).
  pose proof (CW k t (now s - t) ltac:(lia)) as X. replace (t + (now s - t)) with (now s) in X by lia. unfold two_weeks in C. lia.
Qed.

(* one listener, certificates installed by its orders alone, none of which fails: the served
   certificate never has less time left than this, for ever *)
Fixpoint lasting (life : Z) (l : list (event K)) (s : state K) : Prop :=
  match l with
  | [] => True
  | e :: r => match e with EListen _ | EServe _ | EFail _ _ => False | EIssued _ k => life <= left (Some k) (now s) | _ => True end /\
              match step e s with Some s' => lasting life r s' | None => True end
  end.
Theorem C104_kept : forall delta slow life i s0 l s, clockwise left -> 0 <= delta -> 0 <= slow ->
  tasks s0 = [(i, Top (now s0))] -> life <= left (served s0) (now s0) ->
  run l s0 = Some s -> prompt left delta slow l s0 -> lasting life l s0 ->
  Z.min (14 * 24 * 3600 - 3600 - delta) (life - delta) - slow <= left (served s) (now s) /\
  exists p, tasks s = [(i, p)] /\ p <> Over.
Proof.
  intros delta slow life i s0 l s CW D0 S0 T0 L0. set (B := Z.min (14 * 24 * 3600 - 3600 - delta) (life - delta)).
  set (J := fun s : state K => exists p, tasks s = [(i, p)] /\
    match p with
    | Top since => since <= now s <= since + delta /\ life - (now s - since) <= left (served s) (now s)
    | Asleep k wake => k = served s /\ wake - 3600 <= now s <= wake + delta /\ two_weeks < left k (wake - 3600)
    | Ordering since => since <= now s <= since + slow /\ B - (now s - since) <= left (served s) (now s)
    | Over => False
    end).
  assert (JB : forall s, J s -> B - slow <= left (served s) (now s) /\ exists p, tasks s = [(i, p)] /\ p <> Over).
  { intros s1 (p & T & Q). split; [|exists p; split; [exact T|destruct p; [discriminate|discriminate|discriminate|destruct Q]]]. destruct p as [since|k wake|since|]; [lia| |lia|destruct Q].
    destruct Q as (-> & Q1 & Q2). pose proof (CW (served s1) (wake - 3600) (now s1 - (wake - 3600)) ltac:(lia)) as X. replace (wake - 3600 + (now s1 - (wake - 3600))) with (now s1) in X by lia.
    unfold two_weeks in Q2. lia. }
  enough (G : forall l s1, J s1 -> forall s2, run l s1 = Some s2 -> prompt left delta slow l s1 -> lasting life l s1 -> J s2).
  { intros R PR LA. apply JB. apply (G l s0); try assumption. exists (Top (now s0)). split; [exact T0|]. split; [lia|]. replace (life - (now s0 - now s0)) with life by lia. exact L0. }
  clear l s T0 L0. induction l as [|e l IH]; intros s JS s' R PR LA; [cbn in R; injection R as <-; exact JS|]. cbn [Acme.run prompt lasting] in *.
  destruct PR as (PE & PR), LA as (LE & LA). destruct (step e s) as [s1|] eqn:E; [|discriminate]. apply (IH s1); try assumption. clear IH R PR LA.
  destruct (JB s JS) as (LB & _). destruct JS as (p & T & Q).
  assert (PO : forall j q, place_of j s = Some q -> j = i /\ q = p).
  { intros j q X. unfold place_of in X. rewrite T in X. cbn [find fst] in X. destruct (Nat.eqb_spec i j); [|discriminate]. injection X as <-. auto. }
  assert (ST : forall q, set_place i q (tasks s) = [(i, q)]) by (intros q; rewrite T; cbn [set_place map fst]; rewrite Nat.eqb_refl; reflexivity).
  assert (LK : B <= left (served s) (now s) -> J (look left i (served s) s)).
  { intros BB. unfold look, at_place. destruct (Z.ltb_spec two_weeks (left (served s) (now s))) as [L|L]; eexists; (split; [cbn [tasks]; apply ST|]); cbn [now served].
    - split; [reflexivity|]. unfold one_hour. replace (now s + 60 * 60 - 3600) with (now s) by lia. split; [lia|exact L].
    - split; [lia|]. lia. }
  destruct e as [j|d|k|j|j n k|j k|j o]; cbn [Acme.step] in E; try contradiction.
  - destruct (Z.ltb_spec d 0); [discriminate|]. injection E as <-. unfold in_time in PE. rewrite T in PE. inversion PE as [|? ? PE1 _]; subst. cbn [snd] in PE1.
    exists p. split; [exact T|]. cbn [now served]. pose proof (CW (served s) (now s) d ltac:(lia)) as X. destruct p as [since|k wake|since|]; [|destruct Q as (QA & QB & QC); repeat split; try assumption; lia| |exact Q]; destruct Q as (QA & QB); (split; [lia|lia]).
  - destruct (place_of j s) as [[since|k wake|since|]|] eqn:PJ; try discriminate; apply PO in PJ as (-> & <-).
    + injection E as <-. apply LK. lia.
    + destruct (Z.leb_spec wake (now s)); [|discriminate]. injection E as <-. destruct Q as (-> & Q1 & Q2). apply LK.
      pose proof (CW (served s) (wake - 3600) (now s - (wake - 3600)) ltac:(lia)) as X. replace (wake - 3600 + (now s - (wake - 3600))) with (now s) in X by lia. unfold two_weeks in Q2. lia.
  - destruct (place_of j s) as [[]|] eqn:PJ; try discriminate. injection E as <-. exists p. split; [exact T|exact Q].
  - destruct (place_of j s) as [[since|k' wake|since|]|] eqn:PJ; try discriminate; apply PO in PJ as (-> & <-). injection E as <-. exists (Top (now s)). split; [cbn [tasks]; apply ST|]. cbn [now served]. split; [lia|]. lia.
Qed.
(* a task that finds the certificate due begins the order in that very step, so a server
   without a certificate orders one at once *)
Theorem C104_at_once : forall i s, left None (now s) <= 14 * 24 * 3600 -> served s = None -> place_of i s = None ->
  exists s', run [EListen i; EStep i] s = Some s' /\ orders s' = mk_order i (now s) None :: orders s /\ place_of i s' = Some (Ordering (now s)).
Proof.
  intros i s L V P. cbn [Acme.run Acme.step]. rewrite P. unfold place_of at 1. cbn [tasks find fst]. rewrite Nat.eqb_refl. cbn [snd served]. rewrite V. unfold look. cbn [now].
  destruct (Z.ltb_spec two_weeks (left None (now s))) as [Q|_]; [unfold two_weeks in Q; lia|]. eexists. split; [reflexivity|]. split; [reflexivity|].
  unfold place_of. cbn [tasks set_place map find fst]. rewrite Nat.eqb_refl. cbn [find fst]. rewrite Nat.eqb_refl. reflexivity.
Qed.
(* the key that answers the validation of a name is the last one an order handed over *)
Fixpoint last_key (name : bytes) (l : list (event K)) (d : option K) : option K :=
  match l with [] => d | EChallenge _ n k :: r => last_key name r (if bytes_eqb n name then Some k else d) | _ :: r => last_key name r d end.
Definition key_of (name : bytes) (s : state K) : option K :=
  match find (fun q : bytes * K => bytes_eqb (fst q) name) (keys s) with Some q => Some (snd q) | None => None end.
Theorem C104_challenge : forall l s s' name, run l s = Some s' -> key_of name s' = last_key name l (key_of name s).
Proof.
  induction l as [|e l IH]; intros s s' name R; [cbn in R; injection R as <-; reflexivity|]. cbn [Acme.run] in R. destruct (step e s) as [s1|] eqn:E; [|discriminate].
  rewrite (IH s1 s' name R). clear IH R.
  assert (SAME : keys s1 = keys s -> key_of name s1 = key_of name s) by (intros X; unfold key_of; rewrite X; reflexivity).
  destruct e as [j|d|k|j|j n k|j k|j o]; cbn [Acme.step last_key] in *.
  - destruct (place_of j s); [discriminate|]. injection E as <-. rewrite SAME; reflexivity.
  - destruct (d <? 0); [discriminate|]. injection E as <-. rewrite SAME; reflexivity.
  - injection E as <-. rewrite SAME; reflexivity.
  - rewrite SAME; [reflexivity|]. assert (L : forall k, keys (look left j k s) = keys s) by (intros k; unfold look, at_place; destruct (two_weeks <? left k (now s)); reflexivity).
    destruct (place_of j s) as [[]|]; try discriminate; [injection E as <-; apply L|]. destruct (wake <=? now s); [|discriminate]. injection E as <-. apply L.
  - destruct (place_of j s) as [[]|]; try discriminate. injection E as <-. f_equal. unfold key_of. cbn [keys find fst snd].
    destruct (bytes_eqb n name) eqn:B; [reflexivity|]. match goal with |- match ?a with _ => _ end = match ?b with _ => _ end => enough (X : a = b) by (rewrite X; reflexivity) end.
    clear -B. induction (keys s) as [|[m k'] t IH]; [reflexivity|]. cbn [filter find fst]. destruct (bytes_eqb m n) eqn:M; cbn [negb].
    + apply bytes_eqb_spec in M as ->. rewrite B. exact IH.
    + cbn [find fst]. destruct (bytes_eqb m name); [reflexivity|exact IH].
  - destruct (place_of j s) as [[]|]; try discriminate. injection E as <-. rewrite SAME; reflexivity.
  - destruct (place_of j s) as [[]|]; try discriminate. injection E as <-. rewrite SAME; reflexivity.
Qed.
End S.

(* ---------- a concrete case: a certificate is the second it expires, half of the rest is waited ---------- *)
Definition ex_left (k : option Z) (t : Z) : Z := match k with Some e => Z.max 0 (e - t) / 2 | None => 0 end.
Lemma ex_clockwise : clockwise ex_left.
Proof.
  intros [e|] t d D; cbn [ex_left]; [|lia].
  assert (Z.max 0 (e - t) <= Z.max 0 (e - (t + d)) + d) by lia.
  pose proof (Z.div_mod (Z.max 0 (e - t)) 2 ltac:(lia)). pose proof (Z.mod_pos_bound (Z.max 0 (e - t)) 2 ltac:(lia)).
  pose proof (Z.div_mod (Z.max 0 (e - (t + d))) 2 ltac:(lia)). pose proof (Z.mod_pos_bound (Z.max 0 (e - (t + d))) 2 ltac:(lia)). lia.
Qed.
(* a certificate with 28 days and two hours: an hour too early, then due *)
Notation ex_start := [EListen 1%nat; EStep 1%nat; EChallenge 1%nat [97%N] 5; EPass 20; EIssued 1%nat (28 * 86400 + 7220)].
Notation ex_later := [EStep 1%nat; EPass 3600; EStep 1%nat; EPass 3630; EStep 1%nat; EPass 30; EIssued 1%nat (80 * 86400)].
Example C104_ex : exists s0 s, run ex_left ex_start (init 0) = Some s0 /\ tasks s0 = [(1%nat, Top (now s0))] /\
  14 * 86400 + 3600 <= ex_left (served s0) (now s0) /\ key_of [97%N] s0 = Some 5 /\
  run ex_left ex_later s0 = Some s /\ prompt ex_left 60 60 ex_later s0 /\ lasting ex_left (14 * 86400 + 3600) ex_later s0 /\
  map o_at (orders s) = [7250; 0] /\ In (1%nat, Asleep (Some (28 * 86400 + 7220)) 3620) (tasks (match run ex_left [EStep 1%nat] s0 with Some s1 => s1 | None => s0 end)).
Proof.
  eexists _, _. split; [vm_compute; reflexivity|]. split; [reflexivity|]. split; [vm_compute; discriminate|]. split; [reflexivity|]. split; [vm_compute; reflexivity|].
  split; [cbn; repeat match goal with |- _ /\ _ => split | |- True => exact I | |- in_time _ _ _ _ => unfold in_time; repeat constructor; cbn; lia end|].
  split; [cbn; repeat match goal with |- _ /\ _ => split | |- True => exact I end; vm_compute; discriminate|]. split; [reflexivity|]. vm_compute. left. reflexivity.
Qed.
(* FINDINGS, in one run each: a certificate that expires tomorrow, installed while the task
   sleeps, and a failed order *)
Example C104_ex_findings :
  (exists s, run ex_left [EListen 1%nat; EServe (90 * 86400); EStep 1%nat; EServe 86400] (init 0) = Some s /\ served s = Some 86400 /\ ex_left (served s) (now s) <= 14 * 86400 /\
     place_of 1 s = Some (Asleep (Some (90 * 86400)) 3600) /\ (forall t, 0 <= t <= 86400 * 2 -> 14 * 24 * 3600 < ex_left (Some (90 * 86400)) t)) /\
  (exists s, run ex_left [EListen 1%nat; EStep 1%nat; EFail 1%nat None] (init 0) = Some s /\ place_of 1 s = Some Over /\ served s = None).
Proof.
  split.
  - eexists. split; [vm_compute; reflexivity|]. split; [reflexivity|]. split; [vm_compute; discriminate|]. split; [reflexivity|].
    intros t T. cbn [ex_left]. assert (14 * 24 * 3600 + 1 <= Z.max 0 (90 * 86400 - t) / 2); [|lia]. apply Z.div_le_lower_bound; lia.
  - eexists. split; [vm_compute; reflexivity|]. split; reflexivity.
Qed.
(* FINDING: each listener has a task of its own: two listeners order two certificates for one
   server at the same time *)
Theorem C104_two_refuted : forall K (left : option K -> Z -> Z) t, left None t <= 14 * 24 * 3600 ->
  exists s, run left [EListen 1%nat; EListen 2%nat; EStep 1%nat; EStep 2%nat] (init t) = Some s /\
    orders s = [mk_order 2 t None; mk_order 1 t None] /\ place_of 1 s = Some (Ordering t) /\ place_of 2 s = Some (Ordering t).
Proof.
  intros K left t L. assert (D : two_weeks <? left None t = false) by (apply Z.ltb_ge; unfold two_weeks; lia).
  cbn -[two_weeks Z.ltb look]. unfold look. cbn -[two_weeks Z.ltb]. rewrite D. cbn -[two_weeks Z.ltb]. rewrite ?D. cbn -[two_weeks Z.ltb].
  eexists. split; [reflexivity|]. split; [reflexivity|]. split; reflexivity.
Qed.
Print Assumptions C104_only_when_due.
Print Assumptions C104_in_time.
Print Assumptions C104_kept.
Print Assumptions C104_at_once.
Print Assumptions C104_challenge.
Print Assumptions C104_failure_refuted.
Print Assumptions C104_stale_refuted.
Print Assumptions C104_short_refuted.
Print Assumptions C104_two_refuted.
Print Assumptions C104_failed_order.
Print Assumptions C104_served.
