(* Invariant, measure and progress of the mapping pipeline. *)
From Coq Require Import List Arith Bool Lia Permutation.
From Verif Require Import Base MapPipeline.
Import ListNotations.
Local Open Scope nat_scope.

Section Proofs.
Context {D R A : Type}.
Variable cs : list (list D).
Variable f : D -> option R.
Variable save : nat -> A -> list R -> option A.
Variable p : nat.
Variable a0 : A.
Notation chunk := (chunk cs).
Notation n := (n cs).
Notation step := (step cs f save p).
Notation steps := (steps cs f save p).
Notation headers := (headers cs).
Notation sent := (sent cs).

(* the results of batch k, in whatever order the workers delivered them *)
Definition mapped (k : nat) (r : list R) : Prop := exists rs, map f (chunk k) = map Some rs /\ Permutation r rs.
(* the batches 0..k-1 were saved, one after the other, each with all its results *)
Inductive saved : nat -> A -> Prop :=
| sv_0 : saved 0 a0
| sv_S k a r a' : saved k a -> mapped k r -> save k a r = Some a' -> saved (Datatypes.S k) a'.

Definition fails (d : D) : bool := match f d with None => true | Some _ => false end.
Definition sentm (m : @mapper R) : nat := match m with MWait k => k | MWork k _ _ => k | MSend k _ => k | MDone k => k | MErr k => k end.
Definition ended_ok (w : @worker R) : bool := match w with WEnd _ => true | _ => false end.
Definition delivered (g : gen) (k : nat) (r : list R) : Prop := mapped k r \/ (g = GErr k /\ r = []).

Definition inv_g (g : gen) (m : @mapper R) : Prop :=
  match g with
  | GHead k => k <= n
  | GDoc k i => k < n /\ i <= length (chunk k)
  | GDone => True
  | GErr k => k < n
  | GPanic k => k < n /\ m = MErr k /\ p <= length (filter fails (chunk k))
  end.
Definition inv_m (g : gen) (m : @mapper R) : Prop :=
  match m with
  | MWait k => True
  | MWork k t ws => length ws = p /\ t <= sent g k /\ length (filter failed ws) = length (filter fails (firstn t (chunk k))) /\
      (existsb failed ws = false -> exists rs, map f (firstn t (chunk k)) = map Some rs /\ Permutation (concat (map results ws)) rs) /\
      (existsb ended_ok ws = true -> t = sent g k /\ closed g k = true)
  | MSend k r => delivered g k r
  | MDone k => k = headers g /\ g_ended g = true
  | MErr k => (exists d, In d (chunk k) /\ f d = None) /\ (closed g k = true \/ p <= length (filter fails (chunk k)))
  end.
Definition inv_s (g : gen) (m : @mapper R) (q : list (list R)) (s : @saver A) : Prop :=
  match s with
  | SWait k a => saved k a /\ k + length q = sentm m /\ (forall r, In r q -> delivered g k r)
  | SDone k a => saved k a /\ k = sentm m /\ q = [] /\ m_ended m = true
  | SErr k => Datatypes.S k + length q = sentm m /\ exists a r, saved k a /\ mapped k r /\ save k a r = None
  | SPanic k => g = GErr k /\ Datatypes.S k + length q = sentm m
  end.
Record inv (s : @st R A) : Prop := {
  v_order : received (s_m s) <= headers (s_g s) <= Datatypes.S (received (s_m s));
  v_g : inv_g (s_g s) (s_m s);
  v_m : inv_m (s_g s) (s_m s);
  v_q : length (s_q s) <= 1;
  v_s : inv_s (s_g s) (s_m s) (s_q s) (s_s s);
  v_ok : forall j, j < sentm (s_m s) -> (exists rs, map f (chunk j) = map Some rs) \/ s_g s = GErr j }.

Lemma inv_init : inv (init a0).
Proof.
  constructor; cbn; try lia; try exact I. split; [constructor|]. split; [reflexivity|]. intros r [].
Qed.

Lemma filter_app_len {B} (h : B -> bool) l1 l2 : length (filter h (l1 ++ l2)) = length (filter h l1) + length (filter h l2).
Proof. rewrite filter_app, app_length. reflexivity. Qed.

Lemma firstn_snoc {B} (l : list B) t d : nth_error l t = Some d -> firstn (Datatypes.S t) l = firstn t l ++ [d].
Proof.
  revert t. induction l as [|x l IH]; intros [|t]; cbn; try discriminate; [intros [= ->]; reflexivity|]. intros H. f_equal. apply IH, H.
Qed.

Lemma rep_failed x : length (filter failed (repeat (@WRun R []) x)) = 0.
Proof. induction x as [|x IH]; [reflexivity|exact IH]. Qed.
Lemma rep_results x : concat (map results (repeat (@WRun R []) x)) = [].
Proof. induction x as [|x IH]; [reflexivity|exact IH]. Qed.
Lemma rep_ended x : existsb ended_ok (repeat (@WRun R []) x) = false.
Proof. induction x as [|x IH]; [reflexivity|exact IH]. Qed.

Lemma chunk_len k i : k < n -> sent (GDoc k i) k = i.
Proof. intros _. cbn. rewrite Nat.eqb_refl. reflexivity. Qed.

Hypothesis Hp : 0 < p.

Lemma delivered_gen g g' k r : (forall j, g = GErr j -> g' = GErr j) -> delivered g k r -> delivered g' k r.
Proof. intros E [M|(G & N)]; [left; exact M|right; split; [apply E, G|exact N]]. Qed.

(* a step of the generator: what changes are headers, sent and closed, which only grow *)
Lemma gen_step g g' m q s : inv (St g m q s) -> 
  received m <= headers g' <= Datatypes.S (received m) -> inv_g g' m ->
  (forall j, g = GErr j -> g' = GErr j) ->
  (forall k, k < received m -> sent g k <= sent g' k /\ (closed g k = true -> closed g' k = true /\ sent g' k = sent g k)) ->
  g_ended g = false ->
  inv (St g' m q s).
Proof.
  intros [O G M Q S K] O' G' GE MO Ne. cbn in *. constructor; cbn; try assumption.
  - destruct m as [k|k t ws|k r|k|k]; cbn in *; try exact I.
    + destruct M as (L & T & C & P & E). destruct (MO k ltac:(lia)) as (M1 & M2). split; [exact L|]. split; [lia|]. split; [exact C|]. split; [exact P|].
      intros X. destruct (E X) as (E1 & E2). destruct (M2 E2) as (M3 & M4). split; [lia|exact M3].
    + eapply delivered_gen; eassumption.
    + destruct M. congruence.
    + destruct M as (M1 & M2). split; [exact M1|]. destruct M2 as [M2|M2]; [left|right; exact M2]. apply (MO k); [lia|exact M2].
  - destruct s as [k a|k a|k|k]; cbn in *; try assumption.
    + destruct S as (S1 & S2 & S3). split; [exact S1|]. split; [exact S2|]. intros r Hr. eapply delivered_gen; [exact GE|apply S3, Hr].
    + destruct S as (-> & S). split; [apply GE; reflexivity|exact S].
  - intros j Hj. destruct (K j Hj) as [K1|K1]; [left; exact K1|right; apply GE, K1].
Qed.

Lemma step_inv s s' : step s s' -> inv s -> inv s'.
Proof.
  intros St0 I0. destruct St0 as [k m q s Hk Hr|k i m q s Hi Hd|k i m q s Hi Hd|k m q s|m q s|k m q s|k g q s Hk|k g q s Hk Hg|k t ws1 r ws2 d x g q s Ht Hn Hf|k t ws1 r ws2 d g q s Ht Hn Hf|k t ws1 r ws2 g q s Ht Hc|k t ws g q s Er Ef|k t ws g q s Er Ef|k r g q s Hq|k a r q a' g m Hl Hs|k a r q g m Hl Hs|k a r q g m Hl|k a g m Hm].
  - (* g_head *) pose proof (v_order _ I0) as O. cbn in O. eapply gen_step; [exact I0| | | | |reflexivity]; cbn; [lia|split; lia|discriminate|].
    intros j Hj. replace (j =? k) with false by (symmetry; apply Nat.eqb_neq; lia). split; [reflexivity|]. intros _. split; reflexivity.
  - (* g_doc *) pose proof (v_order _ I0) as O. pose proof (v_g _ I0) as G. cbn in O, G. eapply gen_step; [exact I0| | | | |reflexivity]; cbn; [lia|split; lia|discriminate|].
    intros j Hj. destruct (j =? k); cbn; [split; [lia|discriminate]|]. split; [lia|]. intros _. split; reflexivity.
  - (* g_unwrap *) pose proof (v_order _ I0) as O. pose proof (v_g _ I0) as G. pose proof (v_m _ I0) as M. cbn in O, G, M.
    destruct m as [?|? ? ?|? ?|?|j]; cbn in Hd; try discriminate. apply Nat.eqb_eq in Hd. subst j. cbn in M. rewrite Nat.eqb_refl in M. cbn in M. destruct M as (M1 & [M2|M2]); [discriminate|].
    eapply gen_step; [exact I0| | | | |reflexivity]; cbn; [cbn in O; lia|split; [lia|split; [reflexivity|exact M2]]|discriminate|].
    intros j Hj. destruct (Nat.eqb_spec j k) as [->|Nj]; cbn; [split; [lia|discriminate]|]. split; [lia|]. intros _. split; reflexivity.
  - (* g_next *) pose proof (v_order _ I0) as O. pose proof (v_g _ I0) as G. cbn in O, G. eapply gen_step; [exact I0| | | | |reflexivity]; cbn; [lia|lia|discriminate|].
    intros j Hj. destruct (Nat.eqb_spec j k) as [->|Nj]; cbn; [split; [lia|discriminate]|]. split; [lia|]. intros _. split; reflexivity.
  - (* g_end *) pose proof (v_order _ I0) as O. cbn in O. eapply gen_step; [exact I0| | | | |reflexivity]; cbn; [lia|exact I|discriminate|].
    intros j Hj. split; [lia|]. intros _. split; reflexivity.
  - (* g_io *) pose proof (v_order _ I0) as O. pose proof (v_g _ I0) as G. cbn in O, G. eapply gen_step; [exact I0| | | | |reflexivity]; cbn; [lia|lia|discriminate|].
    intros j Hj. destruct (j =? k); cbn; [split; [lia|discriminate]|]. split; [lia|]. intros _. split; reflexivity.
  - (* m_recv *) destruct I0 as [O G M Q S K]. cbn in *. constructor; cbn; try assumption; try lia.
    + destruct g; cbn in *; try assumption. destruct G as (_ & E & _). discriminate.
    + split; [apply repeat_length|]. split; [lia|]. split.
      { apply rep_failed. }
      split.
      { intros _. exists []. split; [reflexivity|]. rewrite rep_results. constructor. }
      intros X. rewrite rep_ended in X. discriminate.
  - (* m_end *) destruct I0 as [O G M Q S K]. cbn in *. assert (k = headers g) by lia. constructor; cbn; try assumption; try lia.
    + destruct g; cbn in *; try assumption. destruct G as (_ & E & _). discriminate.
    + split; assumption.
    + destruct s as [j a|j a|j|j]; cbn in *; try assumption. destruct S as (_ & _ & _ & X). discriminate.
  - (* m_take *) destruct I0 as [O G M Q S K]. cbn -[firstn MapPipeline.chunk] in *. destruct M as (L & T & C & P & E). constructor; cbn -[firstn MapPipeline.chunk]; try assumption.
    + destruct g; cbn -[firstn MapPipeline.chunk] in *; try assumption. destruct G as (_ & X & _). discriminate.
    + split; [rewrite app_length in *; cbn -[firstn MapPipeline.chunk] in *; lia|]. split; [lia|]. rewrite (firstn_snoc _ _ _ Hn). rewrite !filter_app_len in *. cbn -[firstn MapPipeline.chunk] in *. unfold fails at 2. rewrite Hf. cbn -[firstn MapPipeline.chunk]. split; [lia|].
      rewrite !existsb_app in *. cbn -[firstn MapPipeline.chunk] in *. split.
      * intros X. destruct (P X) as (rs & P1 & P2). exists (rs ++ [x]). split; [rewrite !map_app, P1; cbn; rewrite Hf; reflexivity|].
        rewrite map_app, concat_app in *. cbn -[firstn MapPipeline.chunk] in *. rewrite app_assoc in P2. rewrite <- app_assoc. cbn. rewrite <- P2. rewrite <- !app_assoc. do 2 apply Permutation_app_head. apply Permutation_cons_append.
      * intros X. destruct (E X) as (E1 & _). lia.
  - (* m_fail *) destruct I0 as [O G M Q S K]. cbn -[firstn MapPipeline.chunk] in *. destruct M as (L & T & C & P & E). constructor; cbn -[firstn MapPipeline.chunk]; try assumption.
    + destruct g; cbn -[firstn MapPipeline.chunk] in *; try assumption. destruct G as (_ & X & _). discriminate.
    + split; [rewrite app_length in *; cbn -[firstn MapPipeline.chunk] in *; lia|]. split; [lia|]. rewrite (firstn_snoc _ _ _ Hn). rewrite !filter_app_len in *. cbn -[firstn MapPipeline.chunk] in *. unfold fails at 2. rewrite Hf. cbn -[firstn MapPipeline.chunk]. split; [lia|].
      rewrite !existsb_app in *. cbn -[firstn MapPipeline.chunk] in *. split.
      * rewrite orb_true_r. discriminate.
      * intros X. destruct (E X) as (E1 & _). lia.
  - (* m_stop *) destruct I0 as [O G M Q S K]. cbn -[firstn MapPipeline.chunk] in *. destruct M as (L & T & C & P & E). constructor; cbn -[firstn MapPipeline.chunk]; try assumption.
    + destruct g; cbn -[firstn MapPipeline.chunk] in *; try assumption. destruct G as (_ & X & _). discriminate.
    + split; [rewrite app_length in *; cbn -[firstn MapPipeline.chunk] in *; lia|]. split; [lia|]. rewrite !filter_app_len in *. cbn -[firstn MapPipeline.chunk] in *. split; [exact C|]. rewrite !existsb_app in *. cbn -[firstn MapPipeline.chunk] in *. rewrite map_app, concat_app in *. cbn -[firstn MapPipeline.chunk] in *. split; [exact P|].
      intros _. split; [lia|exact Hc].
  - (* m_join *) destruct I0 as [O G M Q S K]. cbn -[firstn MapPipeline.chunk] in *. destruct M as (L & T & C & P & E). destruct (P Ef) as (rs & P1 & P2).
    assert (X : existsb ended_ok ws = true).
    { destruct ws as [|w ws]; [cbn in L; lia|]. cbn in Er, Ef |- *. destruct w; cbn -[firstn MapPipeline.chunk] in *; try discriminate. reflexivity. }
    destruct (E X) as (E1 & E2).
    assert (DD : delivered g k (concat (map results ws))).
    { destruct g as [j|j i| |j|j]; cbn -[firstn MapPipeline.chunk] in *; try (left; exists rs; subst t; rewrite firstn_all in P1; split; assumption).
      - destruct (Nat.eqb_spec k j) as [->|Nj]; cbn -[firstn MapPipeline.chunk] in *; [discriminate|]. left. exists rs. subst t. rewrite firstn_all in P1. split; assumption.
      - destruct (Nat.eqb_spec k j) as [->|Nj]; cbn -[firstn MapPipeline.chunk] in *; [|left; exists rs; subst t; rewrite firstn_all in P1; split; assumption].
        right. split; [reflexivity|]. subst t. cbn in P1. destruct rs; [|discriminate]. apply Permutation_sym, Permutation_nil in P2. exact P2. }
    constructor; cbn -[firstn MapPipeline.chunk]; try assumption.
    + destruct g; cbn -[firstn MapPipeline.chunk] in *; try assumption. destruct G as (_ & Y & _). discriminate.
  - (* m_give_up *) destruct I0 as [O G M Q S K]. cbn -[firstn MapPipeline.chunk] in *. destruct M as (L & T & C & P & E).
    assert (F0 : 0 < length (filter failed ws)).
    { clear - Ef. induction ws as [|w ws IH]; [discriminate|]. cbn -[firstn MapPipeline.chunk] in *. destruct (failed w); cbn; [lia|apply IH; exact Ef]. }
    assert (FL : forall l1 l2 : list D, length (filter fails (l1 ++ l2)) >= length (filter fails l1)) by (intros; rewrite filter_app_len; lia).
    constructor; cbn -[firstn MapPipeline.chunk]; try assumption.
    + destruct g; cbn -[firstn MapPipeline.chunk] in *; try assumption. destruct G as (_ & Y & _). discriminate.
    + split.
      * rewrite C in F0. destruct (filter fails (firstn t (chunk k))) as [|d l] eqn:Ff; [cbn in F0; lia|]. assert (Hin : In d (filter fails (firstn t (chunk k)))) by (rewrite Ff; left; reflexivity).
        apply filter_In in Hin. destruct Hin as (Hin & Hd). exists d. split; [rewrite <- (firstn_skipn t (chunk k)); apply in_or_app; left; exact Hin|]. unfold fails in Hd. destruct (f d); [discriminate|reflexivity].
      * destruct (existsb ended_ok ws) eqn:X; [left; apply E; reflexivity|]. right.
        assert (AF : length (filter failed ws) = length ws).
        { clear - Er X. induction ws as [|w ws IH]; [reflexivity|]. cbn -[firstn MapPipeline.chunk] in *. destruct w; cbn -[firstn MapPipeline.chunk] in *; try discriminate. f_equal. apply IH; assumption. }
        pose proof (FL (firstn t (chunk k)) (skipn t (chunk k))) as Y. rewrite firstn_skipn in Y. lia.
    + destruct s as [j a|j a|j|j]; cbn -[firstn MapPipeline.chunk] in *; try assumption. destruct S as (_ & _ & _ & Y). discriminate.
  - (* m_send *) destruct I0 as [O G M Q S K]. cbn in *. constructor; cbn; try assumption.
    + destruct g; cbn in *; try assumption. destruct G as (_ & Y & _). discriminate.
    + exact I.
    + rewrite app_length. cbn. lia.
    + destruct q as [|y q]; [|cbn in Hq; lia]. destruct s as [j a|j a|j|j]; cbn in *.
      * destruct S as (S1 & S2 & S3). split; [exact S1|]. split; [lia|]. intros z [<-|[]]. replace j with k by lia. exact M.
      * destruct S as (_ & _ & _ & Y). discriminate.
      * destruct S as (S1 & S2). split; [lia|exact S2].
      * destruct S as (S1 & S2). split; [exact S1|lia].
    + intros j Hj. destruct (Nat.eq_dec j k) as [->|Nj]; [|apply K; lia]. destruct M as [(rs & M1 & _)|(M1 & _)]; [left; exists rs; exact M1|right; exact M1].
  - (* s_save *) destruct I0 as [O G M Q S K]. cbn -[firstn MapPipeline.chunk] in *. destruct S as (S1 & S2 & S3). destruct q as [|y q]; [|cbn in Q; lia]. constructor; cbn -[firstn MapPipeline.chunk]; try assumption; try lia.
    assert (MP : mapped k r). { destruct (S3 r (or_introl eq_refl)) as [M1|(M1 & M2)]; [exact M1|]. subst r. cbn in Hl. exists []. destruct (chunk k); [split; [reflexivity|constructor]|discriminate]. }
    split; [econstructor; eassumption|]. split; [cbn in S2; lia|]. intros z [].
  - (* s_fail *) destruct I0 as [O G M Q S K]. cbn -[firstn MapPipeline.chunk] in *. destruct S as (S1 & S2 & S3). constructor; cbn -[firstn MapPipeline.chunk]; try assumption; try lia.
    assert (MP : mapped k r). { destruct (S3 r (or_introl eq_refl)) as [M1|(M1 & M2)]; [exact M1|]. subst r. cbn in Hl. exists []. destruct (chunk k); [split; [reflexivity|constructor]|discriminate]. }
    split; [lia|]. exists a, r. split; [exact S1|]. split; [exact MP|exact Hs].
  - (* s_unwrap *) destruct I0 as [O G M Q S K]. cbn -[firstn MapPipeline.chunk] in *. destruct S as (S1 & S2 & S3). constructor; cbn -[firstn MapPipeline.chunk]; try assumption; try lia.
    destruct (S3 r (or_introl eq_refl)) as [(rs & M1 & M2)|(M1 & M2)].
    + exfalso. apply Permutation_length in M2. apply (f_equal (@length _)) in M1. rewrite !map_length in M1. lia.
    + split; [exact M1|lia].
  - (* s_end *) destruct I0 as [O G M Q S K]. cbn in *. destruct S as (S1 & S2 & S3). constructor; cbn; try assumption. split; [exact S1|]. split; [lia|]. split; [reflexivity|exact Hm].
Qed.

Lemma inv_steps s : steps (init a0) s -> inv s.
Proof. intros H. remember (init a0) as s0 eqn:E. induction H as [|s0 s1 s2 H IH St0]; subst; [apply inv_init|]. eapply step_inv; [exact St0|apply IH; reflexivity]. Qed.
End Proofs.
