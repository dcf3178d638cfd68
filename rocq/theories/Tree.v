(* The contract of a nebari tree (an external crate): an ordered map from byte
   strings to values, here a list sorted by key. get/set/remove/scan/last_key of
   nebari::tree are assumed to behave like these functions. *)
From Verif Require Import Base KeyPrefix.
Local Open Scope N_scope.

Definition tree (V : Type) := list (bytes * V).

Fixpoint t_get {V} (k : bytes) (t : tree V) : option V :=
  match t with
  | [] => None
  | (j, v) :: r => if bytes_eqb k j then Some v else t_get k r
  end.
Fixpoint t_set {V} (k : bytes) (v : V) (t : tree V) : tree V :=
  match t with
  | [] => [(k, v)]
  | (j, w) :: r =>
      match lex k j with
      | Eq => (k, v) :: r
      | Lt => (k, v) :: (j, w) :: r
      | Gt => (j, w) :: t_set k v r
      end
  end.
Definition t_remove {V} (k : bytes) (t : tree V) : tree V := filter (fun p => negb (bytes_eqb k (fst p))) t.
Definition t_keys {V} (t : tree V) : list bytes := map fst t.
(* the largest key *)
Definition t_last {V} (t : tree V) : option bytes := last (map Some (t_keys t)) None.
(* entries within bounds, in key order *)
Definition t_range {V} (lo hi : bound) (t : tree V) : tree V := filter (fun p => in_bounds lo hi (fst p)) t.

(* sorted without duplicates *)
Fixpoint sorted_above (k : bytes) (ks : list bytes) : Prop :=
  match ks with [] => True | j :: r => lex k j = Lt /\ sorted_above j r end.
Definition sorted (ks : list bytes) : Prop := match ks with [] => True | k :: r => sorted_above k r end.
Definition t_wf {V} (t : tree V) : Prop := sorted (t_keys t).

Lemma bytes_eqb_sym a b : bytes_eqb a b = bytes_eqb b a.
Proof. destruct (bytes_eqb a b) eqn:E; symmetry.
  - apply bytes_eqb_spec in E. subst. apply bytes_eqb_refl.
  - apply bytes_eqb_neq in E. apply bytes_eqb_neq. congruence. Qed.
Lemma bytes_dec (a b : bytes) : {a = b} + {a <> b}.
Proof. apply list_eq_dec, N.eq_dec. Qed.

Lemma get_set {V} j k (v : V) t : t_get j (t_set k v t) = if bytes_eqb j k then Some v else t_get j t.
Proof.
  induction t as [|[i w] r IH]; cbn [t_set t_get]; [reflexivity|].
  destruct (lex k i) eqn:E; cbn [t_get].
  - apply lex_eq in E. subst i. destruct (bytes_eqb j k); reflexivity.
  - reflexivity.
  - rewrite IH. destruct (bytes_eqb j i) eqn:J; [|reflexivity].
    apply bytes_eqb_spec in J. subst j. destruct (bytes_eqb i k) eqn:K; [|reflexivity].
    apply bytes_eqb_spec in K. subst i. rewrite lex_refl in E. discriminate.
Qed.
Lemma get_set_same {V} k (v : V) t : t_get k (t_set k v t) = Some v.
Proof. rewrite get_set, bytes_eqb_refl. reflexivity. Qed.
Lemma get_set_other {V} j k (v : V) t : j <> k -> t_get j (t_set k v t) = t_get j t.
Proof. intros H. rewrite get_set. apply bytes_eqb_neq in H. rewrite H. reflexivity. Qed.
Lemma get_remove {V} j k (t : tree V) : t_get j (t_remove k t) = if bytes_eqb j k then None else t_get j t.
Proof.
  induction t as [|[i w] r IH]; cbn [t_remove filter t_get fst]; [destruct (bytes_eqb j k); reflexivity|].
  fold (t_remove k r). destruct (bytes_eqb k i) eqn:K; cbn [negb t_get].
  - rewrite IH. apply bytes_eqb_spec in K. subst i. destruct (bytes_eqb j k); reflexivity.
  - rewrite IH. destruct (bytes_eqb j i) eqn:J; [|reflexivity].
    apply bytes_eqb_spec in J. subst j. rewrite bytes_eqb_sym, K. reflexivity.
Qed.

Lemma sorted_above_In k ks j : sorted_above k ks -> In j ks -> lex k j = Lt.
Proof.
  revert k; induction ks as [|i r IH]; intros k H I; [destruct I|]. destruct H as [H1 H2].
  destruct I as [->|I]; [exact H1|]. eapply lex_lt_trans; [exact H1|]. apply IH; assumption.
Qed.
Lemma sorted_above_sorted k ks : sorted_above k ks -> sorted ks.
Proof. destruct ks; [constructor|]. intros [_ H]. exact H. Qed.
Lemma sorted_cons k ks : sorted_above k ks <-> sorted (k :: ks). Proof. reflexivity. Qed.
Lemma sorted_above_weaken k k' ks : lex k k' = Lt -> sorted_above k' ks -> sorted_above k ks.
Proof. intros H. destruct ks; [constructor|]. intros [H1 H2]. split; [eapply lex_lt_trans; eassumption|exact H2]. Qed.
Lemma sorted_above_intro k ks : sorted ks -> (forall j, In j ks -> lex k j = Lt) -> sorted_above k ks.
Proof. destruct ks; [constructor|]. intros H1 H2. split; [apply H2; left; reflexivity|exact H1]. Qed.

Lemma keys_set {V} k (v : V) t j : In j (t_keys (t_set k v t)) <-> j = k \/ In j (t_keys t).
Proof.
  induction t as [|[i w] r IH]; cbn [t_set t_keys map fst In]; [intuition|].
  fold (t_keys r). fold (t_keys (t_set k v r)) in IH.
  destruct (lex k i) eqn:E; cbn [t_keys map fst In]; fold (t_keys r).
  - apply lex_eq in E. subst i. intuition.
  - intuition.
  - fold (t_keys (t_set k v r)). rewrite IH. intuition.
Qed.
Lemma wf_set {V} k (v : V) t : t_wf t -> t_wf (t_set k v t).
Proof.
  unfold t_wf. induction t as [|[i w] r IH]; cbn [t_set]; intros H; [constructor|].
  change (t_keys ((i, w) :: r)) with (i :: t_keys r) in H.
  destruct (lex k i) eqn:E.
  - apply lex_eq in E. subst i. exact H.
  - split; assumption.
  - change (t_keys ((i, w) :: t_set k v r)) with (i :: t_keys (t_set k v r)).
    apply sorted_above_intro; [apply IH; eapply sorted_above_sorted; exact H|].
    intros j I. apply keys_set in I. destruct I as [->|I]; [apply lex_gt_lt; exact E|].
    eapply sorted_above_In; eassumption.
Qed.
Lemma wf_filter {V} f (t : tree V) : t_wf t -> t_wf (filter f t).
Proof.
  unfold t_wf. induction t as [|[i w] r IH]; intros H; [constructor|].
  change (t_keys ((i, w) :: r)) with (i :: t_keys r) in H. cbn [filter].
  assert (S : sorted (t_keys (filter f r))) by (apply IH; eapply sorted_above_sorted; exact H).
  destruct (f (i, w)); [|exact S].
  change (t_keys ((i, w) :: filter f r)) with (i :: t_keys (filter f r)).
  apply sorted_above_intro; [exact S|]. intros j I. eapply sorted_above_In; [exact H|].
  unfold t_keys in *. apply in_map_iff in I. destruct I as (p & <- & I). apply in_map. apply filter_In in I. apply I.
Qed.
Lemma wf_remove {V} k (t : tree V) : t_wf t -> t_wf (t_remove k t).
Proof. apply wf_filter. Qed.
Lemma wf_range {V} lo hi (t : tree V) : t_wf t -> t_wf (t_range lo hi t).
Proof. apply wf_filter. Qed.
Lemma wf_nil {V} : t_wf ([] : tree V). Proof. constructor. Qed.

Lemma get_In {V} k (v : V) t : t_get k t = Some v -> In (k, v) t.
Proof.
  induction t as [|[i w] r IH]; cbn [t_get]; [discriminate|].
  destruct (bytes_eqb k i) eqn:K; [apply bytes_eqb_spec in K; subst; injection 1 as ->; left; reflexivity|].
  intros H. right. apply IH, H.
Qed.
Lemma In_get {V} k (v : V) t : t_wf t -> In (k, v) t -> t_get k t = Some v.
Proof.
  unfold t_wf. induction t as [|[i w] r IH]; intros H I; [destruct I|].
  change (t_keys ((i, w) :: r)) with (i :: t_keys r) in H. cbn [t_get].
  destruct I as [I|I].
  - injection I as -> ->. rewrite bytes_eqb_refl. reflexivity.
  - assert (L : lex i k = Lt).
    { eapply sorted_above_In; [exact H|]. unfold t_keys. apply (in_map fst) in I. exact I. }
    destruct (bytes_eqb k i) eqn:K.
    + apply bytes_eqb_spec in K. subst. rewrite lex_refl in L. discriminate.
    + apply IH; [eapply sorted_above_sorted; exact H|exact I].
Qed.
Lemma get_iff {V} k (v : V) t : t_wf t -> (t_get k t = Some v <-> In (k, v) t).
Proof. intros H. split; [apply get_In|apply In_get, H]. Qed.
Lemma get_none {V} k (t : tree V) : t_get k t = None <-> ~ In k (t_keys t).
Proof.
  induction t as [|[i w] r IH]; cbn [t_get t_keys map fst In]; [intuition|].
  destruct (bytes_eqb k i) eqn:K.
  - apply bytes_eqb_spec in K. subst. split; [discriminate|intuition].
  - rewrite IH. apply bytes_eqb_neq in K. unfold t_keys. intuition.
Qed.
Lemma keys_get {V} k (t : tree V) : In k (t_keys t) <-> exists v, t_get k t = Some v.
Proof.
  destruct (t_get k t) as [v|] eqn:E.
  - split; [eauto|]. intros _. apply get_In in E. apply (in_map fst) in E. exact E.
  - apply get_none in E. split; [contradiction|intros [v H]; discriminate].
Qed.
Lemma sorted_NoDup ks : sorted ks -> NoDup ks.
Proof.
  induction ks as [|k r IH]; intros H; [constructor|]. constructor.
  - intros I. pose proof (sorted_above_In k r k H I) as L. rewrite lex_refl in L. discriminate.
  - apply IH. eapply sorted_above_sorted; exact H.
Qed.
(* a sorted tree is determined by its lookups *)
Lemma tree_ext {V} (a b : tree V) : t_wf a -> t_wf b -> (forall k, t_get k a = t_get k b) -> a = b.
Proof.
  unfold t_wf. revert b; induction a as [|[i v] a IH]; intros [|[j w] b] Ha Hb E.
  - reflexivity.
  - specialize (E j). cbn in E. rewrite bytes_eqb_refl in E. discriminate.
  - specialize (E i). cbn in E. rewrite bytes_eqb_refl in E. discriminate.
  - change (t_keys ((i, v) :: a)) with (i :: t_keys a) in Ha.
    change (t_keys ((j, w) :: b)) with (j :: t_keys b) in Hb.
    assert (K : i = j).
    { destruct (lex i j) eqn:L; [apply lex_eq; exact L|exfalso|exfalso].
      - pose proof (E i) as E1. cbn [t_get] in E1. rewrite bytes_eqb_refl in E1.
        destruct (bytes_eqb i j) eqn:Q; [apply bytes_eqb_spec in Q; subst; rewrite lex_refl in L; discriminate|].
        symmetry in E1. apply get_In in E1. apply (in_map fst) in E1.
        pose proof (sorted_above_In _ _ _ Hb E1) as L2. cbn in L2. apply lex_gt_lt in L2. congruence.
      - apply lex_gt_lt in L. pose proof (E j) as E1. cbn [t_get] in E1. rewrite bytes_eqb_refl in E1.
        destruct (bytes_eqb j i) eqn:Q; [apply bytes_eqb_spec in Q; subst; rewrite lex_refl in L; discriminate|].
        apply get_In in E1. apply (in_map fst) in E1.
        pose proof (sorted_above_In _ _ _ Ha E1) as L2. cbn in L2. apply lex_gt_lt in L2. congruence. }
    subst j. pose proof (E i) as E1. cbn [t_get] in E1. rewrite bytes_eqb_refl in E1. injection E1 as ->.
    f_equal. apply IH; [eapply sorted_above_sorted; exact Ha|eapply sorted_above_sorted; exact Hb|].
    intros k. pose proof (E k) as E2. cbn [t_get] in E2. destruct (bytes_eqb k i) eqn:Q; [|exact E2].
    apply bytes_eqb_spec in Q. subst k.
    rewrite (proj2 (get_none i a)), (proj2 (get_none i b)); [reflexivity| |];
      intros I; [pose proof (sorted_above_In _ _ _ Hb I) as L|pose proof (sorted_above_In _ _ _ Ha I) as L];
      rewrite lex_refl in L; discriminate.
Qed.

(* the largest key *)
Lemma last_some_In (ks : list bytes) k : last (map Some ks) None = Some k -> In k ks.
Proof.
  induction ks as [|a r IH]; [discriminate|]. destruct r as [|b r].
  - cbn. injection 1 as ->. left. reflexivity.
  - intros H. right. apply IH. exact H.
Qed.
Lemma last_upper (ks : list bytes) k j : sorted ks -> last (map Some ks) None = Some k -> In j ks -> lex j k <> Gt.
Proof.
  induction ks as [|a r IH]; intros S L I; [destruct I|]. destruct r as [|b r].
  - cbn in L. injection L as ->. destruct I as [->|[]]. rewrite lex_refl. discriminate.
  - change (last (map Some (b :: r)) None = Some k) in L.
    assert (S' : sorted (b :: r)) by (eapply sorted_above_sorted; exact S).
    destruct I as [->|I]; [|apply IH; assumption].
    assert (J : lex j k = Lt). { eapply sorted_above_In; [exact S|]. apply last_some_In, L. }
    rewrite J. discriminate.
Qed.
Lemma last_none {V} (t : tree V) : t_last t = None <-> t = [].
Proof.
  split; [|intros ->; reflexivity]. unfold t_last, t_keys. destruct t as [|p r]; [reflexivity|].
  intros H. exfalso. revert H. generalize (p :: r), (eq_refl : hd_error (p :: r) = Some p).
  intros l. destruct l as [|q l]; [discriminate|]. intros _. revert q.
  induction l as [|x l IH]; intros q; [discriminate|]. exact (IH x).
Qed.
Lemma t_last_spec {V} (t : tree V) k : t_wf t -> t_last t = Some k ->
  In k (t_keys t) /\ forall j, In j (t_keys t) -> lex j k <> Gt.
Proof. intros W H. split; [apply last_some_In, H|]. intros j. apply last_upper; assumption. Qed.

(* ranges *)
Lemma get_range {V} lo hi k (t : tree V) : t_get k (t_range lo hi t) = if in_bounds lo hi k then t_get k t else None.
Proof.
  induction t as [|[i w] r IH]; cbn [t_range filter t_get fst]; [destruct (in_bounds lo hi k); reflexivity|].
  fold (t_range lo hi r). destruct (in_bounds lo hi i) eqn:B; cbn [t_get].
  - destruct (bytes_eqb k i) eqn:K; [apply bytes_eqb_spec in K; subst; rewrite B; reflexivity|exact IH].
  - rewrite IH. destruct (bytes_eqb k i) eqn:K; [|reflexivity].
    apply bytes_eqb_spec in K. subst. rewrite B. reflexivity.
Qed.
