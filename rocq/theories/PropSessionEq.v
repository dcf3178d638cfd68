(* Property theorems C107: equality and hashing of sessions and identities. *)
From Verif Require Import Base SessionEq.
Local Open Scope N_scope.

(* the same user or the same role *)
Inductive same_identity : identity -> identity -> Prop :=
| same_user i n m : same_identity (IUser i n) (IUser i m)
| same_role i n m : same_identity (IRole i n) (IRole i m).
(* the same answer to "who is this": nobody, the same identity, or the same challenge *)
Inductive same_who : authentication -> authentication -> Prop :=
| same_none : same_who ANone ANone
| same_id i j : same_identity i j -> same_who (AIdentity i) (AIdentity j)
| same_challenge id nonce t : same_who (AChallenge id nonce t) (AChallenge id nonce t).

Lemma identity_spec a b : identity_eqb a b = true <-> same_identity a b.
Proof.
  split.
  - destruct a as [i n|i n], b as [j m|j m]; cbn; try discriminate; intros H; apply N.eqb_eq in H; subst; constructor.
  - intros []; cbn; apply N.eqb_refl.
Qed.
(* C107 *)
(* two sessions are equal exactly if they are the same who: the names, the session's id and
   its permissions do not matter *)
Theorem C107_equal : forall a b, session_eqb a b = true <-> same_who (s_auth a) (s_auth b).
Proof.
  intros a b. unfold session_eqb. destruct (s_auth a) as [|i|i n s], (s_auth b) as [|j|j m t]; cbn; (split; [|intros H; inversion H; subst]); try discriminate; try reflexivity.
  - constructor.
  - intros H. constructor. apply identity_spec, H.
  - apply identity_spec; assumption.
  - intros H. rewrite !andb_true_iff in H. destruct H as [[H1 H2] H3]. apply N.eqb_eq in H1, H3. apply bytes_eqb_spec in H2. subst. constructor.
  - rewrite !N.eqb_refl, bytes_eqb_refl. reflexivity.
Qed.
(* ... which is an equivalence, as Eq demands ... *)
Theorem C107_equivalence : (forall a, session_eqb a a = true) /\ (forall a b, session_eqb a b = session_eqb b a) /\
  (forall a b c, session_eqb a b = true -> session_eqb b c = true -> session_eqb a c = true).
Proof.
  assert (SI : forall a b, same_identity a b -> same_identity b a) by (intros a b []; constructor).
  assert (SW : forall a b, same_who a b -> same_who b a) by (intros a b []; constructor; auto).
  split; [|split].
  - intros a. apply C107_equal. destruct (s_auth a) as [|[]|]; repeat constructor.
  - intros a b. destruct (session_eqb a b) eqn:X, (session_eqb b a) eqn:Y; try reflexivity; exfalso.
    + apply C107_equal, SW, C107_equal in X. congruence.
    + apply C107_equal, SW, C107_equal in Y. congruence.
  - intros a b c X Y. apply C107_equal in X, Y. apply C107_equal. inversion X as [P Q|i j I P Q|i n t P Q]; rewrite <- Q in Y; inversion Y as [P' Q'|i' j' I' P' Q'|i' n' t' P' Q']; constructor.
    subst. inversion I; subst; inversion I'; subst; constructor.
Qed.
(* ... and two sessions feed a hasher the same exactly if they are equal, as a HashMap needs *)
Theorem C107_hash : forall a b, session_fed a = session_fed b <-> session_eqb a b = true.
Proof.
  intros a b. rewrite C107_equal. unfold session_fed. destruct (s_auth a) as [|[i p|i p]|i n s], (s_auth b) as [|[j q|j q]|j m t]; cbn;
    (split; intros H; inversion H; subst); repeat constructor; try reflexivity; match goal with X : same_identity _ _ |- _ => inversion X; subst; reflexivity end.
Qed.
(* renaming the user or role keeps the session equal to what it was; another id does not *)
Theorem C107_renamed : forall a b i n m, s_auth a = AIdentity (IUser i n) -> s_auth b = AIdentity (IUser i m) -> session_eqb a b = true.
Proof. intros a b i n m A B. apply C107_equal. rewrite A, B. repeat constructor. Qed.
Theorem C107_other : forall a b i j, session_identity a = Some i -> session_identity b = Some j -> ~ same_identity i j -> session_eqb a b = false.
Proof.
  unfold session_identity. intros a b i j A B NE. destruct (session_eqb a b) eqn:X; [|reflexivity]. exfalso. apply C107_equal in X.
  inversion X as [P Q|p q I P Q|p n t P Q]; rewrite <- P in A; rewrite <- Q in B; try discriminate. injection A as ->. injection B as ->. exact (NE I).
Qed.
(* but equal sessions need not be the same session, nor be allowed the same: a table of
   sessions keyed by Session mixes them up *)
Theorem C107_permissions_refuted : exists a b act, session_eqb a b = true /\ session_fed a = session_fed b /\ s_id a <> s_id b /\ s_allows a act <> s_allows b act.
Proof.
  exists (mk_session (Some 1) (AIdentity (IUser 3 [97])) (fun _ => true)), (mk_session (Some 2) (AIdentity (IUser 3 [97])) (fun a => a =? 0)), 5.
  vm_compute. repeat split; discriminate.
Qed.
Example C107_ex :
  let u n i := mk_session (Some i) (AIdentity (IUser 3 n)) (fun _ => true) in
  session_eqb (u [97] 1) (u [98] 2) = true /\ session_fed (u [97] 1) = session_fed (u [98] 2) /\
  session_eqb (u [97] 1) (mk_session (Some 1) (AIdentity (IRole 3 [97])) (fun _ => true)) = false /\
  session_eqb (u [97] 1) (mk_session None ANone (fun _ => false)) = false /\
  session_eqb (mk_session None (AChallenge 1 [7] 9) (fun _ => false)) (mk_session (Some 4) (AChallenge 1 [7] 9) (fun _ => false)) = true /\
  session_eqb (mk_session None (AChallenge 1 [7] 9) (fun _ => false)) (mk_session None (AChallenge 1 [8] 9) (fun _ => false)) = false.
Proof. vm_compute. repeat split. Qed.

Print Assumptions C107_equal.
Print Assumptions C107_equivalence.
Print Assumptions C107_hash.
Print Assumptions C107_renamed.
Print Assumptions C107_other.
Print Assumptions C107_permissions_refuted.
