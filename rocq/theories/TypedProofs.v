(* Lemmas for C80. *)
From Verif Require Import Base Key KeySpec KeyProofs KeyMore KeyPrefix DocId Tree View ViewProofs ViewMap Docs DocsProofs DocsSpec DocsMore Typed TypedSpec PropDocs.
From Coq Require Import ZifyBool Lia Sorting.Sorted Arith.
Local Open Scope N_scope.

Lemma half w : (1 <= w)%nat -> Z.of_N (umod w / 2) = (2 ^ (8 * Z.of_nat w - 1))%Z.
Proof.
  intros W. unfold umod. rewrite N2Z.inj_div, N2Z.inj_pow, nat_N_Z. change (Z.of_N 256) with (2 ^ 8)%Z.
  rewrite <- Z.pow_mul_r by lia. replace (8 * Z.of_nat w)%Z with (8 * Z.of_nat w - 1 + 1)%Z by lia.
  rewrite Z.pow_add_r by lia. change (2 ^ 1)%Z with 2%Z. change (Z.of_N 2) with 2%Z.
  rewrite Z.div_mul by lia. f_equal; lia.
Qed.
Lemma half_pos w : (1 <= w)%nat -> (128 <= 2 ^ (8 * Z.of_nat w - 1))%Z.
Proof. intros W. change 128%Z with (2 ^ 7)%Z. apply Z.pow_le_mono_r; lia. Qed.
Lemma next_typed : forall t v n, typed t v = true \/ first_value t = Some v -> next_value t v = Some n -> typed t n = true.
Proof.
  induction t; intros v0 m0 P Q; destruct v0; try (cbn in Q; discriminate).
  - cbn [next_value] in Q. destruct (N.ltb_spec (n + 1) (umod w)); [|discriminate]. injection Q as <-. cbn [typed]. unfold umod in *. lia.
  - cbn [next_value] in Q. destruct (Z.ltb_spec (z + 1) (Z.of_N (umod w / 2))); [|discriminate]. injection Q as <-. cbn [typed first_value] in *.
    assert (W : (1 <= w)%nat).
    { destruct P as [P|P]; [lia|]. injection P as <-. destruct w; [|lia]. vm_compute in H. discriminate. }
    rewrite half in H by lia. pose proof (half_pos w W). destruct P as [P|P]; [lia|]. injection P as <-. lia.
  - cbn [next_value] in Q. destruct (N.ltb_spec (n + 1) (umod w)); [|discriminate]. injection Q as <-. cbn [typed]. unfold umod in *. lia.
  - cbn [next_value] in Q. destruct (Z.ltb_spec (z + 1) (Z.of_N (umod w / 2))); [|discriminate]. injection Q as <-. cbn [typed first_value] in *.
    assert (W : (1 <= w)%nat).
    { destruct P as [P|P]; [lia|]. injection P as <-. destruct w; [|lia]. vm_compute in H. discriminate. }
    rewrite half in H by lia. pose proof (half_pos w W). destruct (Z.eqb_spec (z + 1) 0); destruct P as [P|P]; try (injection P as <-); lia.
  - cbn [next_value] in Q. injection Q as <-. reflexivity.
  - cbn [next_value] in Q. destruct (next_value t v0) as [m|] eqn:X; [|discriminate]. injection Q as <-. cbn [typed]. eapply IHt; [|exact X].
    destruct P as [P|P]; [left; exact P|right]. cbn in P. destruct (first_value t); [|discriminate]. injection P as <-. reflexivity.
  - cbn [next_value] in Q. destruct (next_value t1 v0) as [m|] eqn:X; [|discriminate]. injection Q as <-. cbn [typed]. eapply IHt1; [|exact X].
    destruct P as [P|P]; [left; exact P|right]. cbn in P. destruct (first_value t1); [|discriminate]. injection P as <-. reflexivity.
  - cbn [next_value] in Q. destruct (next_value t2 v0) as [m|] eqn:X; [|discriminate]. injection Q as <-. cbn [typed]. eapply IHt2; [|exact X].
    destruct P as [P|P]; [left; exact P|right]. cbn in P. destruct (first_value t1); discriminate.
Qed.

Lemma rd {A} (C : collection A) v i : no_sized_option (co_key C) = true -> is_id C v i -> decode (co_key C) i = Done v.
Proof. intros N (T & X & L). apply roundtrip with (1 := N) (2 := T) (3 := X). eapply N.le_lt_trans; [exact L|]. vm_compute. reflexivity. Qed.
Lemma did {A} (C : collection A) v i : doc_id (co_key C) v = Done i <-> encode (co_key C) v = Done i /\ N.of_nat (length i) <= 65535.
Proof.
  unfold doc_id, try_from_bytes, max_length. destruct (encode (co_key C) v) as [b|e|]; [|split; [discriminate|intros [[=] _]]..].
  destruct (N.leb_spec (N.of_nat (length b)) 65535).
  - split; [intros [= <-]; auto|intros [[= <-] _]; reflexivity].
  - split; [discriminate|]. intros [[= <-] X]. lia.
Qed.
Lemma next_id_inv {A} (E : env) (C : collection A) (w : work) i : known E C ->
  (forall j d, t_get j (w_docs w (co_name C)) = Some d -> exists v, is_id C v j) ->
  next_id (co_key C) (t_last (w_docs w (co_name C))) = Done i -> exists v, is_id C v i.
Proof.
  intros [PK NS] K. unfold next_id.
  assert (Q : forall v, typed (co_key C) v = true \/ first_value (co_key C) = Some v ->
    match next_value (co_key C) v with
    | Some n => match encode (co_key C) n with Done b => match try_from_bytes b with Done i => Done i | _ => Fail IdTooLong end | Fail _ => Fail KeyError | Panic => Panic end
    | None => Fail DocumentPush end = Done i -> exists v, is_id C v i).
  { intros v T X. destruct (next_value (co_key C) v) as [n|] eqn:NV; [|discriminate]. pose proof (next_typed _ _ _ T NV) as TN.
    destruct (encode (co_key C) n) as [b|e|] eqn:EN; try discriminate. unfold try_from_bytes, max_length in X.
    destruct (N.leb_spec (N.of_nat (length b)) 65535); [|discriminate]. injection X as <-. exists n. split; auto. }
  destruct (t_last (w_docs w (co_name C))) as [b|] eqn:L.
  - assert (I : exists d, t_get b (w_docs w (co_name C)) = Some d) by (apply keys_get; apply last_some_In; exact L).
    destruct I as [d G]. destruct (K b d G) as [v I]. rewrite (rd C v b NS I). intros X. apply (Q v); [left; apply I|exact X].
  - destruct (first_value (co_key C)) as [v|] eqn:F; [|discriminate]. intros X. apply (Q v); [right; reflexivity|exact X].
Qed.
Definition op_keyed {A} (C : collection A) (o : operation) : Prop :=
  op_coll o = co_name C -> match op_cmd o with Insert (Some i) _ | Overwrite i _ => exists v, is_id C v i | _ => True end.
Definition m_keyed {A} (C : collection A) (m : docmap) : Prop := forall i d, m (co_name C) i = Some d -> exists v, is_id C v i.
Definition res_keyed {A} (C : collection A) (r : opres) : Prop := match r with RUpdated c h => c = co_name C -> exists v, is_id C v (h_id h) | _ => True end.
Lemma exec_keyed {A} E (C : collection A) w o w' r : env_ok E -> known E C -> (forall c, coll_ok E (w_docs w c)) -> m_keyed C (w_map w) -> op_keyed C o ->
  exec_op E w o = Done (w', r) -> m_keyed C (w_map w') /\ res_keyed C r.
Proof.
  intros EO KN CO K OK X. destruct (exec_does _ _ _ _ _ EO CO X) as (m & D & SM).
  assert (R : res_keyed C r /\ m_keyed C m).
  { destruct o as [c cmd]. cbn [op_coll op_cmd] in D. unfold op_keyed in OK. cbn [op_coll op_cmd] in OK.
    assert (PUT : forall id od, (c = co_name C -> exists v, is_id C v id) -> m_keyed C (put (w_map w) c id od)).
    { intros id od H i d. rewrite put_get. destruct (bytes_eqb (co_name C) c) eqn:B1; cbn [andb]; [|apply K].
      destruct (bytes_eqb i id) eqn:B2; [|apply K]. apply bytes_eqb_spec in B1, B2. subst. intros _. apply H. reflexivity. }
    inversion D; subst; cbn [res_keyed h_id]; try (split; [exact I|]); try exact K.
    - assert (J : c = co_name C -> exists v, is_id C v id).
      { intros ->. destruct H as [->| ->]; [apply OK; reflexivity|].
        unfold exec_op in X. cbn [op_cmd op_coll] in X. unfold exec_insert in X. rewrite (proj1 KN) in X.
        destruct (next_id (co_key C) (t_last (w_docs w (co_name C)))) as [i|e|] eqn:NI; try discriminate.
        destruct (t_get i (w_docs w (co_name C))); [discriminate|]. apply finish_inv in X. destruct X as [X _].
        cbn in X. injection X as <-. eapply next_id_inv; eassumption. }
      split; [exact J|apply PUT, J].
    - assert (J : c = co_name C -> exists v, is_id C v (h_id h)) by (intros ->; eapply K; eassumption).
      split; [exact J|apply PUT, J].
    - split; [|exact K]. intros ->. pose proof (proj2 (proj1 (CO (co_name C))) _ _ H) as W. rewrite W. eapply K; eassumption.
    - split; [exact OK|apply PUT, OK].
    - split; [|exact K]. intros ->. pose proof (proj2 (proj1 (CO (co_name C))) _ _ H) as W. rewrite W. apply OK. reflexivity.
    - split; [exact OK|apply PUT, OK].
    - intros i d0. rewrite put_get. match goal with |- (if ?b then _ else _) = _ -> _ => destruct b end; [discriminate|apply K]. }
  destruct R as [R M]. split; [|exact R]. intros i d G. rewrite <- (SM (co_name C) i) in G. apply (M i d G).
Qed.
Lemma steps_keyed {A} E (C : collection A) w ops w' rs : env_ok E -> known E C -> steps E w ops w' rs -> forall ex, work_ok E w ex ->
  m_keyed C (w_map w) -> Forall (op_keyed C) ops -> m_keyed C (w_map w') /\ Forall (res_keyed C) rs.
Proof.
  intros EO KN S. induction S as [w|w o w1 r ops w2 rs X S IH]; intros ex OK K F; [auto|].
  inversion_clear F as [|? ? F1 F2]. destruct (exec_keyed _ _ _ _ _ _ EO KN (proj1 OK) K F1 X) as [K1 R1].
  destruct (IH _ (exec_op_ok _ _ _ _ _ _ EO OK X) K1 F2) as [K2 R2]. auto.
Qed.
Lemma apply_keyed {A} E p (C : collection A) s ops s' rs : env_ok E -> reach E s -> known E C -> well_keyed C s -> Forall (op_keyed C) ops ->
  apply_transaction E p s ops = (s', Done rs) -> well_keyed C s' /\ Forall (res_keyed C) rs.
Proof.
  intros EO R KN K F H. pose proof (reach_ok _ _ EO R) as OK. apply apply_success in H. destruct H as (w & ch & S & W & _ & I & _).
  apply invalidate_spec in I; [|exact EO]. destruct I as [D _].
  destruct (steps_keyed E C _ _ _ _ EO KN S _ OK K F) as [K2 R2]. split; [|exact R2].
  intros i d G. apply (K2 i d). unfold w_map. rewrite <- D. exact G.
Qed.
(* inserting several documents in one transaction *)
Lemma inserts H c m ops m' rs : does_all H m ops m' rs -> forall ps, ops = map (fun p => mk_op c (Insert (fst p) (snd p))) ps ->
  exists hs, rs = map (RUpdated c) hs /\
    Forall2 (fun p h => m' c (h_id h) = Some (mk_doc h (snd p)) /\ m c (h_id h) = None /\ forall i, fst p = Some i -> h_id h = i) ps hs /\
    NoDup (map h_id hs) /\ forall c' i, ~ (c' = c /\ In i (map h_id hs)) -> m' c' i = m c' i.
Proof.
  induction 1 as [m m' SM|m o m1 m1' r ops m2 rs D SM DA IH]; intros ps X.
  - destruct ps; [|discriminate]. exists []. split; [reflexivity|]. split; [constructor|]. split; [constructor|]. intros c' i _. symmetry. apply SM.
  - destruct ps as [|[oid b] ps]; [discriminate|]. cbn [map fst snd] in X. injection X as -> X. destruct (IH ps X) as (hs & -> & F & ND & O).
    cbn [op_coll op_cmd] in D. inversion D; subst. set (h := mk_header id (first_rev H b)) in *.
    assert (M1 : forall c' i, ~ (c' = c /\ i = id) -> m1' c' i = m c' i).
    { intros c' i NE. rewrite <- (SM c' i), put_get. destruct (bytes_eqb c' c) eqn:B1; cbn [andb]; [|reflexivity].
      destruct (bytes_eqb i id) eqn:B2; [|reflexivity]. apply bytes_eqb_spec in B1, B2. exfalso. auto. }
    assert (M2 : m1' c id = Some (mk_doc h b)) by (rewrite <- (SM c id); apply put_same).
    assert (NI : ~ In id (map h_id hs)).
    { intros I. apply in_map_iff in I. destruct I as (h' & Y & I). clear - F I M2 Y. induction F as [|p q ps hs (P1 & P2 & P3) F IHF]; [destruct I|].
      destruct I as [->|I]; [|auto]. rewrite Y in P2. congruence. }
    exists (h :: hs). split; [reflexivity|]. split; [constructor|split].
    + cbn [fst snd]. split; [|split].
      * change (h_id h) with id. rewrite O; [exact M2|]. intros [_ I]. contradiction.
      * assumption.
      * intros i ->. cbn. match goal with X : Some i = Some id \/ _ |- _ => destruct X as [[= <-]|[=]]; reflexivity end.
    + assert (Z : Forall (fun q => In (h_id q) (map h_id hs)) hs) by (apply Forall_forall; intros q I; apply in_map, I).
      revert Z NI. generalize (map h_id hs). intros L Z NI. clear - F Z NI M1. induction F as [|p q ps hs' (P1 & P2 & P3) F IHF]; [constructor|]. inversion_clear Z.
      constructor; [|apply IHF; assumption]. split; [exact P1|]. split; [|exact P3]. rewrite <- P2. symmetry. apply M1. intros [_ Y]. apply NI. rewrite <- Y. assumption.
    + cbn [map]. constructor; assumption.
    + intros c' i NE. rewrite O; [apply M1|]; intros [-> I]; apply NE; cbn; auto.
Qed.
