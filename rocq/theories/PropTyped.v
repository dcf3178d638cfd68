(* Property theorems C80: typed collections. *)
From Verif Require Import Base Key KeySpec KeyProofs KeyOrder KeyMore KeyPrefix DocId Tree View ViewProofs ViewMap Docs DocsProofs DocsSpec DocsMore DocsHist PropDocs PropKey Typed TypedSpec TypedProofs.
From Coq Require Import ZifyBool Lia Sorting.Sorted Arith.
Local Open Scope N_scope.

Lemma th_ok {A} (C : collection A) v i r : no_sized_option (co_key C) = true -> is_id C v i -> typed_header (co_key C) (mk_header i r) = Done (mk_th v r).
Proof. intros NS I. unfold typed_header. cbn [h_id h_rev]. rewrite (rd C v i NS I). reflexivity. Qed.
Lemma at_id E s c i d : env_ok E -> reach E s -> doc_at s c i = Some d -> d = mk_doc (mk_header i (rev_of d)) (d_contents d).
Proof.
  intros EO R G. pose proof (proj2 (proj1 (proj1 (reach_ok _ _ EO R) c)) _ _ G) as H. destruct d as [[i' r] b]. cbn in H. subst. reflexivity.
Qed.
Lemma same_id {A} (C : collection A) v i j : is_id C v i -> encode (co_key C) v = Done j -> j = i.
Proof. intros (_ & X & _) Y. congruence. Qed.

(* reading one document: exactly the stored one *)
Theorem C80_get : forall A E p (C : collection A) s id, env_ok E -> reach E s -> known E C -> typed (co_key C) id = true ->
  (forall i, p ActGet (co_name C) (Some i) = true) ->
  (forall x, get p C s id = Done (Some x) <-> stored C s x /\ th_id (td_header x) = id) /\
  (get p C s id = Done None -> absent C s id).
Proof.
  intros A E p C s id EO R [PK NS] T P. unfold get, get_doc. destruct (doc_id (co_key C) id) as [i|e|] eqn:D.
  - apply did in D. destruct D as [D L]. rewrite P. change (t_get i (w_docs (db_work s) (co_name C))) with (doc_at s (co_name C) i).
    assert (I : is_id C id i) by (split; auto). destruct (doc_at s (co_name C) i) as [d|] eqn:G.
    + pose proof (at_id _ _ _ _ _ EO R G) as W. rewrite W in G. rewrite W. clear W. revert G. generalize (d_contents d). generalize (rev_of d). intros r b G. clear d.
      unfold typed_doc. cbn [d_contents d_header]. rewrite (th_ok C id i r NS I). split; [|destruct (co_de C b); discriminate].
      intros x. split.
      * destruct (co_de C b) as [a|] eqn:DE; [|discriminate]. intros [= <-]. split; [|reflexivity]. exists i, b. auto.
      * intros [(j & b' & J & DE & G') <-]. pose proof (same_id C _ _ _ I (proj1 (proj2 J))) as ->. rewrite G in G'. injection G' as RE BE. subst r b. rewrite DE.
        destruct x as [[v r'] a]. reflexivity.
    + split.
      * intros x. split; [discriminate|]. intros [(j & b' & J & DE & G') <-]. pose proof (same_id C _ _ _ I (proj1 (proj2 J))) as ->. congruence.
      * intros _ j J. rewrite (same_id C _ _ _ I J). exact G.
  - split; [|discriminate]. intros x. split; [discriminate|]. intros [(j & b' & (J1 & J2 & J3) & _) <-]. assert (X : doc_id (co_key C) (th_id (td_header x)) = Done j) by (apply did; auto). congruence.
  - split; [|discriminate]. intros x. split; [discriminate|]. intros [(j & b' & (J1 & J2 & J3) & _) <-]. assert (X : doc_id (co_key C) (th_id (td_header x)) = Done j) by (apply did; auto). congruence.
Qed.

Definition added {A} (C : collection A) (s s' : dbstate) (x : tdoc A) : Prop :=
  stored C s' x /\ absent C s (th_id (td_header x)) /\ only_at C [th_id (td_header x)] s s'.
Definition nothing_done {A B} (a : A) (s s' : dbstate) (o : outcome B (A * cerr)) : Prop :=
  (forall x, o <> Done x) /\ s' = s /\ forall a' e, o = Fail (a', e) -> a' = a.

Lemma one_insert {A} E p (C : collection A) s oid a b s' o : env_ok E -> reach E s -> known E C -> lawful C ->
  (forall v, oid = Some v -> typed (co_key C) v = true) -> (oid = None -> well_keyed C s) -> co_ser C a = Some b ->
  wrap a (ll_insert E p C s oid b) = (s', o) ->
  (exists x, o = Done x /\ td_contents x = a /\ (forall v, oid = Some v -> th_id (td_header x) = v) /\ added C s s' x /\ (well_keyed C s -> well_keyed C s')) \/
  nothing_done a s s' o.
Proof.
  intros EO R KN LA T WK SE. unfold ll_insert.
  set (oi := match oid with None => Done None | Some v => match doc_id (co_key C) v with Done i => Done (Some i) | Fail e => Fail e | Panic => Panic end end).
  assert (NO : forall o, (forall x, o <> Done x) -> (forall a' e, o = Fail (a', e) -> a' = a) -> @nothing_done A (tdoc A) a s s o) by (intros; split; auto).
  destruct oi as [oi'|e|] eqn:OI; [|intros [= <- <-]; right; apply NO; [discriminate|congruence]|intros [= <- <-]; right; apply NO; discriminate].
  unfold one_update. destruct (apply_transaction E p s [mk_op (co_name C) (Insert oi' b)]) as [s1 o1] eqn:AP.
  destruct (C19_all_or_nothing _ _ _ _ _ _ EO R AP) as [(rs & -> & DA & _)|[ND ->]].
  2: { destruct o1 as [rs|e|]; [exfalso; apply (ND rs eq_refl)|intros [= <- <-]; right; apply NO; [discriminate|congruence]|intros [= <- <-]; right; apply NO; discriminate]. }
  destruct (inserts _ (co_name C) _ _ _ _ DA [(oi', b)] eq_refl) as (hs & -> & F & _ & O).
  inversion F as [|q h ps hs' (G1 & G2 & G3) F' X Y]; subst. inversion F'; subst. cbn [fst snd] in *. cbn [map In] in O.
  assert (ID : exists v, is_id C v (h_id h) /\ (forall u, oid = Some u -> v = u)).
  { destruct oid as [u|].
    - unfold oi in OI. destruct (doc_id (co_key C) u) as [i| |] eqn:D; try discriminate. injection OI as <-. apply did in D.
      exists u. rewrite (G3 i eq_refl). split; [split; [apply T; reflexivity|exact D]|congruence].
    - assert (K : Forall (op_keyed C) [mk_op (co_name C) (Insert oi' b)]).
      { constructor; [|constructor]. intros _. cbn. unfold oi in OI. injection OI as <-. exact I. }
      destruct (apply_keyed E p C s _ s1 _ EO R KN (WK eq_refl) K AP) as [_ RK]. inversion_clear RK as [|? ? RK1 _].
      destruct (RK1 eq_refl) as [v V]. exists v. split; [exact V|discriminate]. }
  destruct ID as (v & V & VU). destruct h as [i r]. cbn [h_id map] in *.
  unfold with_header. rewrite (th_ok C v i r (proj2 KN) V). cbn [wrap]. intros [= <- <-]. left.
  exists (mk_td (mk_th v r) a). split; [reflexivity|]. split; [reflexivity|]. split; [exact VU|]. split.
  - split; [|split].
    + exists i, b. split; [exact V|]. split; [apply LA, SE|]. exact G1.
    + intros j J. rewrite (same_id C v i j V J). exact G2.
    + intros c' j N. apply O. intros [-> [<-|[]]]. apply (N v); [left; reflexivity|]. split; [reflexivity|apply V].
  - intros W j d G. destruct (bytes_dec j i) as [->|NE]; [eauto|]. apply (W j d). rewrite <- G. symmetry. apply O. intros [_ [->|[]]]. congruence.
Qed.
Lemma one_overwrite {A} E p (C : collection A) s id a b s' o : env_ok E -> reach E s -> known E C -> lawful C ->
  typed (co_key C) id = true -> no_collision E C s a -> co_ser C a = Some b ->
  wrap a (ll_overwrite E p C s id b) = (s', o) ->
  (exists x, o = Done x /\ td_contents x = a /\ th_id (td_header x) = id /\ stored C s' x /\ only_at C [id] s s' /\ (well_keyed C s -> well_keyed C s')) \/
  nothing_done a s s' o.
Proof.
  intros EO R KN LA T NC SE. unfold ll_overwrite.
  assert (NO : forall o, (forall x, o <> Done x) -> (forall a' e, o = Fail (a', e) -> a' = a) -> @nothing_done A (tdoc A) a s s o) by (intros; split; auto).
  destruct (doc_id (co_key C) id) as [i|e|] eqn:D; [|intros [= <- <-]; right; apply NO; [discriminate|congruence]|intros [= <- <-]; right; apply NO; discriminate].
  apply did in D. assert (V : is_id C id i) by (split; auto).
  unfold one_update. destruct (apply_transaction E p s [mk_op (co_name C) (Overwrite i b)]) as [s1 o1] eqn:AP.
  destruct (C19_all_or_nothing _ _ _ _ _ _ EO R AP) as [(rs & -> & _)|[ND ->]].
  2: { destruct o1 as [rs|e|]; [exfalso; apply (ND rs eq_refl)|intros [= <- <-]; right; apply NO; [discriminate|congruence]|intros [= <- <-]; right; apply NO; discriminate]. }
  destruct (C21_success _ _ _ _ _ _ _ EO R AP) as (m & r & -> & DO & SM).
  assert (Z : exists rv, r = RUpdated (co_name C) (mk_header i rv) /\ doc_at s1 (co_name C) i = Some (mk_doc (mk_header i rv) b) /\
    forall c j, ~ (c = co_name C /\ j = i) -> doc_at s1 c j = doc_at s c j).
  { assert (PUT : forall od c j, ~ (c = co_name C /\ j = i) -> put (docs_of s) (co_name C) i od c j = doc_at s c j).
    { intros od c j N. rewrite put_get. destruct (bytes_eqb c (co_name C)) eqn:B1; cbn [andb]; [|reflexivity].
      destruct (bytes_eqb j i) eqn:B2; [|reflexivity]. apply bytes_eqb_spec in B1, B2. exfalso. auto. }
    inversion DO; subst.
    - eexists. split; [reflexivity|]. split; [|intros c j N]; change (doc_at s1) with (docs_of s1); rewrite <- (SM _ _); [apply put_same|apply PUT, N].
    - match goal with X : docs_of s _ _ = Some d |- _ => rename X into G end. exists (rev_of d).
      pose proof (at_id _ _ _ _ _ EO R G) as W. pose proof (C23_digest _ _ _ _ _ EO R G) as DG.
      assert (CB : d_contents d = b). { eapply NC; [exact G|exact SE|]. rewrite <- (proj2 DG). symmetry. assumption. }
      split; [rewrite W; reflexivity|]. split; [|intros c j N]; change (doc_at s1) with (docs_of s1); rewrite <- (SM _ _); [|reflexivity].
      rewrite G, W at 1. cbn. rewrite CB. reflexivity.
    - eexists. split; [reflexivity|]. split; [|intros c j N]; change (doc_at s1) with (docs_of s1); rewrite <- (SM _ _); [apply put_same|apply PUT, N]. }
  destruct Z as (rv & -> & G & O). unfold with_header. rewrite (th_ok C id i rv (proj2 KN) V). cbn [wrap]. intros [= <- <-]. left.
  exists (mk_td (mk_th id rv) a). split; [reflexivity|]. split; [reflexivity|]. split; [reflexivity|]. split; [|split].
  - exists i, b. split; [exact V|]. split; [apply LA, SE|exact G].
  - intros c j N. apply O. intros [-> ->]. apply (N id); [left; reflexivity|]. split; [reflexivity|apply V].
  - intros W j d GJ. destruct (bytes_dec j i) as [->|NE]; [eauto|]. apply (W j d). rewrite <- GJ. symmetry. apply O. intros [_ ->]. congruence.
Qed.

(* insert: the document is added, or nothing happens and the caller gets the contents back *)
Theorem C80_insert : forall A E p (C : collection A) s id a s' o, env_ok E -> reach E s -> known E C -> lawful C -> typed (co_key C) id = true ->
  insert E p C s id a = (s', o) ->
  (exists x, o = Done x /\ td_contents x = a /\ th_id (td_header x) = id /\ added C s s' x /\ (well_keyed C s -> well_keyed C s')) \/ nothing_done a s s' o.
Proof.
  intros A E p C s id a s' o EO R KN LA T. unfold insert. destruct (co_ser C a) as [b|] eqn:SE.
  - intros H. eapply one_insert in H; try eassumption; [|intros v [= <-]; exact T|discriminate].
    destruct H as [(x & X1 & X2 & X3 & X4)|H]; [left|right; exact H]. exists x. split; [exact X1|]. split; [exact X2|]. split; [apply X3; reflexivity|exact X4].
  - intros [= <- <-]. right. split; [discriminate|]. split; [reflexivity|congruence].
Qed.
(* push: the id is the contents' natural id if there is one, else a new one *)
Theorem C80_push : forall A E p (C : collection A) s a s' o, env_ok E -> reach E s -> known E C -> lawful C -> well_keyed C s ->
  (forall v, co_nat C a = Some v -> typed (co_key C) v = true) -> push E p C s a = (s', o) ->
  (exists x, o = Done x /\ td_contents x = a /\ (forall v, co_nat C a = Some v -> th_id (td_header x) = v) /\ added C s s' x /\ well_keyed C s') \/ nothing_done a s s' o.
Proof.
  intros A E p C s a s' o EO R KN LA WK T. unfold push. destruct (co_ser C a) as [b|] eqn:SE.
  - intros H. eapply one_insert in H; try eassumption; [|intros; exact WK].
    destruct H as [(x & X1 & X2 & X3 & X4 & X5)|H]; [left|right; exact H]. exists x. split; [exact X1|]. split; [exact X2|]. split; [exact X3|]. split; [exact X4|exact (X5 WK)].
  - intros [= <- <-]. right. split; [discriminate|]. split; [reflexivity|congruence].
Qed.
(* overwrite: afterwards the document has the given contents, whatever was there *)
Theorem C80_overwrite : forall A E p (C : collection A) s id a s' o, env_ok E -> reach E s -> known E C -> lawful C -> typed (co_key C) id = true ->
  no_collision E C s a -> overwrite E p C s id a = (s', o) ->
  (exists x, o = Done x /\ td_contents x = a /\ th_id (td_header x) = id /\ stored C s' x /\ only_at C [id] s s' /\ (well_keyed C s -> well_keyed C s')) \/ nothing_done a s s' o.
Proof.
  intros A E p C s id a s' o EO R KN LA T NC. unfold overwrite. destruct (co_ser C a) as [b|] eqn:SE.
  - intros H. eapply one_overwrite in H; eassumption.
  - intros [= <- <-]. right. split; [discriminate|]. split; [reflexivity|congruence].
Qed.
(* an occupied id is refused *)
Theorem C80_insert_conflict : forall A E p (C : collection A) s x a, env_ok E -> reach E s -> known E C -> stored C s x ->
  exists e, insert E p C s (th_id (td_header x)) a = (s, Fail (a, e)).
Proof.
  intros A E p C s x a EO R KN (i & b & I & _ & G). unfold insert. destruct (co_ser C a) as [c|] eqn:SE; [|eauto].
  unfold ll_insert. assert (D : doc_id (co_key C) (th_id (td_header x)) = Done i) by (apply did, I). rewrite D.
  unfold one_update. destruct (op_allowed p (mk_op (co_name C) (Insert (Some i) c))) eqn:P.
  - rewrite (C21_refused E p s (co_name C) _ (DocumentConflict (co_name C) (mk_header i (th_rev (td_header x))))); [cbn; eauto|exact P|rewrite (proj1 KN); discriminate|].
    apply (refused_insert (docs_of s) (co_name C) i c _ G).
  - unfold apply_transaction. cbn [forallb]. rewrite P. cbn. eauto.
Qed.

(* and these are the only reasons to refuse an insert *)
Theorem C80_insert_refused_only : forall A E p (C : collection A) s id a s' e, env_ok E -> reach E s -> known E C -> typed (co_key C) id = true ->
  insert E p C s id a = (s', Fail (a, e)) ->
  co_ser C a = None \/ (forall i, ~ is_id C id i) \/ p ActInsert (co_name C) None = false \/
  (exists i d, is_id C id i /\ doc_at s (co_name C) i = Some d /\ e = Other (DocumentConflict (co_name C) (d_header d))) \/
  exists x, e = Other (ViewError x).
Proof.
  intros A E p C s id a s' e EO R KN T. unfold insert. destruct (co_ser C a) as [b|] eqn:SE; [|auto]. unfold ll_insert.
  destruct (doc_id (co_key C) id) as [i|x|] eqn:D; [|intros _; right; left; intros i (_ & I1 & I2); assert (Z : doc_id (co_key C) id = Done i) by (apply did; auto); congruence|discriminate].
  apply did in D. assert (V : is_id C id i) by (split; auto). unfold one_update.
  destruct (apply_transaction E p s [mk_op (co_name C) (Insert (Some i) b)]) as [s1 o1] eqn:AP.
  destruct (C19_all_or_nothing _ _ _ _ _ _ EO R AP) as [(rs & -> & DA & _)|[ND ->]].
  - destruct (inserts _ (co_name C) _ _ _ _ DA [(Some i, b)] eq_refl) as (hs & -> & F & _ & O).
    inversion F as [|q h ps hs' (G1 & G2 & G3) F' X Y]; subst. inversion F'; subst. destruct h as [j r]. cbn [map with_header]. pose proof (G3 i eq_refl) as J. cbn in J. subst j.
    rewrite (th_ok C id i r (proj2 KN) V). discriminate.
  - destruct o1 as [rs|x|]; [exfalso; apply (ND rs eq_refl)| |discriminate]. cbn [with_header wrap]. intros [= <- <-].
    destruct (C21_fails_only_if_refused _ _ _ _ _ _ AP) as [P|[P|[P|[[y ->]|[y P]]]]]; [cbn in P; auto|exfalso; rewrite (proj1 KN) in P; discriminate| |eauto 9|discriminate].
    right. right. right. left. inversion P as [i' b' d G| | | | | |]; subst. exists i, d. auto.
Qed.

(* update: only the revision the caller has can be replaced; on failure neither the database
   nor the caller's document changes *)
Theorem C80_update : forall A E p (C : collection A) s d s' d' o, env_ok E -> reach E s -> known E C -> lawful C ->
  typed (co_key C) (th_id (td_header d)) = true -> no_collision E C s (td_contents d) -> update E p C s d = (s', d', o) ->
  (o = Done tt /\ td_contents d' = td_contents d /\ th_id (td_header d') = th_id (td_header d) /\ stored C s' d' /\
   (exists i b, is_id C (th_id (td_header d)) i /\ doc_at s (co_name C) i = Some (mk_doc (mk_header i (th_rev (td_header d))) b)) /\
   only_at C [th_id (td_header d)] s s' /\ (well_keyed C s -> well_keyed C s')) \/
  (o <> Done tt /\ s' = s /\ d' = d).
Proof.
  intros A E p C s d s' d' o EO R KN LA T NC. unfold update, to_document, plain_header.
  destruct (co_ser C (td_contents d)) as [b|] eqn:SE; [|intros [= <- <- <-]; right; split; [discriminate|auto]].
  destruct (doc_id (co_key C) (th_id (td_header d))) as [i|e|] eqn:D;
    [|intros [= <- <- <-]; right; split; [discriminate|auto]..].
  apply did in D. assert (V : is_id C (th_id (td_header d)) i) by (split; auto). cbn [d_header d_contents].
  unfold one_update. destruct (apply_transaction E p s [mk_op (co_name C) (Update (mk_header i (th_rev (td_header d))) b)]) as [s1 o1] eqn:AP.
  destruct (C19_all_or_nothing _ _ _ _ _ _ EO R AP) as [(rs & -> & _)|[ND ->]].
  2: { destruct o1 as [rs|e|]; [exfalso; apply (ND rs eq_refl)|intros [= <- <- <-]; right; split; [discriminate|auto]..]. }
  destruct (C21_success _ _ _ _ _ _ _ EO R AP) as (m & r & -> & DO & SM).
  assert (Z : exists rv old, r = RUpdated (co_name C) (mk_header i rv) /\ doc_at s1 (co_name C) i = Some (mk_doc (mk_header i rv) b) /\
    doc_at s (co_name C) i = Some (mk_doc (mk_header i (th_rev (td_header d))) old) /\
    forall c j, ~ (c = co_name C /\ j = i) -> doc_at s1 c j = doc_at s c j).
  { assert (PUT : forall od c j, ~ (c = co_name C /\ j = i) -> put (docs_of s) (co_name C) i od c j = doc_at s c j).
    { intros od c j N. rewrite put_get. destruct (bytes_eqb c (co_name C)) eqn:B1; cbn [andb]; [|reflexivity].
      destruct (bytes_eqb j i) eqn:B2; [|reflexivity]. apply bytes_eqb_spec in B1, B2. exfalso. auto. }
    inversion DO as [|? d0 ? G RV NH|? d0 ? G RV NH| | | | | |]; subst; cbn [h_id h_rev] in *.
    - eexists. exists (d_contents d0). split; [reflexivity|]. pose proof (at_id _ _ _ _ _ EO R G) as W. rewrite RV in W.
      split; [|split; [|intros c j N]].
      + change (doc_at s1) with (docs_of s1); rewrite <- (SM _ _); apply put_same.
      + etransitivity; [exact G|]. f_equal. exact W.
      + change (doc_at s1) with (docs_of s1); rewrite <- (SM _ _); apply PUT, N.
    - exists (th_rev (td_header d)), (d_contents d0). pose proof (at_id _ _ _ _ _ EO R G) as W. pose proof (C23_digest _ _ _ _ _ EO R G) as DG.
      assert (CB : d_contents d0 = b). { eapply NC; [exact G|exact SE|]. rewrite <- (proj2 DG), RV. symmetry. assumption. }
      rewrite RV in W. split; [|split; [|split; [|intros c j N]]].
      + rewrite W. reflexivity.
      + change (doc_at s1) with (docs_of s1); rewrite <- (SM _ _). rewrite G. f_equal. rewrite W, CB. reflexivity.
      + etransitivity; [exact G|]. f_equal. exact W.
      + change (doc_at s1) with (docs_of s1); rewrite <- (SM _ _). reflexivity. }
  destruct Z as (rv & old & -> & G & G0 & O). rewrite (th_ok C _ i rv (proj2 KN) V). intros [= <- <- <-]. left.
  cbn [td_contents td_header th_id]. split; [reflexivity|]. split; [reflexivity|]. split; [reflexivity|]. split; [|split; [|split]].
  - exists i, b. split; [exact V|]. split; [apply LA, SE|exact G].
  - exists i, old. auto.
  - intros c j N. apply O. intros [-> ->]. apply (N (th_id (td_header d))); [left; reflexivity|]. split; [reflexivity|apply V].
  - intros W j d0 GJ. destruct (bytes_dec j i) as [->|NE]; [eauto|]. apply (W j d0). rewrite <- GJ. symmetry. apply O. intros [_ ->]. congruence.
Qed.
(* delete: only the revision the caller has *)
Theorem C80_delete : forall A E p (C : collection A) s d s' o, env_ok E -> reach E s -> known E C ->
  typed (co_key C) (th_id (td_header d)) = true -> delete E p C s d = (s', o) ->
  (o = Done tt /\ absent C s' (th_id (td_header d)) /\
   (exists i b, is_id C (th_id (td_header d)) i /\ doc_at s (co_name C) i = Some (mk_doc (mk_header i (th_rev (td_header d))) b)) /\
   only_at C [th_id (td_header d)] s s' /\ (well_keyed C s -> well_keyed C s')) \/
  (o <> Done tt /\ s' = s).
Proof.
  intros A E p C s d s' o EO R KN T. unfold delete, plain_header.
  destruct (doc_id (co_key C) (th_id (td_header d))) as [i|e|] eqn:D; [|intros [= <- <-]; right; split; [discriminate|auto]..].
  apply did in D. assert (V : is_id C (th_id (td_header d)) i) by (split; auto).
  destruct (apply_transaction E p s [mk_op (co_name C) (Delete (mk_header i (th_rev (td_header d))))]) as [s1 o1] eqn:AP.
  destruct (C19_all_or_nothing _ _ _ _ _ _ EO R AP) as [(rs & -> & _)|[ND ->]].
  2: { destruct o1 as [rs|e|]; [exfalso; apply (ND rs eq_refl)|intros [= <- <-]; right; split; [discriminate|auto]..]. }
  destruct (C21_success _ _ _ _ _ _ _ EO R AP) as (m & r & -> & DO & SM). inversion DO as [| | | | | |? d0 G HD| |]; subst. cbn [h_id] in *.
  intros [= <- <-]. left. split; [reflexivity|].
  assert (O : forall c j, ~ (c = co_name C /\ j = i) -> doc_at s1 c j = doc_at s c j).
  { intros c j N. change (doc_at s1) with (docs_of s1); rewrite <- (SM _ _), put_get. destruct (bytes_eqb c (co_name C)) eqn:B1; cbn [andb]; [|reflexivity].
    destruct (bytes_eqb j i) eqn:B2; [|reflexivity]. apply bytes_eqb_spec in B1, B2. exfalso. auto. }
  split; [|split; [|split]].
  - intros j J. rewrite (same_id C _ i j V J). change (doc_at s1) with (docs_of s1); rewrite <- (SM _ _). apply put_same.
  - exists i, (d_contents d0). split; [exact V|]. etransitivity; [exact G|]. f_equal. destruct d0. cbn in *. congruence.
  - intros c j N. apply O. intros [-> ->]. apply (N (th_id (td_header d))); [left; reflexivity|]. split; [reflexivity|apply V].
  - intros W j d1 GJ. destruct (bytes_dec j i) as [->|NE]; [eauto|]. apply (W j d1). rewrite <- GJ. symmetry. apply O. intros [_ ->]. congruence.
Qed.
(* refresh: the caller's document becomes the stored one, and stays as it is on failure *)
Theorem C80_refresh : forall A E p (C : collection A) s d d' o, env_ok E -> reach E s -> known E C ->
  typed (co_key C) (th_id (td_header d)) = true -> refresh p C s d = (d', o) ->
  (o = Done tt /\ stored C s d' /\ th_id (td_header d') = th_id (td_header d)) \/ (o <> Done tt /\ d' = d).
Proof.
  intros A E p C s d d' o EO R KN T. unfold refresh, get_doc.
  destruct (doc_id (co_key C) (th_id (td_header d))) as [i|e|] eqn:D; [|intros [= <- <-]; right; split; [discriminate|auto]..].
  apply did in D. assert (V : is_id C (th_id (td_header d)) i) by (split; auto).
  destruct (p ActGet (co_name C) (Some i)); [|intros [= <- <-]; right; split; [discriminate|auto]].
  change (t_get i (w_docs (db_work s) (co_name C))) with (doc_at s (co_name C) i). destruct (doc_at s (co_name C) i) as [x|] eqn:G; [|intros [= <- <-]; right; split; [discriminate|auto]].
  unfold typed_doc. destruct (co_de C (d_contents x)) as [a|] eqn:DE; [|intros [= <- <-]; right; split; [discriminate|auto]].
  pose proof (at_id _ _ _ _ _ EO R G) as W. assert (TH : typed_header (co_key C) (d_header x) = Done (mk_th (th_id (td_header d)) (rev_of x))).
  { rewrite W. cbn [d_header]. apply (th_ok C _ i _ (proj2 KN) V). }
  rewrite TH. intros [= <- <-]. left. split; [reflexivity|]. split; [|reflexivity]. exists i, (d_contents x). split; [exact V|]. split; [exact DE|].
  cbn [td_header th_rev]. etransitivity; [exact G|]. f_equal. exact W.
Qed.

(* push_all *)
Definition op_for {A} (C : collection A) (a : A) (q : option bytes * bytes) : Prop :=
  co_ser C a = Some (snd q) /\ match co_nat C a with None => fst q = None | Some v => exists i, doc_id (co_key C) v = Done i /\ fst q = Some i end.
Lemma push_ops_inv {A} (C : collection A) l : forall os, push_ops C l = Done os ->
  exists ps, os = map (fun q => mk_op (co_name C) (Insert (fst q) (snd q))) ps /\ Forall2 (op_for C) l ps.
Proof.
  induction l as [|a l IH]; intros os H; cbn [push_ops] in H; [injection H as <-; exists []; auto|].
  destruct (push_op C a) as [o1| |] eqn:P; try discriminate. destruct (push_ops C l) as [os1| |]; try discriminate. injection H as <-.
  destruct (IH _ eq_refl) as (ps & -> & F). unfold push_op in P.
  destruct (co_nat C a) as [v|] eqn:NA.
  - destruct (doc_id (co_key C) v) as [i| |] eqn:D; try discriminate. destruct (co_ser C a) as [b|] eqn:SE; [|discriminate]. injection P as <-.
    exists ((Some i, b) :: ps). split; [reflexivity|]. constructor; [|exact F]. split; [exact SE|]. rewrite NA. eauto.
  - destruct (co_ser C a) as [b|] eqn:SE; [|discriminate]. injection P as <-.
    exists ((None, b) :: ps). split; [reflexivity|]. constructor; [|exact F]. split; [exact SE|]. rewrite NA. reflexivity.
Qed.
Lemma fill_all {A} (C : collection A) s s' : lawful C -> no_sized_option (co_key C) = true -> forall l ps hs,
  (forall a v, In a l -> co_nat C a = Some v -> typed (co_key C) v = true) -> Forall2 (op_for C) l ps ->
  Forall2 (fun q h => doc_at s' (co_name C) (h_id h) = Some (mk_doc h (snd q)) /\ doc_at s (co_name C) (h_id h) = None /\ forall i, fst q = Some i -> h_id h = i) ps hs ->
  Forall (fun h => exists v, is_id C v (h_id h)) hs ->
  exists xs, fill C (map (RUpdated (co_name C)) hs) l = Done xs /\ map td_contents xs = l /\
    Forall (fun x => stored C s' x /\ absent C s (th_id (td_header x)) /\ forall v, co_nat C (td_contents x) = Some v -> th_id (td_header x) = v) xs /\
    Forall2 (fun h x => is_id C (th_id (td_header x)) (h_id h)) hs xs.
Proof.
  intros LA NS. induction l as [|a l IH]; intros ps hs T F1 F2 F3.
  - inversion F1; subst. inversion F2; subst. exists []. cbn. auto.
  - inversion F1 as [|? q ? ps' [SE NA] F1']; subst. inversion F2 as [|? h ? hs' (G1 & G2 & G3) F2']; subst. inversion_clear F3 as [|? ? [v V] F3'].
    destruct (IH ps' hs') as (xs & X1 & X2 & X3 & X4); auto; [intros; eapply T; [right|]; eassumption|].
    assert (U : exists u, is_id C u (h_id h) /\ forall w, co_nat C a = Some w -> u = w).
    { destruct (co_nat C a) as [w|] eqn:NAT; [|exists v; split; [exact V|discriminate]].
      destruct NA as (i & D & FI). apply did in D. exists w. rewrite (G3 i FI). split; [split; [apply (T a w); [left; reflexivity|exact NAT]|exact D]|congruence]. }
    destruct U as (u & U & UN). destruct h as [i r]. cbn [h_id] in *. cbn [map fill]. rewrite (th_ok C u i r NS U), X1.
    exists (mk_td (mk_th u r) a :: xs). split; [reflexivity|]. split; [cbn; congruence|]. split; [|constructor; [exact U|exact X4]].
    constructor; [|exact X3]. cbn [td_contents td_header th_id]. split; [|split; [|exact UN]].
    + exists i, (snd q). split; [exact U|]. split; [apply LA, SE|exact G1].
    + intros j J. rewrite (same_id C _ _ _ U J). exact G2.
Qed.
Definition ids_of {A} (xs : list (tdoc A)) : list kval := map (fun x => th_id (td_header x)) xs.
Theorem C80_push_all : forall A E p (C : collection A) s l s' o, env_ok E -> reach E s -> known E C -> lawful C -> well_keyed C s ->
  (forall a v, In a l -> co_nat C a = Some v -> typed (co_key C) v = true) -> push_all E p C s l = (s', o) ->
  (exists xs, o = Done xs /\ map td_contents xs = l /\ NoDup (ids_of xs) /\
     Forall (fun x => stored C s' x /\ absent C s (th_id (td_header x)) /\ forall v, co_nat C (td_contents x) = Some v -> th_id (td_header x) = v) xs /\
     only_at C (ids_of xs) s s' /\ well_keyed C s') \/
  ((forall xs, o <> Done xs) /\ s' = s).
Proof.
  intros A E p C s l s' o EO R KN LA WK T. unfold push_all.
  destruct (push_ops C l) as [os|e|] eqn:PO; [|intros [= <- <-]; right; split; [discriminate|reflexivity]..].
  destruct (push_ops_inv C l os PO) as (ps & -> & F1).
  destruct (apply_transaction E p s (map (fun q => mk_op (co_name C) (Insert (fst q) (snd q))) ps)) as [s1 o1] eqn:AP.
  destruct (C19_all_or_nothing _ _ _ _ _ _ EO R AP) as [(rs & -> & DA & _)|[ND ->]].
  2: { destruct o1 as [rs|e|]; [exfalso; apply (ND rs eq_refl)|intros [= <- <-]; right; split; [discriminate|reflexivity]..]. }
  destruct (inserts _ (co_name C) _ _ _ _ DA ps eq_refl) as (hs & -> & F2 & NDH & O).
  assert (K : Forall (op_keyed C) (map (fun q => mk_op (co_name C) (Insert (fst q) (snd q))) ps)).
  { clear - F1 T. induction F1 as [|a q l ps [SE NA] F IH]; [constructor|]. cbn [map]. constructor; [|apply IH; intros; eapply T; [right|]; eassumption].
    intros _. cbn. destruct (co_nat C a) as [v|] eqn:NAT; [|rewrite NA; exact I]. destruct NA as (i & D & ->). apply did in D. exists v. split; [|exact D].
    apply (T a v); [left; reflexivity|exact NAT]. }
  destruct (apply_keyed E p C s _ s1 _ EO R KN WK K AP) as [WK' RK].
  assert (F3 : Forall (fun h => exists v, is_id C v (h_id h)) hs).
  { clear - RK. induction hs as [|h hs IH]; [constructor|]. cbn [map] in RK. inversion_clear RK as [|? ? RK1 RK2]. constructor; [apply RK1; reflexivity|apply IH, RK2]. }
  destruct (fill_all C s s1 LA (proj2 KN) l ps hs T F1 F2 F3) as (xs & X1 & X2 & X3 & X4). rewrite X1. intros [= <- <-]. left. exists xs.
  split; [reflexivity|]. split; [exact X2|]. split; [|split; [exact X3|split; [|exact WK']]].
  - clear - X4 NDH. induction X4 as [|h x hs xs V X4 IH]; [constructor|]. cbn [map ids_of] in *. inversion_clear NDH as [|? ? N1 N2]. constructor; [|apply IH, N2].
    intros I. apply N1. clear - V X4 I. induction X4 as [|h' x' hs xs V' X4 IH]; [destruct I|]. cbn [map In] in *. destruct I as [I|I]; [left|right; apply IH, I].
    destruct V as (_ & V & _), V' as (_ & V' & _). rewrite I in V'. congruence.
  - intros c i N. apply O. intros [-> I]. clear - X4 I N. induction X4 as [|h x hs xs V X4 IH]; [destruct I|]. cbn [ids_of map In] in *. destruct I as [I|I].
    + apply (N (th_id (td_header x))); [left; reflexivity|]. rewrite <- I. split; [reflexivity|apply V].
    + apply IH; [intros v J; apply N; right; exact J|exact I].
Qed.

(* the builder: of several settings the last one of a kind counts *)
Theorem C80_configure : forall l x, configure (l ++ [x]) =
  match x with Ascending => (true, snd (configure l)) | Descending => (false, snd (configure l)) | Limit n => (fst (configure l), Some n) end.
Proof. intros l x. unfold configure. rewrite fold_left_app. reflexivity. Qed.

(* listing *)
Definition readable {A} (C : collection A) (s : dbstate) : Prop := forall i d, doc_at s (co_name C) i = Some d ->
  exists v a, is_id C v i /\ orderable false (co_key C) v = true /\ co_de C (d_contents d) = Some a.
Definition endpoints (r : range) : list kval :=
  match r with Between a b | BetweenIncl a b => [a; b] | From a | To a | ToIncl a => [a] | Full => [] end.
Definition range_ok {A} (C : collection A) (r : range) : Prop :=
  forall v, In v (endpoints r) -> orderable false (co_key C) v = true /\ exists i, is_id C v i.
Lemma typed_docs_all {A} (C : collection A) ds : (forall d, In d ds -> exists x, typed_doc C d = Done x) ->
  exists xs, Forall2 (fun d x => typed_doc C d = Done x) ds xs.
Proof.
  induction ds as [|d ds IH]; intros H; [exists []; constructor|]. destruct (H d (or_introl eq_refl)) as [x X].
  destruct IH as [xs XS]; [intros; apply H; right; assumption|]. exists (x :: xs). constructor; assumption.
Qed.
Lemma typed_docs_eq {A} (C : collection A) ds xs : Forall2 (fun d x => typed_doc C d = Done x) ds xs -> typed_docs C ds = Done xs.
Proof. induction 1 as [|d x ds xs X F IH]; [reflexivity|]. cbn [typed_docs]. rewrite X, IH. reflexivity. Qed.
Lemma Forall2_firstn {A B} (P : A -> B -> Prop) l m : Forall2 P l m -> forall n, Forall2 P (firstn n l) (firstn n m).
Proof. induction 1; intros [|n]; cbn; constructor; auto. Qed.
Lemma Forall2_in_l {A B} (P : A -> B -> Prop) l m x : Forall2 P l m -> In x l -> exists y, In y m /\ P x y.
Proof. induction 1 as [|a b l m X F IH]; intros []; subst; [exists b; cbn; auto|]. destruct IH as (y & I & Y); auto. exists y. cbn. auto. Qed.
Lemma Forall2_in_r {A B} (P : A -> B -> Prop) l m y : Forall2 P l m -> In y m -> exists x, In x l /\ P x y.
Proof. induction 1 as [|a b l m X F IH]; intros []; subst; [exists a; cbn; auto|]. destruct IH as (x & I & Y); auto. exists x. cbn. auto. Qed.
Lemma bound_ok {A} (C : collection A) v i : is_id C v i -> bound_id (co_key C) (KIncluded v) = Done (Included i) /\ bound_id (co_key C) (KExcluded v) = Done (Excluded i).
Proof. intros I. assert (D : doc_id (co_key C) v = Done i) by (apply did, I). unfold bound_id. rewrite D. auto. Qed.
Lemma leb_k {A} (C : collection A) v w i j : is_id C v i -> is_id C w j -> orderable false (co_key C) v = true -> orderable false (co_key C) w = true ->
  (lex_leb i j = true <-> kcmp v w <> Gt) /\ (lex_ltb i j = true <-> kcmp v w = Lt).
Proof.
  intros (T1 & E1 & _) (T2 & E2 & _) O1 O2. unfold lex_leb, lex_ltb. rewrite (C04_key_order _ _ _ _ _ T1 T2 O1 O2 E1 E2).
  destruct (kcmp v w); split; split; congruence.
Qed.
Lemma range_bytes {A} (C : collection A) r : range_ok C r -> exists lo hi,
  bound_id (co_key C) (fst (range_bounds r)) = Done lo /\ bound_id (co_key C) (snd (range_bounds r)) = Done hi /\
  forall v i, is_id C v i -> orderable false (co_key C) v = true -> (in_bounds lo hi i = true <-> in_range r v).
Proof.
  intros RO. destruct r as [a b|a|b|a b|b|]; cbn [range_bounds fst snd in_range endpoints] in *;
  repeat match goal with
  | H : range_ok _ ?r |- _ => first [destruct (H a ltac:(cbn; auto)) as (OA & ia & IA)| idtac]; first [destruct (H b ltac:(cbn; auto)) as (OB & ib & IB)| idtac]; clear H
  end;
  try destruct (bound_ok C _ _ IA) as [A1 A2]; try destruct (bound_ok C _ _ IB) as [B1 B2].
  - exists (Included ia), (Excluded ib). split; [exact A1|]. split; [exact B2|]. intros v i I O. unfold in_bounds. rewrite andb_true_iff, (proj1 (leb_k C _ _ _ _ IA I OA O)), (proj2 (leb_k C _ _ _ _ I IB O OB)). tauto.
  - exists (Included ia), Unbounded. split; [exact A1|]. split; [reflexivity|]. intros v i I O. unfold in_bounds. rewrite andb_true_iff, (proj1 (leb_k C _ _ _ _ IA I OA O)). tauto.
  - exists Unbounded, (Excluded ib). split; [reflexivity|]. split; [exact B2|]. intros v i I O. unfold in_bounds. rewrite andb_true_iff, (proj2 (leb_k C _ _ _ _ I IB O OB)). tauto.
  - exists (Included ia), (Included ib). split; [exact A1|]. split; [exact B1|]. intros v i I O. unfold in_bounds. rewrite andb_true_iff, (proj1 (leb_k C _ _ _ _ IA I OA O)), (proj1 (leb_k C _ _ _ _ I IB O OB)). tauto.
  - exists Unbounded, (Included ib). split; [reflexivity|]. split; [exact B1|]. intros v i I O. unfold in_bounds. rewrite andb_true_iff, (proj1 (leb_k C _ _ _ _ I IB O OB)). tauto.
  - exists Unbounded, Unbounded. split; [reflexivity|]. split; [reflexivity|]. intros v i I O. cbn. tauto.
Qed.
Theorem C80_list : forall A E p (C : collection A) s r l, env_ok E -> reach E s -> known E C -> readable C s -> range_ok C r -> p ActList (co_name C) None = true ->
  exists all,
    (forall x, In x all <-> stored C s x /\ in_range r (th_id (td_header x))) /\
    StronglySorted (fun x y => if fst (configure l) then kcmp (th_id (td_header x)) (th_id (td_header y)) = Lt
                               else kcmp (th_id (td_header y)) (th_id (td_header x)) = Lt) all /\
    list_query p C s r l = Done (match snd (configure l) with None => all | Some n => firstn (N.to_nat n) all end) /\
    (p ActCount (co_name C) None = true -> list_count p C s r = Done (N.of_nat (length all))).
Proof.
  intros A E p C s r l EO R KN RD RO P. destruct (range_bytes C r RO) as (lo & hi & LO & HI & IB).
  destruct (C25_list E p s (co_name C) lo hi (fst (configure l)) EO R P) as (ds & L1 & L2 & L3 & L4 & L5 & L6).
  assert (Q : forall d, In d ds -> exists v a, is_id C v (h_id (d_header d)) /\ orderable false (co_key C) v = true /\ co_de C (d_contents d) = Some a /\ typed_doc C d = Done (mk_td (mk_th v (rev_of d)) a)).
  { intros d I. apply L2 in I. destruct I as [G _]. destruct (RD _ _ G) as (v & a & V & O & DE). exists v, a. split; [exact V|]. split; [exact O|]. split; [exact DE|].
    unfold typed_doc. rewrite DE. destruct d as [[i rv] b]. cbn [d_header h_id rev_of h_rev] in *. rewrite (th_ok C v i rv (proj2 KN) V). reflexivity. }
  destruct (typed_docs_all C ds) as [xs F]; [intros d I; destruct (Q d I) as (v & a & _ & _ & _ & X); eauto|].
  exists xs. split; [|split; [|split]].
  - intros x. split.
    + intros I. destruct (Forall2_in_r _ _ _ _ F I) as (d & J & X). destruct (Q d J) as (v & a & V & O & DE & Y). rewrite X in Y. injection Y as ->.
      apply L2 in J. destruct J as [G B]. split; [|apply (IB v _ V O), B]. exists (h_id (d_header d)), (d_contents d). split; [exact V|]. split; [exact DE|].
      etransitivity; [exact G|]. f_equal. apply (at_id _ _ _ _ _ EO R G).
    + intros [(i & b & V & DE & G) IR]. destruct (RD _ _ G) as (v & a & V' & O & _). assert (X : v = th_id (td_header x)).
      { pose proof (rd C _ _ (proj2 KN) V). pose proof (rd C _ _ (proj2 KN) V'). congruence. } subst v.
      assert (J : In (mk_doc (mk_header i (th_rev (td_header x))) b) ds). { apply L2. cbn [d_header h_id]. split; [exact G|]. apply (IB _ _ V O), IR. }
      destruct (Forall2_in_l _ _ _ _ F J) as (y & I & Y). unfold typed_doc in Y. cbn [d_contents d_header] in Y. rewrite DE, (th_ok C _ i _ (proj2 KN) V) in Y.
      injection Y as <-. destruct x as [[u rv] c]. exact I.
  - clear - F L3 Q. induction F as [|d x ds xs X F IH]; [constructor|]. cbn [map] in L3. inversion_clear L3 as [|? ? S1 S2].
    constructor; [apply IH; [exact S1|intros; apply Q; right; assumption]|]. apply Forall_forall. intros y IY.
    destruct (Forall2_in_r _ _ _ _ F IY) as (d' & J & Y). destruct (Q d (or_introl eq_refl)) as (v & a & V & O & _ & Z). destruct (Q d' (or_intror J)) as (v' & a' & V' & O' & _ & Z').
    rewrite X in Z. rewrite Y in Z'. injection Z as ->. injection Z' as ->. cbn [td_header th_id].
    rewrite Forall_forall in S2. specialize (S2 (h_id (d_header d')) (in_map (fun d => h_id (d_header d)) _ _ J)). cbn beta in S2.
    destruct V as (T & EN & _), V' as (T' & EN' & _). destruct (fst (configure l)).
    + rewrite <- (C04_key_order _ _ _ _ _ T T' O O' EN EN'). exact S2.
    + rewrite <- (C04_key_order _ _ _ _ _ T' T O' O EN' EN). exact S2.
  - unfold list_query, with_range. rewrite LO, HI. destruct (snd (configure l)) as [n|].
    + rewrite L4. apply typed_docs_eq, Forall2_firstn, F.
    + rewrite L1. apply typed_docs_eq, F.
  - intros PC. unfold list_count, with_range. rewrite LO, HI, (L6 PC). f_equal. f_equal. clear - F. induction F; cbn; congruence.
Qed.

(* get_multiple: the stored documents with the given ids *)
Lemma doc_ids_all {A} (C : collection A) vs : (forall v, In v vs -> exists i, is_id C v i) -> exists is, doc_ids (co_key C) vs = Done is /\ Forall2 (is_id C) vs is.
Proof.
  induction vs as [|v vs IH]; intros H; [exists []; cbn; auto|]. destruct (H v (or_introl eq_refl)) as [i V]. destruct IH as (is & D & F); [intros; apply H; right; assumption|].
  exists (i :: is). cbn [doc_ids]. assert (X : doc_id (co_key C) v = Done i) by (apply did, V). rewrite X, D. auto.
Qed.
Theorem C80_get_multiple : forall A E p (C : collection A) s vs, env_ok E -> reach E s -> known E C -> readable C s -> NoDup vs ->
  (forall v, In v vs -> exists i, is_id C v i) -> (forall i, p ActGet (co_name C) (Some i) = true) ->
  exists xs, get_many p C s vs = Done xs /\ NoDup xs /\ forall x, In x xs <-> stored C s x /\ In (th_id (td_header x)) vs.
Proof.
  intros A E p C s vs EO R KN RD ND IDS P. destruct (doc_ids_all C vs IDS) as (is & D & F). unfold get_many. rewrite D.
  assert (NI : NoDup is).
  { clear - F ND KN. induction F as [|v i vs is V F IH]; [constructor|]. inversion_clear ND as [|? ? N1 N2]. constructor; [|apply IH, N2].
    intros I. destruct (Forall2_in_r _ _ _ _ F I) as (v' & J & V'). apply N1. pose proof (rd C _ _ (proj2 KN) V). pose proof (rd C _ _ (proj2 KN) V'). assert (v = v') by congruence. subst. exact J. }
  destruct (C25_get_multiple E p s (co_name C) is EO R NI) as (ds & -> & ND2 & L2); [apply forallb_forall; intros; apply P|].
  assert (Q : forall d, In d ds -> exists v a, is_id C v (h_id (d_header d)) /\ co_de C (d_contents d) = Some a /\ typed_doc C d = Done (mk_td (mk_th v (rev_of d)) a)).
  { intros d I. apply L2 in I. destruct I as [_ G]. destruct (RD _ _ G) as (v & a & V & O & DE). exists v, a. split; [exact V|]. split; [exact DE|].
    unfold typed_doc. rewrite DE. destruct d as [[i rv] b]. cbn [d_header h_id rev_of h_rev] in *. rewrite (th_ok C v i rv (proj2 KN) V). reflexivity. }
  destruct (typed_docs_all C ds) as [xs FX]; [intros d I; destruct (Q d I) as (v & a & _ & _ & X); eauto|].
  exists xs. split; [apply typed_docs_eq, FX|]. split.
  - assert (AT : forall d, In d ds -> doc_at s (co_name C) (h_id (d_header d)) = Some d) by (intros d I; apply L2, I).
    clear - FX ND2 Q AT. induction FX as [|d x ds xs X FX IH]; [constructor|]. inversion_clear ND2 as [|? ? N1 N2].
    constructor; [|apply IH; [exact N2|intros; apply Q; right; assumption|intros; apply AT; right; assumption]].
    intros I. destruct (Forall2_in_r _ _ _ _ FX I) as (d' & J & Y). apply N1.
    destruct (Q d (or_introl eq_refl)) as (v & a & (_ & V & _) & _ & Z). destruct (Q d' (or_intror J)) as (v' & a' & (_ & V' & _) & _ & Z').
    rewrite X in Z. rewrite Y in Z'. injection Z as ->. injection Z' as EV ER EA. subst v'. assert (EI : h_id (d_header d) = h_id (d_header d')) by congruence.
    pose proof (AT d (or_introl eq_refl)) as G. pose proof (AT d' (or_intror J)) as G'. rewrite EI in G. assert (d = d') by congruence. subst. exact J.
  - intros x. split.
    + intros I. destruct (Forall2_in_r _ _ _ _ FX I) as (d & J & X). destruct (Q d J) as (v & a & V & DE & Y). rewrite X in Y. injection Y as ->.
      apply L2 in J. destruct J as [B G]. split.
      * exists (h_id (d_header d)), (d_contents d). split; [exact V|]. split; [exact DE|]. etransitivity; [exact G|]. f_equal. apply (at_id _ _ _ _ _ EO R G).
      * cbn [td_header th_id]. destruct (Forall2_in_r _ _ _ _ F B) as (v' & J & V'). pose proof (rd C _ _ (proj2 KN) V). pose proof (rd C _ _ (proj2 KN) V'). assert (v = v') by congruence. subst. exact J.
    + intros [(i & b & V & DE & G) I]. destruct (Forall2_in_l _ _ _ _ F I) as (j & J & V'). pose proof (same_id C _ _ _ V' (proj1 (proj2 V))) as ->.
      assert (K : In (mk_doc (mk_header j (th_rev (td_header x))) b) ds) by (apply L2; cbn [d_header h_id]; auto).
      destruct (Forall2_in_l _ _ _ _ FX K) as (y & IY & Y). unfold typed_doc in Y. cbn [d_contents d_header] in Y. rewrite DE, (th_ok C _ j _ (proj2 KN) V) in Y.
      injection Y as <-. destruct x as [[u rv] c]. exact IY.
Qed.

(* Without the restriction on key types: the document is committed and the call reports an
   error, or panics, because the new header's id cannot be decoded *)
Definition any_coll (t : kty) : collection bytes := mk_coll [1] t (fun b => Some b) (fun b => Some b) (fun _ => None).
Definition any_env (t : kty) : env := mk_env ex_hash (fun _ => Some t) [].
Theorem C80_committed_error_refuted :
  (exists t id s' e i, typed t id = true /\ encode t id = Done i /\ lawful (any_coll t) /\
     insert (any_env t) everyone (any_coll t) empty_db id [42] = (s', Fail ([42], e)) /\ doc_at s' [1] i <> None) /\
  (exists t id s' i, typed t id = true /\ encode t id = Done i /\
     insert (any_env t) everyone (any_coll t) empty_db id [42] = (s', Panic) /\ doc_at s' [1] i <> None).
Proof.
  split.
  - exists (TTup [TOpt (TU 4); TU 2]), (VTup [VNone; VU 5]). eexists _, _, [0;0;5]. split; [reflexivity|]. split; [reflexivity|].
    split; [intros a b [= <-]; reflexivity|]. split; [vm_compute; reflexivity|]. vm_compute. discriminate.
  - exists (TTup [TOpt (TU 1); TBytes]), (VTup [VNone; VBytes [0; 7]]). eexists _, [0; 0; 0; 7; 0; 3]. split; [reflexivity|]. split; [reflexivity|].
    split; [vm_compute; reflexivity|]. vm_compute. discriminate.
Qed.
(* what is wrong is what the error says, and nothing has been done *)
Theorem C80_errors : forall A E p (C : collection A) s id a,
  (co_ser C a = None -> insert E p C s id a = (s, Fail (a, Serialization)) /\ overwrite E p C s id a = (s, Fail (a, Serialization)) /\ push E p C s a = (s, Fail (a, Serialization))) /\
  (forall e, encode (co_key C) id = Fail e ->
     get p C s id = Fail (Other KeyError) /\ get_many p C s [id] = Fail (Other KeyError) /\
     (forall d, th_id (td_header d) = id -> refresh p C s d = (d, Fail (Other KeyError))) /\
     (forall b, co_ser C a = Some b -> insert E p C s id a = (s, Fail (a, Other KeyError)) /\ overwrite E p C s id a = (s, Fail (a, Other KeyError)) /\
        (co_nat C a = Some id -> push E p C s a = (s, Fail (a, Other KeyError)) /\ push_all E p C s [a] = (s, Fail (Other KeyError))))) /\
  (forall i, encode (co_key C) id = Done i -> 65535 < N.of_nat (length i) ->
     get p C s id = Fail (Other IdTooLong) /\ get_many p C s [id] = Fail (Other IdTooLong) /\
     (forall d, th_id (td_header d) = id -> refresh p C s d = (d, Fail (Other IdTooLong))) /\
     (forall b, co_ser C a = Some b -> insert E p C s id a = (s, Fail (a, Other IdTooLong)) /\ overwrite E p C s id a = (s, Fail (a, Other IdTooLong)) /\
        (co_nat C a = Some id -> push E p C s a = (s, Fail (a, Other IdTooLong)) /\ push_all E p C s [a] = (s, Fail (Other IdTooLong))))) /\
  (forall b e s' l, co_ser C a = Some b -> co_nat C a = None -> apply_transaction E p s (mk_op (co_name C) (Insert None b) :: l) = (s', Fail e) ->
     (l = [] -> push E p C s a = (s', Fail (a, Other e)))).
Proof.
  intros A E p C s id a. split; [|split; [|split]].
  - intros S0. unfold insert, overwrite, push. rewrite S0. auto.
  - intros e X. assert (D : doc_id (co_key C) id = Fail (Other KeyError)) by (unfold doc_id; rewrite X; reflexivity).
    split; [unfold get; rewrite D; reflexivity|]. split; [unfold get_many; cbn [doc_ids]; rewrite D; reflexivity|].
    split; [intros d <-; unfold refresh; rewrite D; reflexivity|]. intros b S0. unfold insert, overwrite, push, push_all. rewrite S0. unfold ll_insert, ll_overwrite. rewrite D. split; [reflexivity|]. split; [reflexivity|].
    intros N0. cbn [push_ops]. unfold push_op. rewrite N0, D. auto.
  - intros i X L. assert (D : doc_id (co_key C) id = Fail (Other IdTooLong)).
    { unfold doc_id, try_from_bytes, max_length. rewrite X. destruct (N.leb_spec (N.of_nat (length i)) 65535); [lia|reflexivity]. }
    split; [unfold get; rewrite D; reflexivity|]. split; [unfold get_many; cbn [doc_ids]; rewrite D; reflexivity|].
    split; [intros d <-; unfold refresh; rewrite D; reflexivity|]. intros b S0. unfold insert, overwrite, push, push_all. rewrite S0. unfold ll_insert, ll_overwrite. rewrite D. split; [reflexivity|]. split; [reflexivity|].
    intros N0. cbn [push_ops]. unfold push_op. rewrite N0, D. auto.
  - intros b e s' l S0 N0 AP ->. unfold push. rewrite S0. unfold ll_insert, one_update. rewrite N0, AP. reflexivity.
Qed.
(* one document whose contents cannot be deserialized hides all others from list and get_multiple *)
Definition ex_coll : collection bytes := mk_coll [1] (TU 1)
  (fun b => match b with x :: _ => if x <? 200 then Some b else None | [] => Some b end)
  (fun b => match b with x :: _ => if x <? 200 then Some b else None | [] => Some b end)
  (fun b => match b with 7 :: n :: _ => Some (VU n) | _ => None end).
Lemma ex_known : known ex_env ex_coll. Proof. split; reflexivity. Qed.
Lemma ex_lawful : lawful ex_coll.
Proof. intros a b. cbn. destruct a as [|x a]; [intros [= <-]; reflexivity|]. destruct (x <? 200) eqn:L; [|discriminate]. intros [= <-]. rewrite L. reflexivity. Qed.
Definition bad_s : dbstate := fst (apply_transaction ex_env everyone ex_s1 [mk_op [1] (Insert (Some [9]) [222])]).
Theorem C80_unreadable_refuted : env_ok ex_env /\ reach ex_env bad_s /\ known ex_env ex_coll /\
  (exists x, get everyone ex_coll bad_s (VU 5) = Done (Some x) /\ td_contents x = [10; 11]) /\
  list_query everyone ex_coll bad_s Full [] = Fail Serialization /\
  list_query everyone ex_coll bad_s (To (VU 9)) [] <> Fail Serialization /\
  get_many everyone ex_coll bad_s [VU 5; VU 9] = Fail Serialization.
Proof.
  split; [exact ex_env_ok|]. split; [apply reach_tx, ex_reach1|]. split; [exact ex_known|].
  split; [eexists; split; vm_compute; reflexivity|]. split; [vm_compute; reflexivity|]. split; [vm_compute; discriminate|vm_compute; reflexivity].
Qed.

Lemma ex_well : well_keyed ex_coll ex_s1 /\ readable ex_coll ex_s1.
Proof.
  assert (Q : forall i d, doc_at ex_s1 [1] i = Some d -> (i = [5] /\ d_contents d = [10; 11]) \/ (i = [6] /\ d_contents d = [20])).
  { intros i d. unfold doc_at. assert (X : w_docs (db_work ex_s1) [1] = [([5], mk_doc ex_h5 [10; 11]); ([6], mk_doc ex_h6 [20])]) by (vm_compute; reflexivity).
    rewrite X. cbn [t_get]. destruct (bytes_eqb i [5]) eqn:B5; [apply bytes_eqb_spec in B5; intros [= <-]; left; auto|].
    destruct (bytes_eqb i [6]) eqn:B6; [apply bytes_eqb_spec in B6; intros [= <-]; right; auto|discriminate]. }
  split; intros i d G; cbn [co_name ex_coll] in G; destruct (Q i d G) as [[-> E]|[-> E]].
  - exists (VU 5). split; [reflexivity|]. split; [reflexivity|]. cbn. lia.
  - exists (VU 6). split; [reflexivity|]. split; [reflexivity|]. cbn. lia.
  - exists (VU 5), [10; 11]. rewrite E. split; [split; [reflexivity|]; split; [reflexivity|]; cbn; lia|]. split; reflexivity.
  - exists (VU 6), [20]. rewrite E. split; [split; [reflexivity|]; split; [reflexivity|]; cbn; lia|]. split; reflexivity.
Qed.
Definition r0 (b : bytes) : revision := mk_rev 0 (9 :: b).
Definition x5 : tdoc bytes := mk_td (mk_th (VU 5) (r0 [10; 11])) [10; 11].
Definition x6 : tdoc bytes := mk_td (mk_th (VU 6) (r0 [20])) [20].
Example C80_ex_get : get everyone ex_coll ex_s1 (VU 5) = Done (Some x5) /\ get everyone ex_coll ex_s1 (VU 7) = Done None /\ stored ex_coll ex_s1 x5 /\ absent ex_coll ex_s1 (VU 7).
Proof.
  split; [vm_compute; reflexivity|]. split; [vm_compute; reflexivity|].
  destruct (C80_get bytes ex_env everyone ex_coll ex_s1 (VU 5) ex_env_ok ex_reach1 ex_known eq_refl (fun _ => eq_refl)) as [G _].
  destruct (C80_get bytes ex_env everyone ex_coll ex_s1 (VU 7) ex_env_ok ex_reach1 ex_known eq_refl (fun _ => eq_refl)) as [_ H].
  split; [apply (G x5); vm_compute; reflexivity|apply H; vm_compute; reflexivity].
Qed.
Example C80_ex_insert :
  snd (insert ex_env everyone ex_coll ex_s1 (VU 3) [30]) = Done (mk_td (mk_th (VU 3) (r0 [30])) [30]) /\
  snd (insert ex_env everyone ex_coll ex_s1 (VU 5) [30]) = Fail ([30], Other (DocumentConflict [1] ex_h5)) /\
  snd (insert ex_env everyone ex_coll ex_s1 (VU 3) [222]) = Fail ([222], Serialization) /\
  snd (push ex_env everyone ex_coll ex_s1 [30]) = Done (mk_td (mk_th (VU 7) (r0 [30])) [30]) /\
  snd (push ex_env everyone ex_coll ex_s1 [7; 2]) = Done (mk_td (mk_th (VU 2) (r0 [7; 2])) [7; 2]) /\
  snd (overwrite ex_env everyone ex_coll ex_s1 (VU 5) [30]) = Done (mk_td (mk_th (VU 5) (mk_rev 1 [9; 30])) [30]).
Proof. repeat split; vm_compute; reflexivity. Qed.
Example C80_ex_update : exists s',
  update ex_env everyone ex_coll ex_s1 (mk_td (td_header x5) [50]) = (s', mk_td (mk_th (VU 5) (mk_rev 1 [9; 50])) [50], Done tt) /\
  update ex_env everyone ex_coll s' (mk_td (td_header x5) [60]) = (s', mk_td (td_header x5) [60], Fail (Other (DocumentConflict [1] (mk_header [5] (mk_rev 1 [9; 50]))))) /\
  snd (delete ex_env everyone ex_coll s' x5) = Fail (Other (DocumentConflict [1] ex_h5)) /\
  refresh everyone ex_coll s' x5 = (mk_td (mk_th (VU 5) (mk_rev 1 [9; 50])) [50], Done tt) /\
  snd (delete ex_env everyone ex_coll s' (mk_td (mk_th (VU 5) (mk_rev 1 [9; 50])) [])) = Done tt.
Proof. eexists. split; [vm_compute; reflexivity|]. repeat split; vm_compute; reflexivity. Qed.
Example C80_ex_no_collision : no_collision ex_env ex_coll ex_s1 [50].
Proof. intros i d b _ X H. cbn in X, H. injection X as <-. injection H as H. exact H. Qed.
Example C80_ex_push_all : exists s',
  push_all ex_env everyone ex_coll ex_s1 [[30]; [7; 2]; [40]] =
    (s', Done [mk_td (mk_th (VU 7) (r0 [30])) [30]; mk_td (mk_th (VU 2) (r0 [7; 2])) [7; 2]; mk_td (mk_th (VU 8) (r0 [40])) [40]]) /\
  list_query everyone ex_coll s' (BetweenIncl (VU 2) (VU 7)) [Limit 9; Descending; Limit 2] = Done [mk_td (mk_th (VU 7) (r0 [30])) [30]; x6] /\
  list_count everyone ex_coll s' (From (VU 6)) = Done 3 /\
  get_many everyone ex_coll s' [VU 8; VU 9; VU 6] = Done [x6; mk_td (mk_th (VU 8) (r0 [40])) [40]] /\
  push_all ex_env everyone ex_coll ex_s1 [[30]; [7; 5]; [40]] = (ex_s1, Fail (Other (DocumentConflict [1] ex_h5))).
Proof. eexists. split; [vm_compute; reflexivity|]. repeat split; vm_compute; reflexivity. Qed.
Example C80_ex_list : readable ex_coll ex_s1 /\ range_ok ex_coll (Between (VU 2) (VU 9)) /\ configure [Limit 9; Descending; Limit 2] = (false, Some 2).
Proof.
  split; [apply ex_well|]. split; [|reflexivity]. intros v [<-|[<-|[]]]; (split; [reflexivity|]); eexists; (split; [reflexivity|]); split; try reflexivity; cbn; lia.
Qed.
Example C80_ex_well : well_keyed ex_coll ex_s1. Proof. apply ex_well. Qed.
Print Assumptions C80_get.
Print Assumptions C80_insert.
Print Assumptions C80_push.
Print Assumptions C80_overwrite.
Print Assumptions C80_insert_conflict.
Print Assumptions C80_insert_refused_only.
Print Assumptions C80_update.
Print Assumptions C80_delete.
Print Assumptions C80_refresh.
Print Assumptions C80_push_all.
Print Assumptions C80_configure.
Print Assumptions C80_list.
Print Assumptions C80_get_multiple.
Print Assumptions C80_errors.
Print Assumptions C80_committed_error_refuted.
Print Assumptions C80_unreadable_refuted.
