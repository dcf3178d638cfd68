(* Property theorems C10: automatically assigned ids. *)
From Verif Require Import Base Key KeySpec KeyProofs KeyMore KeyPrefix DocId Tree View ViewProofs ViewMap Docs DocsProofs DocsSpec DocsMore DocsHist PropDocs.
From Coq Require Import ZifyBool.
Local Open Scope N_scope.

Lemma insert_auto E w c contents w' r : exec_op E w (mk_op c (Insert None contents)) = Done (w', r) ->
  exists t id, ev_pk E c = Some t /\ next_id t (t_last (w_docs w c)) = Done id /\ t_get id (w_docs w c) = None /\
    r = RUpdated c (mk_header id (new_rev E contents)).
Proof.
  unfold exec_op. cbn [op_coll op_cmd]. unfold exec_insert. destruct (ev_pk E c) as [t|]; [|discriminate].
  destruct (next_id t (t_last (w_docs w c))) as [id|e|] eqn:N; try discriminate.
  destruct (t_get id (w_docs w c)) eqn:G; [discriminate|]. intros H. apply finish_inv in H. destruct H as [-> _].
  exists t, id. auto.
Qed.
(* the state an automatic insert within a transaction sees, and its result *)
Lemma apply_auto E p s pre c contents post s' rs : env_ok E -> db_ok E s ->
  apply_transaction E p s (pre ++ mk_op c (Insert None contents) :: post) = (s', Done rs) ->
  exists s1 rs1 t id, apply_transaction E p s pre = (s1, Done rs1) /\ ev_pk E c = Some t /\
    next_id t (t_last (w_docs (db_work s1) c)) = Done id /\ doc_at s1 c id = None /\
    nth_error rs (length pre) = Some (RUpdated c (mk_header id (new_rev E contents))).
Proof.
  intros EO OK H. apply run_of_apply in H. destruct H as (P & C & w & ch & R & W & I).
  destruct (forallb_app_split _ _ _ _ P) as [P1 P2]. destruct (forallb_app_split _ _ _ _ C) as [C1 C2].
  rewrite run_ops_app in R. destruct (run_ops E pre (db_work s) (mk_changes [] []) []) as [[[w1 ch1] rs1]|x|] eqn:R1; try discriminate.
  destruct (apply_ran _ _ _ _ _ _ _ P1 C1 R1) as [s1 Y].
  apply run_of_apply in Y as Z. destruct Z as (_ & _ & w1' & ch1' & R1' & W1' & I1). rewrite R1 in R1'. injection R1' as <- <-.
  apply invalidate_spec in I1; [|exact EO]. destruct I1 as [DD _].
  assert (LEN : length rs1 = length pre).
  { apply run_ops_spec in R1; [|constructor]. destruct R1 as (new & -> & S & _). cbn. clear -S. induction S; cbn; congruence. }
  apply run_ops_spec in R; [|exact W1']. destruct R as (new & -> & S & _).
  inversion S as [|? ? w2 r ? ? rs2 X S2]; subst. destruct (insert_auto _ _ _ _ _ _ X) as (t & id & A & B & G & ->).
  exists s1, rs1, t, id. split; [exact Y|]. split; [exact A|]. unfold doc_at. rewrite DD. split; [exact B|]. split; [exact G|].
  rewrite nth_error_app2 by lia. rewrite LEN, Nat.sub_diag. reflexivity.
Qed.

Definition unsigned_ids (t : kty) : Prop := exists w, t = TU w \/ t = TNZU w.
Lemma next_id_unsigned t b id : unsigned_ids t -> bytes_ok b -> next_id t (Some b) = Done id -> lex b id = Lt /\ bytes_ok id.
Proof.
  intros [w T] B H.
  assert (X : exists n, b = be w n /\ n + 1 < 256 ^ N.of_nat w /\ id = be w (n + 1)).
  { unfold next_id in H. destruct T as [-> | ->]; cbn [decode] in H; unfold from_be in H;
      (destruct (Nat.eqb_spec (length b) w) as [<-|]; [|discriminate]).
    - cbn [next_value] in H. destruct (N.ltb_spec (of_be b + 1) (umod (length b))); [|discriminate]. cbn [encode] in H.
      unfold try_from_bytes in H. destruct (N.of_nat (length (be (length b) (of_be b + 1))) <=? max_length); [|discriminate].
      injection H as <-. exists (of_be b). rewrite be_of_be by exact B. auto.
    - destruct (of_be b =? 0); [discriminate|].
      cbn [next_value] in H. destruct (N.ltb_spec (of_be b + 1) (umod (length b))); [|discriminate]. cbn [encode] in H.
      unfold try_from_bytes in H. destruct (N.of_nat (length (be (length b) (of_be b + 1))) <=? max_length); [|discriminate].
      injection H as <-. exists (of_be b). rewrite be_of_be by exact B. auto. }
  destruct X as (n & -> & L & ->). split; [|apply be_bytes, L]. rewrite be_lex by lia. apply N.compare_lt_iff. lia.
Qed.
(* With unsigned ids (the default u64, and non-zero integers): the automatic id is
   greater than every id in the collection at that moment, so nothing is overwritten.
   [bytes_ok]: the ids are byte strings. *)
Theorem C10_unsigned_ids_increase : forall E p s pre c contents post s' rs t,
  env_ok E -> reach E s -> ev_pk E c = Some t -> unsigned_ids t ->
  (forall s1 rs1 id d, apply_transaction E p s pre = (s1, Done rs1) -> doc_at s1 c id = Some d -> bytes_ok id) ->
  apply_transaction E p s (pre ++ mk_op c (Insert None contents) :: post) = (s', Done rs) ->
  exists s1 rs1 id rev, apply_transaction E p s pre = (s1, Done rs1) /\
    nth_error rs (length pre) = Some (RUpdated c (mk_header id rev)) /\
    doc_at s1 c id = None /\ forall j d, doc_at s1 c j = Some d -> lex j id = Lt.
Proof.
  intros E p s pre c contents post s' rs t EO R PK U B H. pose proof (reach_ok _ _ EO R) as OK.
  destruct (apply_auto _ _ _ _ _ _ _ _ _ EO OK H) as (s1 & rs1 & t' & id & A & PK' & N & G & RS).
  rewrite PK in PK'. injection PK' as <-. exists s1, rs1, id, (new_rev E contents). split; [exact A|]. split; [exact RS|].
  split; [exact G|]. intros j d J.
  assert (R1 : reach E s1). { change s1 with (fst (s1, Done rs1 : outcome (list opres) terr)). rewrite <- A. apply reach_tx, R. }
  destruct (proj1 (reach_ok _ _ EO R1) c) as [[W _] _].
  destruct (t_last (w_docs (db_work s1) c)) as [k|] eqn:L.
  - destruct (t_last_spec _ _ W L) as [K1 K2]. apply keys_get in K1. destruct K1 as [dk K1].
    destruct (next_id_unsigned _ _ _ U (B _ _ _ _ A K1) N) as [LT _].
    assert (J2 : In j (t_keys (w_docs (db_work s1) c))) by (apply keys_get; eauto). specialize (K2 j J2).
    destruct (lex j k) eqn:Q; [apply lex_eq in Q; subst; exact LT|eapply lex_lt_trans; eassumption|contradiction].
  - apply last_none in L. unfold doc_at in J. rewrite L in J. discriminate.
Qed.
(* the first id and the following ones are consecutive *)
Theorem C10_unsigned_values : forall w n, (1 <= w <= 8)%nat -> n + 1 < 256 ^ N.of_nat w ->
  next_id (TU w) None = Done (be w 1) /\ next_id (TU w) (Some (be w n)) = Done (be w (n + 1)).
Proof.
  intros w n W H. assert (T : forall x, try_from_bytes (be w x) = Done (be w x)).
  { intros x. unfold try_from_bytes. rewrite be_length. assert (M : 8 <= max_length) by (vm_compute; discriminate).
    destruct (N.leb_spec (N.of_nat w) max_length); [reflexivity|lia]. }
  assert (P : 256 <= 256 ^ N.of_nat w).
  { rewrite <- (N.pow_1_r 256) at 1. apply N.pow_le_mono_r; lia. }
  unfold next_id. split.
  - cbn [first_value next_value encode]. unfold umod. destruct (N.ltb_spec (0 + 1) (256 ^ N.of_nat w)); [|lia]. cbn [encode]. rewrite T. reflexivity.
  - cbn [decode]. rewrite from_be_be by lia. cbn [next_value]. unfold umod.
    destruct (N.ltb_spec (n + 1) (256 ^ N.of_nat w)); [|lia]. cbn [encode]. rewrite T. reflexivity.
Qed.
(* when there is no next value, the insert fails and nothing changes *)
Theorem C10_exhausted : forall E p s c contents t b v,
  op_allowed p (mk_op c (Insert None contents)) = true -> ev_pk E c = Some t ->
  t_last (w_docs (db_work s) c) = Some b -> decode t b = Done v -> next_value t v = None ->
  apply_transaction E p s [mk_op c (Insert None contents)] = (s, Fail DocumentPush).
Proof.
  intros E p s c contents t b v P PK L D N. apply single_fail; [exact P|cbn; congruence|].
  unfold exec_op. cbn [op_cmd op_coll]. unfold exec_insert, next_id. rewrite PK, L, D, N. reflexivity.
Qed.
(* the first push to a collection whose type of ids has no first value fails the same way *)
Theorem C10_unsupported : forall E p s c contents t,
  op_allowed p (mk_op c (Insert None contents)) = true -> ev_pk E c = Some t ->
  t_last (w_docs (db_work s) c) = None -> first_value t = None ->
  apply_transaction E p s [mk_op c (Insert None contents)] = (s, Fail DocumentPush).
Proof.
  intros E p s c contents t P PK L D. apply single_fail; [exact P|cbn; congruence|].
  unfold exec_op. cbn [op_cmd op_coll]. unfold exec_insert, next_id. rewrite PK, L, D. reflexivity.
Qed.
(* an automatic insert never overwrites, for every type of ids *)
Theorem C10_never_overwrites : forall E p s pre c contents post s' rs,
  env_ok E -> reach E s ->
  apply_transaction E p s (pre ++ mk_op c (Insert None contents) :: post) = (s', Done rs) ->
  exists s1 rs1 id rev, apply_transaction E p s pre = (s1, Done rs1) /\
    nth_error rs (length pre) = Some (RUpdated c (mk_header id rev)) /\ doc_at s1 c id = None.
Proof.
  intros E p s pre c contents post s' rs EO R H.
  destruct (apply_auto _ _ _ _ _ _ _ _ _ EO (reach_ok _ _ EO R) H) as (s1 & rs1 & t & id & A & _ & _ & G & RS).
  exists s1, rs1, id, (new_rev E contents). auto.
Qed.
(* Signed ids: the same as long as the collection holds no negative id *)
Lemma next_id_signed w b z id : (1 <= w)%nat -> bytes_ok b -> decode (TI w) b = Done (VI z) -> (0 <= z)%Z ->
  next_id (TI w) (Some b) = Done id -> lex b id = Lt.
Proof.
  intros W B D Z H. unfold next_id in H. rewrite D in H. cbn [decode] in D. unfold from_be in D.
  destruct (Nat.eqb_spec (length b) w) as [<-|]; [|discriminate]. injection D as D.
  cbn [next_value] in H. destruct (Z.ltb_spec (z + 1) (Z.of_N (umod (length b) / 2))) as [L|]; [|discriminate]. cbn [encode] in H.
  unfold try_from_bytes in H. destruct (N.of_nat (length (be (length b) (to_unsigned (length b) (z + 1)))) <=? max_length); [|discriminate].
  injection H as <-. assert (HP := umod_pow (length b) W). assert (PP := half_pos (length b) W).
  assert (HB : of_be b < umod (length b)). { unfold umod. apply of_be_bound. exact B. }
  unfold to_signed in D.
  assert (DM : (Z.of_N (umod (length b) / 2) <= 2 ^ (8 * Z.of_nat (length b) - 1))%Z).
  { rewrite N2Z.inj_div. change (Z.of_N 2) with 2%Z. apply Z.div_le_upper_bound; lia. }
  destruct (N.ltb_spec (of_be b) (umod (length b) / 2)) as [Q|Q]; [|lia].
  rewrite <- (be_of_be b B) at 1. rewrite to_unsigned_nonneg by lia. rewrite be_lex.
  - apply N.compare_lt_iff. lia.
  - exact HB.
  - fold (umod (length b)). lia.
Qed.
Theorem C10_signed_ids_increase : forall E p s c contents s' rs w,
  env_ok E -> reach E s -> (1 <= w)%nat -> ev_pk E c = Some (TI w) ->
  (forall id d, doc_at s c id = Some d -> bytes_ok id /\ exists z, decode (TI w) id = Done (VI z) /\ (0 <= z)%Z) ->
  apply_transaction E p s [mk_op c (Insert None contents)] = (s', Done rs) ->
  exists id rev, rs = [RUpdated c (mk_header id rev)] /\ forall j d, doc_at s c j = Some d -> lex j id = Lt.
Proof.
  intros E p s c contents s' rs w EO R W PK B H. pose proof (reach_ok _ _ EO R) as OK.
  pose proof (C22_results _ _ _ _ _ _ EO R H) as RSLT. inversion RSLT as [|? ? ? ? X1 X2]; subst. inversion X2; subst.
  destruct (apply_auto E p s [] c contents [] s' _ EO OK H) as (s1 & rs1 & t' & id & A & PK' & N & G & RS).
  rewrite PK in PK'. injection PK' as <-. cbn in RS. injection RS as ->. exists id, (new_rev E contents). split; [reflexivity|].
  assert (DS : w_docs (db_work s1) c = w_docs (db_work s) c).
  { unfold apply_transaction, apply_to_roots in A. cbn in A. injection A as <- <-. reflexivity. }
  rewrite DS in N. intros j d J. destruct (proj1 OK c) as [[WF _] _].
  destruct (t_last (w_docs (db_work s) c)) as [k|] eqn:L.
  - destruct (t_last_spec _ _ WF L) as [K1 K2]. apply keys_get in K1. destruct K1 as [dk K1].
    destruct (B _ _ K1) as (BK & z & DZ & ZP). pose proof (next_id_signed _ _ _ _ W BK DZ ZP N) as LT.
    assert (J2 : In j (t_keys (w_docs (db_work s) c))) by (apply keys_get; eauto). specialize (K2 j J2).
    destruct (lex j k) eqn:Q; [apply lex_eq in Q; subst; exact LT|eapply lex_lt_trans; eassumption|contradiction].
  - apply last_none in L. unfold doc_at in J. rewrite L in J. discriminate.
Qed.
(* the first id of a signed or non-zero type, and the following ones while they are positive *)
Theorem C10_signed_values : forall w n, (1 <= w <= 8)%nat -> 1 <= n -> n + 1 < 256 ^ N.of_nat w / 2 ->
  next_id (TI w) None = Done (be w 1) /\ next_id (TI w) (Some (be w n)) = Done (be w (n + 1)) /\
  next_id (TNZU w) None = Done (be w 2) /\ next_id (TNZU w) (Some (be w n)) = Done (be w (n + 1)) /\
  next_id (TNZI w) None = Done (be w 2) /\ next_id (TNZI w) (Some (be w n)) = Done (be w (n + 1)).
Proof.
  intros w n W H0 H. assert (T : forall x, try_from_bytes (be w x) = Done (be w x)).
  { intros x. unfold try_from_bytes. rewrite be_length. assert (M : 8 <= max_length) by (vm_compute; discriminate).
    destruct (N.leb_spec (N.of_nat w) max_length); [reflexivity|lia]. }
  fold (umod w) in *. assert (Hm : umod w / 2 <= umod w) by (apply N.div_le_upper_bound; lia).
  assert (U : forall x, x < umod w / 2 -> to_unsigned w (Z.of_N x) = x).
  { intros x X. unfold to_unsigned. rewrite Z.mod_small by lia. apply N2Z.id. }
  assert (G : forall x, x < umod w / 2 -> to_signed w x = Z.of_N x).
  { intros x X. unfold to_signed. destruct (N.ltb_spec x (umod w / 2)); [reflexivity|lia]. }
  assert (DI : decode (TI w) (be w n) = Done (VI (Z.of_N n))) by (cbn [decode]; rewrite from_be_be by (fold (umod w); lia); rewrite G by lia; reflexivity).
  assert (DU : decode (TNZU w) (be w n) = Done (VU n)).
  { cbn [decode]. rewrite from_be_be by (fold (umod w); lia). destruct (N.eqb_spec n 0); [lia|reflexivity]. }
  assert (DN : decode (TNZI w) (be w n) = Done (VI (Z.of_N n))).
  { cbn [decode]. rewrite from_be_be by (fold (umod w); lia). destruct (N.eqb_spec n 0); [lia|]. rewrite G by lia. reflexivity. }
  assert (NX : forall z, 1 <= z -> z + 1 <= n + 1 -> next_value (TI w) (VI (Z.of_N z)) = Some (VI (Z.of_N (z + 1))) /\ next_value (TNZI w) (VI (Z.of_N z)) = Some (VI (Z.of_N (z + 1))) /\ next_value (TNZU w) (VU z) = Some (VU (z + 1))).
  { intros z Z1 Z2. cbn [next_value]. destruct (Z.ltb_spec (Z.of_N z + 1) (Z.of_N (umod w / 2))); [|lia]. destruct (Z.eqb_spec (Z.of_N z + 1) 0); [lia|].
    destruct (N.ltb_spec (z + 1) (umod w)); [|lia]. rewrite N2Z.inj_add. auto. }
  assert (EN : encode (TI w) (VI (Z.of_N (n + 1))) = Done (be w (n + 1))) by (cbn [encode]; rewrite U by lia; reflexivity).
  assert (EZ : encode (TNZI w) (VI (Z.of_N (n + 1))) = Done (be w (n + 1))) by (cbn [encode]; rewrite U by lia; reflexivity).
  assert (EU : encode (TNZU w) (VU (n + 1)) = Done (be w (n + 1))) by reflexivity.
  destruct (NX n H0 ltac:(lia)) as (A1 & A2 & A3). destruct (NX 1 ltac:(lia) ltac:(lia)) as (_ & B2 & B3).
  assert (F1 : next_value (TI w) (VI 0) = Some (VI 1)). { cbn [next_value]. destruct (Z.ltb_spec (0 + 1) (Z.of_N (umod w / 2))); [reflexivity|lia]. }
  unfold next_id. rewrite DI, DU, DN, A1, A2, A3, EN, EZ, EU, T. cbn [first_value]. rewrite F1. change (VI 1) with (VI (Z.of_N 1)). rewrite B2, B3.
  cbn [encode]. rewrite !U by lia. rewrite !T. repeat split; reflexivity.
Qed.
Example C10_ex_signed : (1 <= 8 <= 8)%nat /\ 1 <= 1 /\ 1 + 1 < 256 ^ N.of_nat 8 / 2.
Proof. split; [lia|]. split; [lia|]. vm_compute. reflexivity. Qed.
(* With negative ids it is false: ids -1 and 0 are present, the automatic id is
   always 0 again, every such insert fails although most ids are free *)
Definition si_env : env := mk_env ex_hash (fun _ => Some (TI 4)) [].
Definition si_state : dbstate := fst (apply_transaction si_env everyone empty_db
  [mk_op [1] (Insert (Some [0;0;0;0]) []); mk_op [1] (Insert (Some [255;255;255;255]) [])]).
Theorem C10_signed_ids_refuted : env_ok si_env /\ reach si_env si_state /\ forall contents,
  snd (apply_transaction si_env everyone si_state [mk_op [1] (Insert None contents)]) =
    Fail (DocumentConflict [1] (mk_header [0;0;0;0] (mk_rev 0 [9]))).
Proof. split; [constructor|]. split; [apply reach_tx, reach_init|]. intros contents. vm_compute. reflexivity. Qed.
(* the same for an optional id, once a document with the id None exists *)
Definition oi_env : env := mk_env ex_hash (fun _ => Some (TOpt (TU 4))) [].
Definition oi_state : dbstate := fst (apply_transaction oi_env everyone empty_db [mk_op [1] (Insert (Some [0]) [])]).
Theorem C10_optional_ids_refuted : env_ok oi_env /\ reach oi_env oi_state /\ encode (TOpt (TU 4)) VNone = Done [0] /\ forall contents,
  snd (apply_transaction oi_env everyone oi_state [mk_op [1] (Insert None contents)]) =
    Fail (DocumentConflict [1] (mk_header [0] (mk_rev 0 [9]))).
Proof. split; [constructor|]. split; [apply reach_tx, reach_init|]. split; [reflexivity|]. intros contents. vm_compute. reflexivity. Qed.
Example C10_ex : exists s' rs, unsigned_ids (TU 1) /\ ev_pk ex_env [1] = Some (TU 1) /\
  apply_transaction ex_env everyone ex_s1 ([mk_op [1] (Insert None [50])] ++ mk_op [1] (Insert None [60]) :: []) = (s', Done rs) /\
  rs = [RUpdated [1] (mk_header [7] (mk_rev 0 [9; 50])); RUpdated [1] (mk_header [8] (mk_rev 0 [9; 60]))].
Proof. eexists. eexists. split; [exists 1%nat; auto|]. vm_compute. auto. Qed.
Print Assumptions C10_unsigned_ids_increase.
Print Assumptions C10_signed_ids_increase.
Print Assumptions C10_exhausted.
Print Assumptions C10_signed_ids_refuted.
Print Assumptions C10_unsigned_values.
Print Assumptions C10_signed_values.
Print Assumptions C10_never_overwrites.
Print Assumptions C10_optional_ids_refuted.
Print Assumptions C10_unsupported.
