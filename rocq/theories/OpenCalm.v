(* OpenStorage.v: histories in which one process at a time opens the directory and
   no process dies in the two dangerous places. *)
From Coq Require Import ZifyBool Lia Arith.
From Verif Require Import Base Vault OpenStorage OpenStorageProofs OpenStorageInv OpenVaultInv.
Local Open Scope N_scope.

Section H.
  Context (H : hpke) (W : lawful H).
  Notation step := (step H).
  Notation run := (run H).
  Notation advance := (advance H).
  Notation event_ok := (event_ok H).
  Notation vault_ok := (vault_ok H).

  (* nobody is running: there is nothing yet, or a number, and with it either no
     vault or a whole one *)
  Definition whole (s : state) (n : N) : Prop :=
    exists g, gen_ok H g /\ mkf s = Some (sealed_file H g) /\ keys s n = Some (put_pair (g_pair H g)).
  Definition rest (s : state) : Prop :=
    (idf s = None /\ mkf s = None) \/ (exists n, id_of s = Some n /\ (mkf s = None \/ whole s n)).
  Definition good (s : state) (p : nat) : Prop :=
    match at_ s p with
    | Off => True
    | Checking => rest s
    | Creating i => i < 2 ^ 64 /\ idf s = None /\ mkf s = None
    | LockNew i => i < 2 ^ 64 /\ idf s = Some [] /\ mkf s = None
    | WritingId i off => i < 2 ^ 64 /\ (off <= length (to_string i))%nat /\ idf s = Some (firstn off (to_string i)) /\ mkf s = None
    | LockRead | Reading => rest s /\ idf s <> None
    | Ready i => id_of s = Some i /\ (mkf s = None \/ whole s i)
    | SetKey i _ | WritingKey i _ _ | GetKey i _ | CreateMaster i _ | WritingMaster i _ _ => id_of s = Some i /\ vault_ok s p
    | Unsealing i | Opened i _ _ => id_of s = Some i /\ whole s i
    | _ => False
    end.
  Definition calm_inv (s : state) : Prop :=
    locked s /\ (forall p, over s p = None) /\ (forall p, good s p) /\
    (forall p q, at_ s p <> Off -> at_ s q <> Off -> p = q) /\ ((forall p, at_ s p = Off) -> rest s).

  Lemma good_ext s t p : at_ t p = at_ s p -> idf t = idf s -> mkf t = mkf s -> keys t = keys s -> good s p -> good t p.
  Proof.
    intros A I M K. unfold good. rewrite A. unfold rest, whole, id_of. rewrite I, M, K.
    destruct (at_ s p) eqn:Ap; try exact (fun x => x); intros (X & Y); (split; [exact X|]); (apply (vault_ext H s); [congruence|congruence|congruence|exact Y]).
  Qed.
  Lemma good_advance s p d g k : d < 2 ^ 64 -> gen_ok H g -> over s p = None -> good s p -> good (advance s p d g k) p.
  Proof.
    intros D G O K. pose proof K as K0. unfold good in K.
    assert (V : vault_ok s p -> vault_ok (advance s p d g k) p) by (apply vault_advance; assumption).
    destruct (at_ s p) eqn:A; try (destruct K; fail); try (unfold advance; rewrite A; exact K0).
    - unfold advance. rewrite A, O. destruct (idf s) as [f|] eqn:F; unfold good; cbn [at_ goto]; rewrite upd_same.
      + split; [exact K|cbn; rewrite F; discriminate].
      + cbn. repeat split; [exact D|exact F|]. destruct K as [(_ & K)|(n & K & _)]; [exact K|]. unfold id_of in K. rewrite F in K. discriminate K.
    - unfold advance. rewrite A. unfold good; cbn [at_ goto]; rewrite upd_same. cbn. destruct K as (K1 & K2 & K3). repeat split; assumption.
    - unfold advance. rewrite A. unfold acquire. destruct (lock s); [exact K0|]. unfold good; cbn [at_]; rewrite upd_same. cbn [idf mkf]. destruct K as (K1 & K2 & K3). split; [exact K1|]. split; [lia|]. split; assumption.
    - destruct K as (K1 & K2 & K3 & K4). unfold advance. rewrite A. cbv zeta. rewrite K3. cbn [bytes_of]. rewrite (write_at_next _ off k K2). pose proof (piece_bound _ _ k K2) as B.
      destruct (Nat.eqb_spec (off + length (firstn k (skipn off (to_string id)))) (length (to_string id))) as [E|E]; unfold good; cbn [at_ goto]; rewrite upd_same.
      + split; [|left; exact K4]. unfold id_of. cbn [idf goto set_id]. rewrite E, firstn_all, parse_to_string by exact K1. reflexivity.
      + split; [exact K1|]. split; [exact B|]. split; [reflexivity|exact K4].
    - unfold advance. rewrite A. unfold acquire. destruct (lock s); [exact K0|]. unfold good; cbn [at_]; rewrite upd_same. exact K.
    - destruct K as ([(K & _)|(n & K & V2)] & K3); [congruence|]. unfold advance. rewrite A. unfold id_of in K. destruct (idf s) as [f|] eqn:F; [|discriminate K]. cbn [bytes_of]. rewrite K.
      unfold good; cbn [at_ goto]; rewrite upd_same. split; [unfold id_of; cbn; rewrite F; exact K|exact V2].
    - destruct K as (K1 & K2). unfold advance. rewrite A. destruct (mkf s) as [m|] eqn:M; unfold good; cbn [at_ goto]; rewrite upd_same.
      + split; [exact K1|]. destruct K2 as [K2|K2]; [congruence|exact K2].
      + split; [exact K1|]. unfold OpenVaultInv.vault_ok. cbn [at_ goto]. rewrite upd_same. split; [exact M|exact G].
    - destruct K as (K1 & K2). specialize (V K2). unfold advance in *. rewrite A in *. unfold good; cbn [at_ goto]; rewrite upd_same. split; [exact K1|exact V].
    - destruct K as (K1 & K2). specialize (V K2). unfold advance in *. rewrite A in *. cbv zeta in *. destruct (_ =? _)%nat; unfold good; cbn [at_ goto]; rewrite upd_same; (split; [exact K1|exact V]).
    - destruct K as (K1 & K2). specialize (V K2). unfold OpenVaultInv.vault_ok in K2. rewrite A in K2. destruct K2 as (K2 & K3 & K4).
      unfold advance in *. rewrite A in *. unfold key_for in *. rewrite K4, (take_pair_put H W g0 K3) in *. cbn [g_pair k_pub] in *. rewrite (proj2 (bytes_eqb_spec _ _) eq_refl) in *.
      unfold good; cbn [at_ goto]; rewrite upd_same. split; [exact K1|exact V].
    - destruct K as (K1 & K2). specialize (V K2). unfold advance in *. rewrite A in *. unfold good; cbn [at_ goto]; rewrite upd_same. split; [exact K1|exact V].
    - destruct K as (K1 & K2). specialize (V K2). unfold OpenVaultInv.vault_ok in K2. rewrite A in K2. destruct K2 as (K2 & K3 & K4 & K5).
      unfold advance in *. rewrite A in *. cbv zeta in *. rewrite K5 in *. cbn [bytes_of] in *. rewrite (write_at_next _ off k) in * by lia.
      destruct (Nat.eqb_spec (off + length (firstn k (skipn off (sealed_file H g0)))) (length (sealed_file H g0))) as [E|E]; unfold good; cbn [at_ goto]; rewrite upd_same; (split; [exact K1|]).
      + exists g0. cbn [mkf keys goto set_mk]. rewrite E, firstn_all. split; [exact K2|]. split; [reflexivity|exact K3].
      + exact V.
    - destruct K as (K1 & g0 & K2 & K3 & K4). unfold advance. rewrite A. rewrite (unseal_whole H W s id g0 K2 K3 K4). unfold good; cbn [at_ goto]; rewrite upd_same. split; [exact K1|]. exists g0. split; [exact K2|]. split; assumption.
  Qed.
  (* the two dangerous places: the id file has been created and is still empty,
     master-keys has been created and is not complete *)
  Definition safe_to_die (c : pc) : Prop :=
    match c with
    | LockNew _ | WritingId _ 0 | WritingMaster _ _ _ => False
    | _ => True
    end.
  Lemma good_stop s p : good s p -> safe_to_die (at_ s p) -> at_ s p <> Off -> rest s.
  Proof.
    unfold good, safe_to_die. intros K C N0. destruct (at_ s p) eqn:A; try (destruct K; fail); try (destruct C; fail); try congruence; try exact K.
    - left. apply K.
    - destruct K as (K1 & K2 & K3 & K4). destruct off as [|off]; [destruct C|]. right. destruct (parse_prefix id (S off) K1 ltac:(lia)) as (n & E & _). exists n.
      split; [unfold id_of; rewrite K3; exact E|left; exact K4].
    - apply K.
    - apply K.
    - right. exists id. exact K.
    - right. exists id. split; [apply K|]. left. destruct K as (_ & K). unfold OpenVaultInv.vault_ok in K. rewrite A in K. apply K.
    - right. exists id. split; [apply K|]. left. destruct K as (_ & K). unfold OpenVaultInv.vault_ok in K. rewrite A in K. apply K.
    - right. exists id. split; [apply K|]. left. destruct K as (_ & K). unfold OpenVaultInv.vault_ok in K. rewrite A in K. apply K.
    - right. exists id. split; [apply K|]. left. destruct K as (_ & K). unfold OpenVaultInv.vault_ok in K. rewrite A in K. apply K.
    - right. exists id. split; [apply K|right; apply K].
    - right. exists id. split; [apply K|right; apply K].
  Qed.
  Lemma rest_ext s t : idf t = idf s -> mkf t = mkf s -> keys t = keys s -> rest s -> rest t.
  Proof. intros I M K. unfold rest, whole, id_of. rewrite I, M, K. exact (fun x => x). Qed.

  Lemma advance_not_off s p d g k : idle (at_ s p) = false -> at_ (advance s p d g k) p <> Off.
  Proof.
    intros Ip. unfold advance, acquire. destruct (at_ s p) eqn:A; cbn in Ip; try discriminate Ip; cbv zeta.
    - destruct (over s p), (idf s); cbn [at_ goto]; rewrite upd_same; discriminate.
    - cbn [at_ goto]; rewrite upd_same; discriminate.
    - destruct (lock s); cbn [at_]; rewrite ?upd_same, ?A; discriminate.
    - destruct (_ =? _)%nat; cbn [at_ goto]; rewrite upd_same; discriminate.
    - destruct (lock s); cbn [at_]; rewrite ?upd_same, ?A; discriminate.
    - destruct (parse _); cbn [at_ goto leave]; rewrite upd_same; discriminate.
    - cbn [at_ goto]; rewrite upd_same; discriminate.
    - destruct (_ =? _)%nat; cbn [at_ goto]; rewrite upd_same; discriminate.
    - destruct (lock s); cbn [at_]; rewrite ?upd_same, ?A; discriminate.
    - destruct (mkf s); cbn [at_ goto]; rewrite upd_same; discriminate.
    - cbn [at_ goto]; rewrite upd_same; discriminate.
    - destruct (_ =? _)%nat; cbn [at_ goto]; rewrite upd_same; discriminate.
    - destruct (key_for _ _ _) as [[r|]|e|]; [destruct (bytes_eqb _ _)|..]; cbn [at_ goto leave]; rewrite upd_same; discriminate.
    - cbn [at_ goto]; rewrite upd_same; discriminate.
    - destruct (_ =? _)%nat; cbn [at_ goto]; rewrite upd_same; discriminate.
    - destruct (unseal_shape H s id) as [(v & x & ->)|[(e & ->)| ->]]; cbn [at_ goto leave]; rewrite upd_same; discriminate.
    - rewrite A. discriminate.
  Qed.
  Definition calm_event (s : state) (e : event) : Prop :=
    match e with
    | Start _ o => o = None /\ forall q, idle (at_ s q) = true
    | Stop p => safe_to_die (at_ s p)
    | External _ _ => False
    | Advance _ _ _ _ => True
    end.
  Fixpoint calm (s : state) (es : list event) : Prop :=
    match es with [] => True | e :: r => event_ok e /\ calm_event s e /\ calm (step s e) r end.

  Lemma calm_step s e : event_ok e -> calm_event s e -> calm_inv s -> calm_inv (step s e).
  Proof.
    intros Ok C (L & O & K & Al & R). pose proof (locked_step H s e L) as L'.
    destruct e as [p o|p d g k|p|i f]; cbn [OpenStorage.step calm_event] in *.
    - destruct C as (-> & Q). assert (Offs : forall q, at_ s q = Off).
      { intros q. specialize (Q q). specialize (K q). unfold good in K. destruct (at_ s q); cbn in Q; try discriminate Q; try destruct K; reflexivity. }
      destruct (idle (at_ s p)); [|repeat apply conj; assumption]. split; [exact L'|]. split; [|split; [|split]].
      + intros q. cbn. destruct (Nat.eq_dec q p) as [->|N0]; [apply upd_same|rewrite upd_other by exact N0; apply O].
      + intros q. destruct (Nat.eq_dec q p) as [->|N0]; unfold good; cbn [at_].
        * rewrite upd_same. apply (rest_ext s); [reflexivity|reflexivity|reflexivity|apply R, Offs].
        * rewrite upd_other by exact N0. rewrite Offs. exact I.
      + intros a b. cbn [at_]. destruct (Nat.eq_dec a p) as [->|Na]; [|rewrite upd_other, Offs by exact Na; congruence]. destruct (Nat.eq_dec b p) as [->|Nb]; [reflexivity|rewrite (upd_other (at_ s) p Checking b), Offs by exact Nb; congruence].
      + intros X. specialize (X p). cbn [at_] in X. rewrite upd_same in X. discriminate X.
    - destruct (idle (at_ s p)) eqn:Ip; [rewrite advance_idle by exact Ip; repeat apply conj; assumption|].
      assert (Np : at_ s p <> Off) by (intros E; rewrite E in Ip; discriminate Ip).
      assert (X : forall q, q <> p -> at_ (advance s p d g k) q = Off).
      { intros q N0. rewrite (others H s p d g k q N0). destruct (at_ s q) eqn:E; try reflexivity; elim N0; apply Al; congruence. }
      assert (Kp : good (advance s p d g k) p) by (apply good_advance; [apply Ok|apply Ok|apply O|apply K]).
      assert (Mv : at_ (advance s p d g k) p <> Off) by (apply advance_not_off, Ip).
      split; [exact L'|]. split; [intros q; rewrite over_advance; apply O|]. split; [|split].
      + intros q. destruct (Nat.eq_dec q p) as [->|N0]; [exact Kp|]. unfold good. rewrite X by exact N0. exact I.
      + intros a b Na Nb. destruct (Nat.eq_dec a p) as [->|Ea]; [|rewrite X in Na by exact Ea; congruence]. destruct (Nat.eq_dec b p) as [->|Eb]; [reflexivity|rewrite X in Nb by exact Eb; congruence].
      + intros Y. elim Mv. apply Y.
    - split; [exact L'|]. split; [exact O|]. split; [|split].
      + intros q. destruct (Nat.eq_dec q p) as [->|N0]; [unfold good; cbn [at_ leave]; rewrite upd_same; exact I|].
        apply (good_ext s); [cbn; apply upd_other, N0|reflexivity|reflexivity|reflexivity|apply K].
      + intros a b. cbn [at_ leave]. destruct (Nat.eq_dec a p) as [->|Ea]; [rewrite upd_same; congruence|]. destruct (Nat.eq_dec b p) as [->|Eb]; [rewrite upd_same; congruence|]. rewrite !upd_other by assumption. apply Al.
      + intros Y. apply (rest_ext s); [reflexivity|reflexivity|reflexivity|].
        assert (Dp : at_ s p = Off \/ at_ s p <> Off) by (destruct (at_ s p); (left; reflexivity) || (right; discriminate)).
        destruct Dp as [E|E]; [|apply (good_stop s p); [apply K|exact C|exact E]]. apply R. intros q. destruct (Nat.eq_dec q p) as [->|N0]; [exact E|]. specialize (Y q). cbn [at_ leave] in Y. rewrite upd_other in Y by exact N0. exact Y.
    - destruct C.
  Qed.
  Lemma calm_run es : forall s, calm s es -> calm_inv s -> calm_inv (run s es).
  Proof. induction es as [|e r IH]; intros s C K; [exact K|]. destruct C as (Ok & C & Cr). cbn [OpenStorage.run]. apply IH; [exact Cr|apply calm_step; assumption]. Qed.
  Lemma calm_empty : calm_inv empty.
  Proof.
    split; [apply locked_empty|]. split; [reflexivity|]. split; [intros p; exact I|]. split; [intros p q X; elim X; reflexivity|]. intros _. left. split; reflexivity.
  Qed.

  (* ---------- a process that is left alone gets it open ---------- *)
  Definition rank (c : pc) : nat :=
    match c with
    | Checking => 10 | Creating _ => 9 | LockNew _ | LockRead => 8 | WritingId _ _ | Reading => 7 | Ready _ => 6 | SetKey _ _ => 5
    | WritingKey _ _ _ => 4 | GetKey _ _ => 3 | CreateMaster _ _ => 2 | WritingMaster _ _ _ | Unsealing _ => 1 | _ => 0
    end.
  Lemma digits_short fuel : forall n, (length (digits fuel n) <= fuel)%nat.
  Proof.
    induction fuel as [|k IH]; intros n; cbn [digits]; [cbn; lia|]. rewrite app_length. cbn [length]. destruct (n <? 10); [cbn; lia|]. specialize (IH (n / 10)). lia.
  Qed.
  Lemma full_piece {A} (l : list A) off k : (length l <= k)%nat -> (off <= length l)%nat -> (off + length (firstn k (skipn off l)))%nat = length l.
  Proof. intros K O. rewrite firstn_length, skipn_length. lia. Qed.
  Lemma pair_len g : gen_ok H g -> length (put_pair (g_pair H g)) = 101%nat.
  Proof. intros (_ & L & O). destruct (w_pub H W _ L O) as (_ & P). unfold put_pair, g_pair. cbn [k_priv k_pub]. rewrite !app_length, le_len, L, P. reflexivity. Qed.
  Lemma sealed_len g : gen_ok H g -> length (sealed_file H g) = 137%nat.
  Proof.
    intros G. destruct (sealed_shape H W g G) as (enc & ct & tag & _ & E & _ & _ & Le & Lt & Lc). rewrite E. unfold put_sealed, put_bytes. rewrite !app_length, !le_len, Le, Lt, Lc. reflexivity.
  Qed.
  Lemma rank_advance s p d g k : over s p = None -> good s p -> (holds (at_ s p) = true \/ lock s = None) -> (200 <= k)%nat ->
    at_ s p <> Off -> (rank (at_ (advance s p d g k) p) < rank (at_ s p))%nat \/ exists i v x, at_ s p = Opened i v x.
  Proof.
    intros O K Lk Big N0. unfold good in K. unfold advance. destruct (at_ s p) eqn:A; try (destruct K; fail); try congruence; cbn [holds] in Lk.
    - left. rewrite O. destruct (idf s); cbn [at_ goto]; rewrite upd_same; cbn; lia.
    - left. cbn [at_ goto]; rewrite upd_same; cbn; lia.
    - left. destruct Lk as [Lk|Lk]; [discriminate Lk|]. unfold acquire. rewrite Lk. cbn [at_]. rewrite upd_same. cbn; lia.
    - left. destruct K as (K1 & K2 & K3 & K4). cbv zeta. rewrite full_piece by (try exact K2; pose proof (digits_short 20 id) as X; unfold to_string in *; lia).
      rewrite Nat.eqb_refl. cbn [at_ goto]; rewrite upd_same; cbn; lia.
    - left. destruct Lk as [Lk|Lk]; [discriminate Lk|]. unfold acquire. rewrite Lk. cbn [at_]. rewrite upd_same. cbn; lia.
    - left. destruct (parse _); cbn [at_ goto leave]; rewrite upd_same; cbn; lia.
    - left. destruct (mkf s); cbn [at_ goto]; rewrite upd_same; cbn; lia.
    - left. cbn [at_ goto]; rewrite upd_same; cbn; lia.
    - left. destruct K as (K1 & K2). unfold OpenVaultInv.vault_ok in K2. rewrite A in K2. destruct K2 as (K2 & K3 & K4 & K5). cbv zeta.
      rewrite full_piece by (try exact K4; rewrite pair_len by exact K3; lia). rewrite Nat.eqb_refl. cbn [at_ goto]; rewrite upd_same; cbn; lia.
    - left. destruct (key_for _ _ _) as [[r|]|e|]; [destruct (bytes_eqb _ _)|..]; cbn [at_ goto leave]; rewrite upd_same; cbn; lia.
    - left. cbn [at_ goto]; rewrite upd_same; cbn; lia.
    - left. destruct K as (K1 & K2). unfold OpenVaultInv.vault_ok in K2. rewrite A in K2. destruct K2 as (K2 & K3 & K4 & K5). cbv zeta.
      rewrite full_piece by (try lia; rewrite sealed_len by exact K2; lia). rewrite Nat.eqb_refl. cbn [at_ goto]; rewrite upd_same; cbn; lia.
    - left. destruct (unseal_shape H s id) as [(v & x & ->)|[(e & ->)| ->]]; cbn [at_ goto leave]; rewrite upd_same; cbn; lia.
    - right. eauto.
  Qed.
  Definition pushes (p : nat) (e : event) : Prop := exists d g k, e = Advance p d g k /\ (200 <= k)%nat.
  Lemma opens_alone p es : forall s, calm_inv s -> at_ s p <> Off -> Forall event_ok es -> Forall (pushes p) es -> (rank (at_ s p) <= length es)%nat ->
    exists i v x, at_ (run s es) p = Opened i v x.
  Proof.
    induction es as [|e r IH]; intros s C N0 Ok P Rk.
    - cbn in *. destruct C as (L & O & K & Al & R). specialize (K p). unfold good in K. destruct (at_ s p) eqn:A; cbn in Rk; try lia; try (destruct K; fail); try congruence. eauto.
    - inversion Ok as [|? ? O1 O2]; inversion P as [|? ? P1 P2]; subst. destruct P1 as (d & g & k & -> & Big). cbn [OpenStorage.run OpenStorage.step].
      assert (C' : calm_inv (advance s p d g k)) by (apply (calm_step s (Advance p d g k)); [exact O1|exact I|exact C]).
      destruct C as (L & O & K & Al & R).
      assert (Lk : holds (at_ s p) = true \/ lock s = None).
      { destruct (lock s) as [q|] eqn:E; [|right; reflexivity]. left. pose proof (proj2 (L q) E) as Hq. assert (Nq : at_ s q <> Off) by (intros X; rewrite X in Hq; discriminate Hq).
        rewrite (Al p q N0 Nq). exact Hq. }
      destruct (rank_advance s p d g k (O p) (K p) Lk Big N0) as [Lt|(i & v & x & A)].
      + apply IH; [exact C'| |exact O2|exact P2|cbn in Rk; lia].
        apply advance_not_off. specialize (K p). unfold good in K. destruct (at_ s p); cbn; try reflexivity; try (destruct K; fail); congruence.
      + assert (E : advance s p d g k = s) by (unfold advance; rewrite A; reflexivity). rewrite E. apply IH; [split; [exact L|repeat split; assumption]|exact N0|exact O2|exact P2|rewrite A; cbn; lia].
  Qed.
End H.
