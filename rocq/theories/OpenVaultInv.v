(* Invariants of OpenStorage.v: the vault's files. *)
From Coq Require Import ZifyBool Lia Arith.
From Verif Require Import Base Vault OpenStorage OpenStorageProofs OpenStorageInv.
Local Open Scope N_scope.

Section H.
  Context (H : hpke) (W : lawful H).
  Notation step := (step H).
  Notation run := (run H).
  Notation advance := (advance H).
  Notation event_ok := (event_ok H).

  Definition vault_ok (s : state) (p : nat) : Prop :=
    match at_ s p with
    | SetKey i g => mkf s = None /\ gen_ok H g
    | WritingKey i g off => mkf s = None /\ gen_ok H g /\ (off <= length (put_pair (g_pair H g)))%nat /\ keys s i = Some (firstn off (put_pair (g_pair H g)))
    | GetKey i g | CreateMaster i g => mkf s = None /\ gen_ok H g /\ keys s i = Some (put_pair (g_pair H g))
    | WritingMaster i g off => gen_ok H g /\ keys s i = Some (put_pair (g_pair H g)) /\ (off < length (sealed_file H g))%nat /\ mkf s = Some (firstn off (sealed_file H g))
    | Unsealing i => mkf s <> None
    | Opened i v x => mkf s <> None /\ unseal H s i = Opened i v x
    | _ => True
    end.
  Lemma vault_free s p : holds (at_ s p) = false -> vault_ok s p.
  Proof. unfold vault_ok. destruct (at_ s p); cbn; intros X; try discriminate X; exact I. Qed.
  Lemma vault_ext s t p : at_ s p = at_ t p -> mkf s = mkf t -> keys s = keys t -> vault_ok s p -> vault_ok t p.
  Proof.
    intros A M K V. unfold vault_ok in *. rewrite <- A. destruct (at_ s p); rewrite <- ?M, <- ?K; try exact V.
    destruct V as (V1 & V2). split; [exact V1|]. rewrite <- V2. apply unseal_ext; [symmetry; exact M|rewrite K; reflexivity].
  Qed.
  Lemma vault_advance s p d g k : gen_ok H g -> vault_ok s p -> vault_ok (advance s p d g k) p.
  Proof.
    intros G V. pose proof V as V0. unfold vault_ok in V. unfold advance. destruct (at_ s p) eqn:A; try exact V0.
    - destruct (over s p), (idf s); unfold vault_ok; cbn; rewrite upd_same; exact I.
    - unfold vault_ok; cbn; rewrite upd_same; exact I.
    - unfold acquire, vault_ok. destruct (lock s); cbn; rewrite ?upd_same, ?A; exact I.
    - cbv zeta. destruct (_ =? _)%nat; unfold vault_ok; cbn; rewrite upd_same; exact I.
    - unfold acquire, vault_ok. destruct (lock s); cbn; rewrite ?upd_same, ?A; exact I.
    - destruct (parse _); unfold vault_ok; cbn; rewrite upd_same; exact I.
    - unfold vault_ok; cbn; rewrite upd_same; exact I.
    - cbv zeta. destruct (_ =? _)%nat; unfold vault_ok; cbn; rewrite upd_same; exact I.
    - unfold acquire, vault_ok. destruct (lock s); cbn; rewrite ?upd_same, ?A; exact I.
    - destruct (mkf s) eqn:M; unfold vault_ok; cbn; rewrite upd_same, M; [discriminate|split; [reflexivity|exact G]].
    - destruct V as (V1 & V2). unfold vault_ok; cbn; rewrite upd_same, upd_key_same. split; [exact V1|split; [exact V2|split; [lia|reflexivity]]].
    - destruct V as (V1 & V2 & V3 & V4). cbv zeta. rewrite V4. cbn [bytes_of]. rewrite (write_at_next _ off k V3). pose proof (piece_bound _ _ k V3) as B.
      destruct (Nat.eqb_spec (off + length (firstn k (skipn off (put_pair (g_pair H g0))))) (length (put_pair (g_pair H g0)))) as [E|E]; unfold vault_ok; cbn [at_ goto]; rewrite upd_same; cbn [keys mkf set_key goto]; rewrite upd_key_same.
      + rewrite E, firstn_all. split; [exact V1|split; [exact V2|reflexivity]].
      + split; [exact V1|split; [exact V2|split; [exact B|reflexivity]]].
    - destruct V as (V1 & V2 & V3). unfold key_for. rewrite V3, (take_pair_put H W g0 V2). cbn [g_pair k_pub]. rewrite (proj2 (bytes_eqb_spec _ _) eq_refl).
      unfold vault_ok; cbn; rewrite upd_same. split; [exact V1|split; [exact V2|exact V3]].
    - destruct V as (V1 & V2 & V3). unfold vault_ok; cbn [at_ goto]; rewrite upd_same. split; [exact V2|split; [exact V3|split; [apply sealed_nonempty; assumption|reflexivity]]].
    - destruct V as (V2 & V3 & V4 & V5). cbv zeta. rewrite V5. cbn [bytes_of]. rewrite (write_at_next _ off k) by lia. pose proof (piece_bound (sealed_file H g0) off k ltac:(lia)) as B.
      destruct (Nat.eqb_spec (off + length (firstn k (skipn off (sealed_file H g0)))) (length (sealed_file H g0))) as [E|E]; unfold vault_ok; cbn [at_ goto]; rewrite upd_same.
      + split; [discriminate|]. apply unseal_whole; [exact W|exact V2|cbn [mkf set_mk goto]; rewrite E, firstn_all; reflexivity|exact V3].
      + split; [exact V2|split; [exact V3|split; [lia|reflexivity]]].
    - destruct (unseal_shape H s id) as [(v & x & E)|[(e & E)|E]]; rewrite E; unfold vault_ok; cbn [at_ goto leave]; rewrite upd_same; try exact I. split; [exact V|]. rewrite <- E. apply unseal_ext; reflexivity.
  Qed.
  (* nobody but the holder of the lock touches the vault's files *)
  Lemma touch_mk s p d g k : holds (at_ s p) = false -> mkf (advance s p d g k) = mkf s /\ keys (advance s p d g k) = keys s.
  Proof. intros X. split; [apply advance_mk|apply advance_keys]; destruct (at_ s p); cbn in *; congruence. Qed.
  Definition internal (e : event) : Prop := match e with External _ _ => False | _ => True end.
  Lemma vault_step s e : event_ok e -> internal e -> locked s -> (forall p, vault_ok s p) -> forall p, vault_ok (step s e) p.
  Proof.
    intros Ok In L V q. destruct e as [p o|p d g k|p|i f]; cbn [OpenStorage.step]; [| | |destruct In].
    - destruct (idle (at_ s p)); [|apply V]. destruct (Nat.eq_dec q p) as [->|N0].
      + apply vault_free. cbn. rewrite upd_same. reflexivity.
      + apply (vault_ext s); [cbn; rewrite upd_other by exact N0; reflexivity|reflexivity|reflexivity|apply V].
    - destruct (Nat.eq_dec q p) as [->|N0]; [apply vault_advance; [apply Ok|apply V]|].
      destruct (holds (at_ s q)) eqn:Hq.
      + assert (Hp : holds (at_ s p) = false). { destruct (holds (at_ s p)) eqn:Hp; [|reflexivity]. apply (L q) in Hq. apply (L p) in Hp. congruence. }
        destruct (touch_mk s p d g k Hp) as (M & K). apply (vault_ext s); [symmetry; apply others, N0|symmetry; exact M|symmetry; exact K|apply V].
      + apply vault_free. rewrite (others H s p d g k q N0). exact Hq.
    - destruct (Nat.eq_dec q p) as [->|N0].
      + apply vault_free. cbn. rewrite upd_same. reflexivity.
      + apply (vault_ext s); [cbn; rewrite upd_other by exact N0; reflexivity|reflexivity|reflexivity|apply V].
  Qed.
  Lemma vault_run es : forall s, Forall event_ok es -> Forall internal es -> locked s -> (forall p, vault_ok s p) -> forall p, vault_ok (run s es) p.
  Proof.
    induction es as [|e r IH]; intros s Ok In L V; [exact V|]. inversion Ok as [|? ? O1 O2]; inversion In as [|? ? I1 I2]; subst.
    cbn [OpenStorage.run]. apply IH; [exact O2|exact I2|apply locked_step, L|apply vault_step; assumption].
  Qed.
  Lemma vault_empty p : vault_ok empty p.
  Proof. exact I. Qed.

  (* the vault exists and nobody is setting it up *)
  Definition setting_up (c : pc) : bool := match c with SetKey _ _ | WritingKey _ _ _ | GetKey _ _ | CreateMaster _ _ | WritingMaster _ _ _ => true | _ => false end.
  Definition founded (s : state) : Prop := mkf s <> None /\ forall p, setting_up (at_ s p) = false.
  Lemma advance_setup s p d g k : mkf s <> None -> setting_up (at_ s p) = false -> setting_up (at_ (advance s p d g k) p) = false.
  Proof.
    intros M X. unfold advance. destruct (at_ s p) eqn:A; cbn in X; try discriminate X; try (rewrite A; reflexivity).
    - destruct (over s p), (idf s); cbn; rewrite upd_same; reflexivity.
    - cbn; rewrite upd_same; reflexivity.
    - unfold acquire. destruct (lock s); cbn; rewrite ?upd_same, ?A; reflexivity.
    - cbv zeta. destruct (_ =? _)%nat; cbn; rewrite upd_same; reflexivity.
    - unfold acquire. destruct (lock s); cbn; rewrite ?upd_same, ?A; reflexivity.
    - destruct (parse _); cbn; rewrite upd_same; reflexivity.
    - cbn; rewrite upd_same; reflexivity.
    - cbv zeta. destruct (_ =? _)%nat; cbn; rewrite upd_same; reflexivity.
    - unfold acquire. destruct (lock s); cbn; rewrite ?upd_same, ?A; reflexivity.
    - destruct (mkf s) eqn:F; [|congruence]. cbn; rewrite upd_same; reflexivity.
    - destruct (unseal_shape H s id) as [(v & x & ->)|[(e & ->)| ->]]; cbn; rewrite upd_same; reflexivity.
  Qed.
  Lemma founded_step s e : founded s -> founded (step s e) /\ mkf (step s e) = mkf s /\ (internal e -> keys (step s e) = keys s).
  Proof.
    intros (M & U). destruct e as [p o|p d g k|p|i f]; cbn [OpenStorage.step].
    - destruct (idle (at_ s p)); [|split; [split; assumption|split; reflexivity]]. split; [split; [exact M|]|split; reflexivity]. intros q. cbn. destruct (Nat.eq_dec q p) as [->|N0]; [rewrite upd_same; reflexivity|rewrite upd_other by exact N0; apply U].
    - assert (Wm : writes_mk (at_ s p) = false) by (specialize (U p); destruct (at_ s p); cbn in *; congruence).
      assert (Wk : writes_key (at_ s p) = false) by (specialize (U p); destruct (at_ s p); cbn in *; congruence).
      pose proof (advance_mk H s p d g k Wm) as Em. pose proof (advance_keys H s p d g k Wk) as Ek.
      split; [split; [rewrite Em; exact M|]|split; [exact Em|intros _; exact Ek]].
      intros q. destruct (Nat.eq_dec q p) as [->|N0]; [apply advance_setup; [exact M|apply U]|rewrite (others H s p d g k q N0); apply U].
    - split; [split; [exact M|]|split; reflexivity]. intros q. cbn. destruct (Nat.eq_dec q p) as [->|N0]; [rewrite upd_same; reflexivity|rewrite upd_other by exact N0; apply U].
    - split; [split; [exact M|exact U]|split; [reflexivity|intros []]].
  Qed.
  Lemma founded_run es : forall s, founded s -> founded (run s es) /\ mkf (run s es) = mkf s /\ (Forall internal es -> keys (run s es) = keys s).
  Proof.
    induction es as [|e r IH]; intros s F; [split; [exact F|split; reflexivity]|]. cbn [OpenStorage.run]. destruct (founded_step s e F) as (F' & M & K).
    destruct (IH _ F') as (F2 & M2 & K2). split; [exact F2|]. split; [rewrite M2; exact M|]. intros In. inversion In; subst. rewrite K2 by assumption. apply K. assumption.
  Qed.
  Lemma opened_founded s p i v x : locked s -> mkf s <> None -> at_ s p = Opened i v x -> founded s.
  Proof.
    intros L M A. split; [exact M|]. intros q. destruct (setting_up (at_ s q)) eqn:U; [|reflexivity]. exfalso.
    assert (Hq : holds (at_ s q) = true) by (destruct (at_ s q); cbn in *; congruence). assert (Hp : holds (at_ s p) = true) by (rewrite A; reflexivity).
    apply (L q) in Hq. apply (L p) in Hp. assert (q = p) by congruence. subst q. rewrite A in U. discriminate U.
  Qed.
  Lemma quiet_founded s : (forall p, idle (at_ s p) = true) -> mkf s <> None -> founded s.
  Proof. intros Q M. split; [exact M|]. intros p. specialize (Q p). destruct (at_ s p); cbn in *; congruence. Qed.

  (* once somebody has it open, a later opening under the same id unseals the same key *)
  Lemma opened_later s es p i v x q v' x' : Forall event_ok es -> Forall internal es -> locked s -> (forall r, vault_ok s r) ->
    at_ s p = Opened i v x -> at_ (run s es) q = Opened i v' x' -> v' = v /\ x' = x.
  Proof.
    intros Ok In L V A B. pose proof (V p) as Vp. unfold vault_ok in Vp. rewrite A in Vp. destruct Vp as (M & E).
    destruct (founded_run es s (opened_founded s p i v x L M A)) as (_ & M2 & K2). specialize (K2 In).
    pose proof (vault_run es s Ok In L V q) as Vq. unfold vault_ok in Vq. rewrite B in Vq. destruct Vq as (_ & E2).
    rewrite (unseal_ext H (run s es) s i M2) in E2 by (rewrite K2; reflexivity). rewrite E in E2. injection E2 as <- <-. split; reflexivity.
  Qed.
End H.
