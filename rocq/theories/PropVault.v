(* C52: blocks survive compression and encryption. *)
From Verif Require Import Base Utf8 Vault.
From Coq Require Import ZifyBool ZifyNat ZifyN.
Local Open Scope N_scope.

(* ================= specification ================= *)
Definition sized (k : N) (l : bytes) : Prop := N.of_nat (length l) < 2 ^ k.
Record lawful (P : primitives) : Prop := {
  l_seal : forall n m, length n = 24%nat -> unseal P n (seal P n m) = Some m;
  l_seal_len : forall n m, sized 40 m -> sized 64 (seal P n m);
  l_comp : forall m, sized 32 m -> decompress P (compress P m) = Some m;
  l_comp_len : forall m, sized 32 m -> sized 40 (compress P m)
}.
(* the keys that exist: none or the master key (named keys are todo!() in the code) *)
Definition key_ok (k : option keyid) : Prop := k = None \/ k = Some KMaster.
(* bytes that are transformed: encrypted, or compressed because they are long enough *)
Definition transformed (s : option settings) (p : bytes) : Prop :=
  exists v, s = Some v /\ ((exists k, s_key v = Some k) \/ (s_comp v = Some tt /\ (128 <= length p)%nat)).
(* bytes that look like neither a header nor an encrypted block *)
Definition unmistakable (p : bytes) : Prop :=
  (forall h r, p <> trv ++ h :: r) /\ forall v r, p <> to_vec v ++ r.

(* ================= bincode ================= *)
Lemma le_length w : forall n, length (le w n) = w.
Proof. induction w as [|k IH]; intros n; cbn [le length]; [reflexivity|]. rewrite IH. reflexivity. Qed.
Lemma of_le_le w : forall n, n < 256 ^ N.of_nat w -> of_le (le w n) = n.
Proof.
  induction w as [|k IH]; intros n H; cbn [le of_le]; [cbn in H; lia|]. rewrite IH.
  - rewrite (N.div_mod n 256) at 3 by lia. lia.
  - apply N.div_lt_upper_bound; [lia|]. rewrite <- N.pow_succ_r by lia. replace (N.succ (N.of_nat k)) with (N.of_nat (S k)) by lia. exact H.
Qed.
Lemma le_of_le l : bytes_ok l -> le (length l) (of_le l) = l.
Proof.
  induction l as [|b r IH]; intros H; [reflexivity|]. inversion H as [|? ? Hb Hr]; subst. cbn [length le of_le]. unfold byte_ok in Hb.
  rewrite (N.mul_comm 256), N.mod_add, N.mod_small by lia. rewrite N.div_add, N.div_small by lia. rewrite N.add_0_l, IH by exact Hr. reflexivity.
Qed.
Lemma of_le_bound l : bytes_ok l -> of_le l < 256 ^ N.of_nat (length l).
Proof.
  induction l as [|b r IH]; intros H; [cbn; lia|]. inversion H as [|? ? Hb Hr]; subst. specialize (IH Hr). cbn [of_le length]. unfold byte_ok in Hb.
  replace (N.of_nat (S (length r))) with (N.succ (N.of_nat (length r))) by lia. rewrite N.pow_succ_r by lia. lia.
Qed.
Lemma take_int_le w n r : n < 256 ^ N.of_nat w -> take_int w (le w n ++ r) = Some (n, r).
Proof.
  intros H. unfold take_int. rewrite app_length, le_length. replace (w <=? w + length r)%nat with true by lia.
  rewrite firstn_app, skipn_app, le_length, Nat.sub_diag, firstn_all2, skipn_all2 by (rewrite le_length; lia). cbn [firstn skipn app]. rewrite app_nil_r, of_le_le by exact H. reflexivity.
Qed.
Lemma take_int_inv w l n r : bytes_ok l -> take_int w l = Some (n, r) -> l = le w n ++ r /\ bytes_ok r.
Proof.
  unfold take_int. intros H. destruct (Nat.leb_spec w (length l)) as [L|L]; [|discriminate]. intros [= <- <-].
  assert (H1 : bytes_ok (firstn w l)) by (apply Forall_forall; intros x X; rewrite <- (firstn_skipn w l) in H; unfold bytes_ok in H; rewrite Forall_forall in H; apply H, in_app_iff; left; exact X).
  split; [|apply Forall_forall; intros x X; rewrite <- (firstn_skipn w l) in H; unfold bytes_ok in H; rewrite Forall_forall in H; apply H, in_app_iff; right; exact X].
  pose proof (le_of_le _ H1) as E. rewrite firstn_length, Nat.min_l in E by exact L. rewrite E, firstn_skipn. reflexivity.
Qed.
Lemma pow_8 : 256 ^ N.of_nat 8 = 2 ^ 64. Proof. reflexivity. Qed.
Lemma take_put b r : sized 64 b -> take_bytes (put_bytes b ++ r) = Some (b, r).
Proof.
  intros H. unfold take_bytes, put_bytes. rewrite <- app_assoc, take_int_le by (rewrite pow_8; exact H).
  rewrite app_length. replace (N.of_nat (length b) <=? N.of_nat (length b + length r)) with true by lia. rewrite Nat2N.id.
  rewrite firstn_app, skipn_app, Nat.sub_diag, firstn_all, skipn_all. cbn [firstn skipn app]. rewrite app_nil_r. reflexivity.
Qed.
Lemma take_bytes_inv l b r : bytes_ok l -> take_bytes l = Some (b, r) -> l = put_bytes b ++ r /\ bytes_ok b /\ bytes_ok r.
Proof.
  unfold take_bytes. intros H. destruct (take_int 8 l) as [[n l1]|] eqn:T; [|discriminate]. apply take_int_inv in T as (-> & H1); [|exact H].
  destruct (N.leb_spec n (N.of_nat (length l1))) as [L|L]; [|discriminate]. intros [= <- <-].
  rewrite <- (firstn_skipn (N.to_nat n) l1) in H1. apply Forall_app in H1 as (A & B). split; [|split; assumption].
  unfold put_bytes. rewrite <- app_assoc, firstn_skipn. f_equal. f_equal. rewrite firstn_length. lia.
Qed.
Definition wf_payload (v : vpayload) : Prop :=
  match vp_key v with KId s => str_ok s /\ sized 64 (utf8 s) | _ => True end /\ vp_version v < 2 ^ 32 /\ sized 64 (vp_payload v) /\ sized 64 (vp_nonce v).
Lemma from_to v r : wf_payload v -> from_slice (to_vec v ++ r) = Some v.
Proof.
  destruct v as [k ver p n]. unfold wf_payload. cbn [vp_key vp_version vp_payload vp_nonce]. intros (Hk & Hv & Hp & Hn). unfold from_slice, to_vec. cbn [vp_key vp_version vp_payload vp_nonce]. rewrite <- !app_assoc.
  assert (K : forall t, take_key (put_key k ++ t) = Some (k, t)).
  { intros t. unfold take_key, put_key. destruct k as [| |s]; rewrite <- ?app_assoc, take_int_le by (vm_compute; reflexivity); cbn [N.eqb Pos.eqb]; [reflexivity|reflexivity|]. destruct Hk as (Os & Ls). rewrite take_put by exact Ls. rewrite utf8_roundtrip by exact Os. reflexivity. }
  rewrite K, take_int_le by exact Hv. rewrite take_int_le by (vm_compute; reflexivity). cbn [N.eqb]. rewrite take_put by exact Hp. rewrite take_put by exact Hn. reflexivity.
Qed.
Lemma from_slice_inv l v : bytes_ok l -> from_slice l = Some v -> exists r, l = to_vec v ++ r.
Proof.
  unfold from_slice. intros H. destruct (take_key l) as [[k l1]|] eqn:K; [|discriminate].
  assert (E : l = put_key k ++ l1 /\ bytes_ok l1).
  { unfold take_key in K. destruct (take_int 4 l) as [[t l0]|] eqn:T; [|discriminate]. apply take_int_inv in T as (-> & H0); [|exact H].
    destruct (N.eqb_spec t 0) as [->|]; [injection K as <- <-; split; [reflexivity|exact H0]|]. destruct (N.eqb_spec t 1) as [->|]; [injection K as <- <-; split; [reflexivity|exact H0]|].
    destruct (N.eqb_spec t 2) as [->|]; [|discriminate]. destruct (take_bytes l0) as [[b r']|] eqn:B; [|discriminate]. apply take_bytes_inv in B as (-> & Hb & Hr); [|exact H0].
    destruct (utf8_decode b) as [s|] eqn:U; [|discriminate]. injection K as <- <-. apply utf8_decode_sound in U as (_ & U); [|exact Hb]. cbn [put_key]. rewrite U, <- app_assoc. split; [reflexivity|exact Hr]. }
  destruct E as (-> & H1). destruct (take_int 4 l1) as [[ver l2]|] eqn:V; [|discriminate]. apply take_int_inv in V as (-> & H2); [|exact H1].
  destruct (take_int 4 l2) as [[e l3]|] eqn:W; [|discriminate]. apply take_int_inv in W as (-> & H3); [|exact H2]. destruct (N.eqb_spec e 0) as [->|]; [|discriminate].
  destruct (take_bytes l3) as [[p l4]|] eqn:B; [|discriminate]. apply take_bytes_inv in B as (-> & _ & H4); [|exact H3]. destruct (take_bytes l4) as [[n l5]|] eqn:C; [|discriminate]. apply take_bytes_inv in C as (-> & _ & _); [|exact H4].
  intros [= <-]. exists l5. unfold to_vec. cbn [vp_key vp_version vp_payload vp_nonce]. rewrite <- !app_assoc. reflexivity.
Qed.
Lemma is_trv_iff l : is_trv l = true <-> exists h r, l = trv ++ h :: r.
Proof.
  unfold is_trv. rewrite andb_true_iff. unfold trv. split.
  - intros (A & B). destruct l as [|a [|b [|c [|h r]]]]; try discriminate. cbn [firstn] in B. apply bytes_eqb_spec in B. injection B as -> -> ->. exists h, r. reflexivity.
  - intros (h & r & ->). split; [reflexivity|]. cbn [firstn app]. apply bytes_eqb_spec. reflexivity.
Qed.
Lemma decrypt_trv P h l : decrypt P (trv ++ h :: l) =
  match (if negb (N.land h 128 =? 0) then decrypt_payload P l else Done l) with Done d => decompress_as P (comp_from_u8 (N.land h 127)) d | o => o end.
Proof. unfold decrypt. rewrite (proj2 (is_trv_iff (trv ++ h :: l))) by (exists h, l; reflexivity). reflexivity. Qed.
Lemma pow_mono a b l : sized a l -> a <= b -> sized b l.
Proof. unfold sized. intros H L. pose proof (N.pow_le_mono_r 2 a b ltac:(lia) L). lia. Qed.
Lemma sealed P nonce m : lawful P -> length nonce = 24%nat -> sized 40 m -> decrypt_payload P (to_vec (VPayload KMaster 0 (seal P nonce m) nonce)) = Done m.
Proof.
  intros L Ln S. unfold decrypt_payload. rewrite <- (app_nil_r (to_vec _)), from_to.
  - cbn [vp_key vp_nonce vp_payload]. rewrite Ln. cbn [Nat.eqb]. rewrite (l_seal _ L) by exact Ln. reflexivity.
  - split; [exact I|]. split; [reflexivity|]. split; [apply (l_seal_len _ L), S|]. unfold sized. cbn [vp_nonce]. rewrite Ln. reflexivity.
Qed.

(* ================= C52 ================= *)
(* a transformed block is read back under every setting with a vault *)
Theorem C52_transformed P s p nonce v : lawful P -> key_ok (s_key s) -> length nonce = 24%nat -> sized 32 p -> transformed (Some s) p ->
  exists b, store_block P (Some s) nonce p = Done b /\ load_block P (Some v) b = Done p.
Proof.
  intros L K Ln S T. cbn [store_block load_block]. unfold encrypt.
  assert (S' : sized 40 (if is_compressed s p then compress P p else p)) by (destruct (is_compressed s p); [apply (l_comp_len _ L), S|eapply pow_mono; [exact S|lia]]).
  assert (C : is_compressed s p = true -> s_comp s = Some tt) by (unfold is_compressed; destruct (s_comp s) as [[]|]; [reflexivity|intros H; apply andb_true_iff in H as (_ & H); discriminate]).
  destruct K as [K|K]; rewrite K.
  - destruct T as (v0 & [= <-] & [(k & X)|(Sc & Lp)]); [congruence|].
    assert (I : is_compressed s p = true) by (unfold is_compressed; rewrite Sc; apply andb_true_iff; split; [lia|reflexivity]). rewrite I. unfold header. rewrite K, Sc. cbn [N.lor N.eqb].
    eexists. split; [reflexivity|]. change (if Pos.lor 1 1 =? 1 then 1 else 1)%positive with 1%positive. rewrite decrypt_trv. change (negb (N.land 1 128 =? 0)) with false. cbv iota. change (comp_from_u8 (N.land 1 127)) with (Some tt : compression). unfold decompress_as. rewrite (l_comp _ L) by exact S. reflexivity.
  - cbn [encrypt_payload]. unfold header. rewrite K. destruct (is_compressed s p) eqn:I.
    + rewrite (C eq_refl). change (N.lor 128 1) with 129. cbn [N.eqb]. eexists. split; [reflexivity|]. rewrite decrypt_trv. change (negb (N.land 129 128 =? 0)) with true. cbv iota. rewrite sealed by assumption.
      change (comp_from_u8 (N.land 129 127)) with (Some tt : compression). unfold decompress_as. rewrite (l_comp _ L) by exact S. reflexivity.
    + change (N.lor 128 0) with 128. cbn [N.eqb]. eexists. split; [reflexivity|]. rewrite decrypt_trv. change (negb (N.land 128 128 =? 0)) with true. cbv iota. rewrite sealed by assumption. reflexivity.
Qed.
(* other blocks are stored as they are and read back if they cannot be mistaken *)
Theorem C52_plain P w p nonce : lawful P -> bytes_ok p -> ~ transformed w p ->
  store_block P w nonce p = Done p /\ (unmistakable p -> forall r, load_block P r p = Done p).
Proof.
  intros L O T. split.
  - destruct w as [s|]; [|reflexivity]. cbn [store_block]. unfold encrypt. destruct (s_key s) as [k|] eqn:K; [exfalso; apply T; exists s; split; [reflexivity|left; exists k; exact K]|].
    assert (I : is_compressed s p = false).
    { apply not_true_iff_false. intros I. apply T. exists s. split; [reflexivity|]. right. unfold is_compressed in I. apply andb_true_iff in I as (I & J). destruct (s_comp s) as [[]|]; [|discriminate]. split; [reflexivity|lia]. }
    rewrite I. unfold header. rewrite K. reflexivity.
  - intros (U1 & U2) [v|]; [|reflexivity]. cbn [load_block]. unfold decrypt.
    destruct (is_trv p) eqn:Tr; [exfalso; apply is_trv_iff in Tr as (h & r & ->); exact (U1 h r eq_refl)|].
    unfold decrypt_payload. destruct (from_slice p) as [pl|] eqn:F; [|reflexivity]. exfalso. apply from_slice_inv in F as (r & E); [|exact O]. exact (U2 pl r E).
Qed.
(* both together: written under some settings, read under others, where a vault
   is still configured if the block was transformed *)
Theorem C52_roundtrip P w own r own' p nonce : lawful P -> key_ok (s_key w) -> key_ok own -> bytes_ok p -> sized 32 p -> length nonce = 24%nat ->
  (transformed (write_settings w own) p -> read_settings r own' <> None) -> (transformed (write_settings w own) p \/ unmistakable p) ->
  exists b, store_block P (write_settings w own) nonce p = Done b /\ load_block P (read_settings r own') b = Done p.
Proof.
  intros L K Ko O S Ln R U. destruct (write_settings w own) as [s|] eqn:W.
  - assert (Ks : key_ok (s_key s)).
    { unfold write_settings in W. destruct own as [k|].
      - unfold new_if_needed in W. destruct (s_key w), (s_comp w); cbn in W; injection W as <-; exact Ko.
      - unfold new_if_needed in W. destruct (s_key w) eqn:E, (s_comp w); try discriminate; injection W as <-; rewrite E; exact K. }
    assert (D : transformed (Some s) p \/ ~ transformed (Some s) p).
    { destruct (s_key s) as [k|] eqn:E; [left; exists s; split; [reflexivity|left; exists k; exact E]|]. destruct (s_comp s) as [[]|] eqn:C.
      - destruct (le_lt_dec 128 (length p)) as [X|X]; [left; exists s; split; [reflexivity|right; split; assumption]|]. right. intros (v & [= <-] & [(k & Y)|(_ & Y)]); [congruence|lia].
      - right. intros (v & [= <-] & [(k & Y)|(Y & _)]); congruence. }
    destruct D as [T|T].
    + specialize (R T). destruct (read_settings r own') as [v|]; [|congruence]. apply C52_transformed; assumption.
    + destruct (C52_plain P (Some s) p nonce L O T) as (A & B). exists p. split; [exact A|]. apply B. destruct U as [U|U]; [contradiction|exact U].
  - exists p. split; [reflexivity|]. destruct U as [(v & X & _)|U]; [discriminate|]. refine (proj2 (C52_plain P None p nonce L O _) U _). intros (v & X & _). discriminate.
Qed.
(* the two places that choose the settings of a collection agree *)
Theorem C52_same_settings storage own : read_settings storage own = write_settings storage own.
Proof. unfold read_settings, write_settings. destruct own as [k|], (new_if_needed storage) as [v|] eqn:E; try reflexivity. Qed.
(* a collection with a key, or any block under a storage-wide key, is stored encrypted *)
Theorem C52_encrypted P storage own p nonce : key_ok (s_key storage) -> key_ok own -> (own <> None \/ s_key storage <> None) ->
  exists h m, store_block P (write_settings storage own) nonce p = Done (trv ++ h :: to_vec (VPayload KMaster 0 (seal P nonce m) nonce)) /\ (m = p \/ m = compress P p) /\ 128 <= h.
Proof.
  intros K Ko H. assert (X : exists s, write_settings storage own = Some s /\ s_key s = Some KMaster).
  { unfold write_settings. destruct Ko as [-> | ->].
    - destruct H as [H|H]; [congruence|]. destruct K as [K|K]; [congruence|]. exists storage. unfold new_if_needed. rewrite K. split; [destruct (s_comp storage); reflexivity|reflexivity].
    - unfold new_if_needed. destruct (s_key storage), (s_comp storage); eexists; split; reflexivity. }
  destruct X as (s & -> & Ks). cbn [store_block]. unfold encrypt. rewrite Ks. cbn [encrypt_payload]. unfold header. rewrite Ks.
  destruct (is_compressed s p).
  - destruct (s_comp s) as [[]|]; [change (N.lor 128 1) with 129|change (N.lor 128 0) with 128]; cbn [N.eqb]; eexists; eexists; (split; [reflexivity|split; [right; reflexivity|lia]]).
  - change (N.lor 128 0) with 128. cbn [N.eqb]. eexists; eexists; (split; [reflexivity|split; [left; reflexivity|lia]]).
Qed.
(* builds with only one of the features *)
Theorem C52_compression_only P s p : lawful P -> sized 32 p -> ((s_comp s = Some tt /\ (128 <= length p)%nat) \/ forall h r, p <> trv ++ h :: r) ->
  exists b, encrypt_c P s p = Done b /\ decrypt_c P b = Done p.
Proof.
  intros L S H. unfold encrypt_c. eexists. split; [reflexivity|]. destruct (is_compressed s p) eqn:I.
  - unfold decrypt_c. rewrite (proj2 (is_trv_iff _)) by (eexists; eexists; reflexivity). cbn [nth trv app skipn]. change (negb (N.land 1 128 =? 0)) with false. cbv iota.
    change (comp_from_u8 (N.land 1 127)) with (Some tt : compression). unfold decompress_as. rewrite (l_comp _ L) by exact S. reflexivity.
  - unfold decrypt_c. destruct (is_trv p) eqn:T; [|reflexivity]. exfalso. apply is_trv_iff in T as (h & r & E). destruct H as [(C & Lp)|H]; [|exact (H h r E)].
    unfold is_compressed in I. rewrite C in I. apply andb_false_iff in I as [I|I]; [lia|discriminate].
Qed.
Theorem C52_encryption_only P s p nonce : lawful P -> key_ok (s_key s) -> bytes_ok p -> sized 32 p -> length nonce = 24%nat -> (s_key s = Some KMaster \/ forall v r, p <> to_vec v ++ r) ->
  exists b, encrypt_e P s nonce p = Done b /\ decrypt_e P b = Done p.
Proof.
  intros L K O S Ln H. unfold encrypt_e, decrypt_e. destruct K as [K|K]; rewrite K.
  - exists p. split; [reflexivity|]. destruct H as [H|H]; [congruence|]. unfold decrypt_payload. destruct (from_slice p) as [v|] eqn:F; [|reflexivity]. exfalso. apply from_slice_inv in F as (r & E); [|exact O]. exact (H v r E).
  - cbn [encrypt_payload]. eexists. split; [reflexivity|]. apply sealed; [exact L|exact Ln|eapply pow_mono; [exact S|lia]].
Qed.

(* whatever stands in place of the ciphertext or the nonce: if the cipher does not accept it,
   reading the block is an error, never data *)
Theorem C52_tampered P v h ver c nonce : N.land h 128 <> 0 -> ver < 2 ^ 32 -> sized 64 c -> length nonce = 24%nat -> unseal P nonce c = None ->
  load_block P (Some v) (trv ++ h :: to_vec (VPayload KMaster ver c nonce)) = Fail EDecrypt /\
  decrypt_e P (to_vec (VPayload KMaster ver c nonce)) = Fail EDecrypt.
Proof.
  intros H V S Ln U.
  assert (X : decrypt_payload P (to_vec (VPayload KMaster ver c nonce)) = Fail EDecrypt).
  { unfold decrypt_payload. rewrite <- (app_nil_r (to_vec _)), from_to.
    - cbn [vp_key vp_nonce vp_payload]. rewrite Ln. cbn [Nat.eqb]. rewrite U. reflexivity.
    - split; [exact I|]. split; [exact V|]. split; [exact S|]. unfold sized. cbn [vp_nonce]. rewrite Ln. reflexivity. }
  split; [|exact X]. cbn [load_block]. rewrite decrypt_trv. destruct (N.eqb_spec (N.land h 128) 0) as [E|E]; [contradiction|]. cbn [negb]. rewrite X. reflexivity.
Qed.
(* a build without encryption refuses encrypted blocks; damaged compressed data is an error *)
Theorem C52_refused P h l : N.land h 128 <> 0 -> decrypt_c P (trv ++ h :: l) = Fail EEncryptionDisabled.
Proof.
  intros H. unfold decrypt_c. rewrite (proj2 (is_trv_iff _)) by (eexists; eexists; reflexivity). cbn [nth trv app].
  destruct (N.eqb_spec (N.land h 128) 0) as [E|E]; [contradiction|]. reflexivity.
Qed.
Theorem C52_damaged P v l : decompress P l = None -> load_block P (Some v) (trv ++ 1 :: l) = Fail EDecompress /\ decrypt_c P (trv ++ 1 :: l) = Fail EDecompress.
Proof.
  intros H. split.
  - cbn [load_block]. rewrite decrypt_trv. change (negb (N.land 1 128 =? 0)) with false. cbv iota. change (comp_from_u8 (N.land 1 127)) with (Some tt : compression).
    unfold decompress_as. rewrite H. reflexivity.
  - unfold decrypt_c. rewrite (proj2 (is_trv_iff _)) by (eexists; eexists; reflexivity). cbn [nth trv app skipn]. change (negb (N.land 1 128 =? 0)) with false. cbv iota.
    change (comp_from_u8 (N.land 1 127)) with (Some tt : compression). unfold decompress_as. rewrite H. reflexivity.
Qed.

(* a toy cipher and compression for the examples *)
Definition toy2 : primitives := Primitives (fun _ m => 7 :: m) (fun _ c => match c with _ :: m => Some m | [] => None end) (fun m => rev m) (fun c => Some (rev c)).
Lemma toy2_lawful : lawful toy2.
Proof.
  constructor; cbn [seal unseal compress decompress toy2]; intros.
  - reflexivity.
  - unfold sized in *. cbn [length]. change (2 ^ 40) with 1099511627776 in *. change (2 ^ 64) with 18446744073709551616. lia.
  - rewrite rev_involutive. reflexivity.
  - unfold sized in *. rewrite rev_length. change (2 ^ 32) with 4294967296 in *. change (2 ^ 40) with 1099511627776. lia.
Qed.
Definition zeros n : bytes := repeat 0 n.
Example C52_example : lawful toy2 /\ transformed (write_settings (Settings None (Some tt)) (Some KMaster)) (zeros 200) /\
  (exists b, store_block toy2 (write_settings (Settings None (Some tt)) (Some KMaster)) (zeros 24) (zeros 200) = Done b /\ b <> zeros 200 /\ load_block toy2 (Some (Settings None (Some tt))) b = Done (zeros 200)) /\
  ~ transformed (Some (Settings None (Some tt))) [1; 2; 3] /\ unmistakable [1; 2; 3].
Proof.
  split; [exact toy2_lawful|]. split; [eexists; split; [reflexivity|left; exists KMaster; reflexivity]|]. split.
  { let r := eval vm_compute in (store_block toy2 (write_settings (Settings None (Some tt)) (Some KMaster)) (zeros 24) (zeros 200)) in match r with Done ?b => exists b end.
    split; [vm_compute; reflexivity|]. split; [vm_compute; discriminate|vm_compute; reflexivity]. }
  split; [intros (v & [= <-] & [(k & H)|(_ & H)]); [discriminate|cbn in H; lia]|]. split; [intros h r; discriminate|].
  intros v r E. apply (f_equal (@length N)) in E. unfold to_vec in E. rewrite !app_length, !le_length in E. cbn in E. lia.
Qed.
Example C52_tampered_ex : unseal toy2 (zeros 24) [] = None /\ load_block toy2 (Some (Settings (Some KMaster) None)) (trv ++ 128 :: to_vec (VPayload KMaster 0 [] (zeros 24))) = Fail EDecrypt.
Proof. split; vm_compute; reflexivity. Qed.
(* a short block that starts with "trv" comes back without its first four bytes *)
Theorem C52_trv_refuted P nonce : store_block P (Some (Settings None (Some tt))) nonce (trv ++ [0; 104; 105]) = Done (trv ++ [0; 104; 105]) /\
  load_block P (Some (Settings None (Some tt))) (trv ++ [0; 104; 105]) = Done [104; 105] /\ decrypt_c P (trv ++ [0; 104; 105]) = Done [104; 105].
Proof. split; [|split]; vm_compute; reflexivity. Qed.
(* 28 zero bytes are taken for an encrypted block with no key: reading panics *)
Theorem C52_zeros_refuted P nonce : store_block P (Some (Settings None (Some tt))) nonce (zeros 28) = Done (zeros 28) /\
  load_block P (Some (Settings None (Some tt))) (zeros 28) = Panic /\ decrypt_e P (zeros 28) = Panic.
Proof. split; [|split]; vm_compute; reflexivity. Qed.
(* with neither key nor compression configured any more no vault is used: the
   stored bytes are returned as they are, without an error *)
Theorem C52_disabled_refuted P : exists b, store_block P (write_settings (Settings None (Some tt)) None) [] (zeros 128) = Done b /\
  read_settings (Settings None None) None = None /\ load_block P (read_settings (Settings None None) None) b = Done b /\ b <> zeros 128.
Proof. eexists. split; [reflexivity|]. split; [reflexivity|]. split; [reflexivity|]. intros E. apply (f_equal (hd 0)) in E. cbn in E. discriminate. Qed.
Print Assumptions C52_transformed.
Print Assumptions C52_plain.
Print Assumptions C52_roundtrip.
Print Assumptions C52_same_settings.
Print Assumptions C52_encrypted.
Print Assumptions C52_compression_only.
Print Assumptions C52_encryption_only.
Print Assumptions C52_tampered.
Print Assumptions C52_refused.
Print Assumptions C52_damaged.
Print Assumptions C52_trv_refuted.
Print Assumptions C52_zeros_refuted.
Print Assumptions C52_disabled_refuted.
