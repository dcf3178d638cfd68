(* Lemmas about OpenStorage.v. *)
From Coq Require Import ZifyBool Lia Arith.
From Verif Require Import Base Vault OpenStorage.
Local Open Scope N_scope.

(* ---------- functions ---------- *)
Lemma upd_same {A} (f : nat -> A) p x : upd f p x p = x.
Proof. unfold upd. rewrite Nat.eqb_refl. reflexivity. Qed.
Lemma upd_other {A} (f : nat -> A) p x q : q <> p -> upd f p x q = f q.
Proof. intros N0. unfold upd. apply Nat.eqb_neq in N0. rewrite N0. reflexivity. Qed.
Lemma upd_key_same f i x : upd_key f i x i = x.
Proof. unfold upd_key. rewrite N.eqb_refl. reflexivity. Qed.

(* ---------- numbers ---------- *)
Lemma digits_digit fuel : forall n b, In b (digits fuel n) -> is_digit b = true.
Proof.
  induction fuel as [|k IH]; intros n b; cbn [digits]; [intros []|]. rewrite in_app_iff. intros [X|[<-|[]]].
  - destruct (n <? 10); [destruct X|]. exact (IH _ _ X).
  - unfold is_digit. pose proof (N.mod_upper_bound n 10 ltac:(lia)). lia.
Qed.
(* the number that digits stand for, without a bound *)
Definition num (l : bytes) : N := fold_left (fun a b => a * 10 + (b - 48)) l 0.
Lemma num_snoc l b : num (l ++ [b]) = num l * 10 + (b - 48).
Proof. unfold num. rewrite fold_left_app. reflexivity. Qed.
Lemma num_digits fuel : forall n, n < 10 ^ N.of_nat fuel -> num (digits fuel n) = n.
Proof.
  induction fuel as [|k IH]; intros n B.
  - cbn in B. assert (n = 0) by lia. subst. reflexivity.
  - cbn [digits]. rewrite num_snoc. replace (48 + n mod 10 - 48) with (n mod 10) by lia.
    pose proof (N.div_mod n 10 ltac:(lia)) as D. destruct (N.ltb_spec n 10) as [L|L].
    + rewrite N.mod_small by exact L. cbn. reflexivity.
    + rewrite IH; [lia|]. apply N.div_lt_upper_bound; [lia|]. rewrite <- N.pow_succ_r by lia. replace (N.succ (N.of_nat k)) with (N.of_nat (S k)) by lia. exact B.
Qed.
Lemma value_num l : forall acc, (forall b, In b l -> is_digit b = true) -> fold_left (fun a b => a * 10 + (b - 48)) l acc < 2 ^ 64 ->
  value acc l = Some (fold_left (fun a b => a * 10 + (b - 48)) l acc).
Proof.
  induction l as [|b r IH]; intros acc D B; [reflexivity|]. cbn [value fold_left] in *. rewrite (D b (or_introl eq_refl)).
  assert (M : forall l a, a <= fold_left (fun a b => a * 10 + (b - 48)) l a).
  { induction l as [|y l' IHl]; intros a; cbn [fold_left]; [lia|]. specialize (IHl (a * 10 + (y - 48))). lia. }
  specialize (M r (acc * 10 + (b - 48))). replace (acc * 10 + (b - 48) <? 2 ^ 64) with true by lia.
  apply IH; [intros x X; apply D; right; exact X|exact B].
Qed.
Lemma num_prefix l k : num (firstn k l) <= num l.
Proof.
  unfold num. rewrite <- (firstn_skipn k l) at 2. rewrite fold_left_app.
  generalize (fold_left (fun a b => a * 10 + (b - 48)) (firstn k l) 0). intros a. revert a.
  induction (skipn k l) as [|b r IH]; intros a; cbn [fold_left]; [lia|]. specialize (IH (a * 10 + (b - 48))). lia.
Qed.
Lemma firstn_In {A} n (l : list A) x : In x (firstn n l) -> In x l.
Proof. intros X. rewrite <- (firstn_skipn n l). apply in_app_iff. left. exact X. Qed.
Lemma parse_digits l : l <> [] -> (forall b, In b l -> is_digit b = true) -> num l < 2 ^ 64 -> parse l = Some (num l).
Proof.
  intros N0 D B. destruct l as [|b r]; [congruence|]. unfold parse. pose proof (D b (or_introl eq_refl)) as Db. unfold is_digit in Db.
  replace (b =? 43) with false by lia. apply value_num; [exact D|exact B].
Qed.
Lemma to_string_nonempty i : to_string i <> [].
Proof. unfold to_string. cbn [digits]. intros E. apply app_eq_nil in E as (_ & E). discriminate. Qed.
Lemma num_to_string i : i < 2 ^ 64 -> num (to_string i) = i.
Proof. intros B. apply num_digits. eapply N.lt_trans; [exact B|]. reflexivity. Qed.
Lemma parse_to_string i : i < 2 ^ 64 -> parse (to_string i) = Some i.
Proof.
  intros B. rewrite <- (num_to_string i B) at 2. apply parse_digits; [apply to_string_nonempty|intros b; apply digits_digit|].
  rewrite num_to_string by exact B. exact B.
Qed.
(* a number cut off after at least one digit is a number *)
Lemma parse_prefix i k : i < 2 ^ 64 -> (0 < k)%nat -> exists n, parse (firstn k (to_string i)) = Some n /\ n < 2 ^ 64.
Proof.
  intros B K. pose proof (num_prefix (to_string i) k) as P. rewrite num_to_string in P by exact B.
  exists (num (firstn k (to_string i))). split; [|lia].
  apply parse_digits; [|intros b X; eapply digits_digit; eapply firstn_In; exact X|lia].
  pose proof (to_string_nonempty i). destruct (to_string i) as [|x r]; [congruence|]. destruct k; [lia|]. discriminate.
Qed.

(* ---------- files ---------- *)
Lemma write_at_next whole off k : (off <= length whole)%nat ->
  write_at off (firstn k (skipn off whole)) (firstn off whole) = firstn (off + length (firstn k (skipn off whole))) whole.
Proof.
  intros L. unfold write_at. rewrite firstn_firstn, Nat.min_id, firstn_length, Nat.min_l, Nat.sub_diag by exact L.
  rewrite (skipn_all2 (firstn off whole)) by (rewrite firstn_length; lia). cbn [repeat app]. rewrite app_nil_r.
  set (pc := firstn k (skipn off whole)). assert (E : pc = firstn (length pc) (skipn off whole)).
  { unfold pc. rewrite firstn_length. destruct (Nat.le_ge_cases k (length (skipn off whole))) as [M|M].
    - rewrite Nat.min_l by exact M. reflexivity.
    - rewrite Nat.min_r by exact M. rewrite (firstn_all2 (n := k)) by exact M. rewrite firstn_all. reflexivity. }
  clearbody pc. revert E. generalize (length pc) as m. intros m ->. 
  rewrite <- (firstn_skipn off whole) at 3. rewrite firstn_app, firstn_length, Nat.min_l by exact L.
  replace (off + m - off)%nat with m by lia. rewrite (firstn_all2 (n := (off + m)%nat) (firstn off whole)) by (rewrite firstn_length; lia). reflexivity.
Qed.
Lemma piece_bound {A} (whole : list A) off k : (off <= length whole)%nat -> (off + length (firstn k (skipn off whole)) <= length whole)%nat.
Proof. intros L. rewrite firstn_length, skipn_length. lia. Qed.

(* ---------- formats ---------- *)
Lemma take_app n a r : length a = n -> take n (a ++ r) = Some (a, r).
Proof.
  intros <-. unfold take. rewrite app_length. replace (length a <=? length a + length r)%nat with true by lia.
  rewrite firstn_app, skipn_app, Nat.sub_diag, firstn_all, skipn_all. cbn [firstn skipn app]. rewrite app_nil_r. reflexivity.
Qed.
Lemma take_all n a : length a = n -> take n a = Some (a, []).
Proof. intros L. rewrite <- (app_nil_r a) at 1. apply take_app, L. Qed.
Lemma le_len w : forall n, length (le w n) = w.
Proof. induction w as [|k IH]; intros n; [reflexivity|]. cbn [le length]. rewrite IH. reflexivity. Qed.
Lemma of_le_of w : forall n, n < 256 ^ N.of_nat w -> of_le (le w n) = n.
Proof.
  induction w as [|k IH]; intros n B; [cbn in *; lia|]. cbn [le of_le]. rewrite IH.
  - pose proof (N.div_mod n 256 ltac:(lia)). lia.
  - apply N.div_lt_upper_bound; [lia|]. rewrite <- N.pow_succ_r by lia. replace (N.succ (N.of_nat k)) with (N.of_nat (S k)) by lia. exact B.
Qed.
Lemma take_int_app w n r : n < 256 ^ N.of_nat w -> take_int w (le w n ++ r) = Some (n, r).
Proof.
  intros B. unfold take_int. rewrite app_length, le_len. replace (w <=? w + length r)%nat with true by lia.
  rewrite firstn_app, skipn_app, le_len, Nat.sub_diag, firstn_all2, skipn_all2 by (rewrite le_len; lia). cbn [firstn skipn app]. rewrite app_nil_r, of_le_of by exact B. reflexivity.
Qed.
Lemma take_bytes_app b r : N.of_nat (length b) < 2 ^ 64 -> take_bytes (put_bytes b ++ r) = Some (b, r).
Proof.
  intros B. unfold take_bytes, put_bytes. rewrite <- app_assoc, take_int_app by exact B.
  rewrite app_length. replace (N.of_nat (length b) <=? N.of_nat (length b + length r)) with true by lia. rewrite Nat2N.id.
  rewrite firstn_app, skipn_app, Nat.sub_diag, firstn_all, skipn_all. cbn [firstn skipn app]. rewrite app_nil_r. reflexivity.
Qed.

(* a reader that consumes a prefix of what it is given and fails when that is cut short *)
Lemma take_int_inv' w l n r : take_int w l = Some (n, r) -> l = firstn w l ++ r /\ length l = (w + length r)%nat /\ n = of_le (firstn w l).
Proof.
  unfold take_int. destruct (Nat.leb_spec w (length l)) as [L|L]; [|discriminate]. intros [= <- <-].
  rewrite firstn_skipn, skipn_length. split; [reflexivity|]. split; [lia|reflexivity].
Qed.
Lemma take_inv n l a r : take n l = Some (a, r) -> l = a ++ r /\ length a = n.
Proof.
  unfold take. destruct (Nat.leb_spec n (length l)) as [L|L]; [|discriminate]. intros [= <- <-].
  rewrite firstn_skipn, firstn_length. split; [reflexivity|lia].
Qed.
Lemma take_bytes_inv' l b r : take_bytes l = Some (b, r) -> length l = (8 + length b + length r)%nat /\ of_le (firstn 8 l) = N.of_nat (length b).
Proof.
  unfold take_bytes. destruct (take_int 8 l) as [[n l1]|] eqn:T; [|discriminate]. apply take_int_inv' in T as (_ & L & ->).
  generalize (of_le (firstn 8 l)). intros n.
  destruct (N.leb_spec n (N.of_nat (length l1))) as [M|M]; [|discriminate]. intros [= <- <-].
  rewrite firstn_length, skipn_length. split; lia.
Qed.

Section H.
  Context (H : hpke).
  (* what is expected of the cipher *)
  Record lawful := {
    w_pub : forall a, length a = 32%nat -> priv_ok H a = true -> pub_ok H (pub_of H a) = true /\ length (pub_of H a) = 65%nat;
    w_seal : forall a r m enc ct tag, length a = 32%nat -> priv_ok H a = true -> hseal H (pub_of H a) r m = (enc, ct, tag) ->
      hopen H a enc ct tag = Some m /\ enc_ok H enc = true /\ length enc = 65%nat /\ length tag = 16%nat /\ length ct = length m
  }.
  Definition gen_ok (g : gen) : Prop := length (g_master g) = 32%nat /\ length (g_priv g) = 32%nat /\ priv_ok H (g_priv g) = true.
  Context (W : lawful).

  Lemma take_pair_put g : gen_ok g -> take_pair H (put_pair (g_pair H g)) = Some (g_pair H g).
  Proof.
    intros (_ & L & O). destruct (w_pub W _ L O) as (P & Lp). unfold take_pair, put_pair, g_pair. cbn [k_priv k_pub].
    rewrite take_int_app by reflexivity. cbn [N.eqb]. rewrite take_app by exact L. rewrite O.
    rewrite take_all by exact Lp. rewrite P. reflexivity.
  Qed.
  Lemma take_masters_one m : length m = 32%nat -> take_masters (put_masters [(0, m)]) = Some [(0, m)].
  Proof.
    intros L. unfold take_masters, put_masters. cbn [length map concat fst snd]. rewrite app_nil_r. rewrite take_int_app by reflexivity.
    rewrite app_length, le_len, L. cbn [Nat.add take_entries]. cbn [N.eqb N.of_nat Pos.of_succ_nat].
    rewrite take_int_app by reflexivity. rewrite take_all by exact L. reflexivity.
  Qed.
  Lemma sealed_shape g : gen_ok g -> exists enc ct tag, hseal H (pub_of H (g_priv g)) (g_rand g) (put_masters [(0, g_master g)]) = (enc, ct, tag) /\
    sealed_file H g = put_sealed ct tag enc /\ hopen H (g_priv g) enc ct tag = Some (put_masters [(0, g_master g)]) /\
    enc_ok H enc = true /\ length enc = 65%nat /\ length tag = 16%nat /\ length ct = 44%nat.
  Proof.
    intros (Lm & L & O). destruct (hseal H (pub_of H (g_priv g)) (g_rand g) (put_masters [(0, g_master g)])) as [[enc ct] tag] eqn:E.
    destruct (w_seal W _ _ _ _ _ _ L O E) as (A & B & C & D & F). exists enc, ct, tag. unfold sealed_file. rewrite E.
    repeat apply conj; try assumption; try reflexivity. rewrite F. unfold put_masters. cbn [length map concat fst snd]. rewrite !app_length, !le_len, Lm. reflexivity.
  Qed.
  Lemma take_sealed_put ct tag enc : enc_ok H enc = true -> length enc = 65%nat -> length tag = 16%nat -> length ct = 44%nat ->
    take_sealed H (put_sealed ct tag enc) = Some (ct, tag, enc).
  Proof.
    intros A B C D. unfold take_sealed, put_sealed. rewrite take_int_app by reflexivity. cbn [N.eqb].
    rewrite take_bytes_app by (rewrite D; reflexivity). rewrite take_app by exact C. rewrite take_all by exact B. rewrite A. reflexivity.
  Qed.
  (* a file that was cut off is not accepted *)
  Lemma take_sealed_cut g k : gen_ok g -> (k < length (sealed_file H g))%nat -> take_sealed H (firstn k (sealed_file H g)) = None.
  Proof.
    intros G K. destruct (sealed_shape g G) as (enc & ct & tag & _ & E & _ & _ & Le & Lt & Lc). rewrite E in *. clear E.
    assert (LL : length (put_sealed ct tag enc) = 137%nat) by (unfold put_sealed, put_bytes; rewrite !app_length, !le_len, Le, Lt, Lc; reflexivity).
    rewrite LL in K. set (f := firstn k (put_sealed ct tag enc)). assert (Lf : length f = k) by (unfold f; rewrite firstn_length; lia).
    unfold take_sealed. destruct (take_int 4 f) as [[t l1]|] eqn:T; [|reflexivity]. destruct (t =? 0); [|reflexivity].
    apply take_int_inv' in T as (E1 & L1 & _). destruct (take_bytes l1) as [[c l2]|] eqn:B; [|reflexivity].
    apply take_bytes_inv' in B as (L2 & N2). assert (Lc2 : length c = 44%nat).
    { assert (X : firstn 8 l1 = le 8 44).
      { assert (Y : l1 = skipn 4 f) by (rewrite E1 at 1; rewrite skipn_app, firstn_length; replace (4 - Nat.min 4 (length f))%nat with 0%nat by lia; rewrite (skipn_all2 (firstn 4 f)) by (rewrite firstn_length; lia); reflexivity).
        rewrite Y. unfold f, put_sealed, put_bytes. rewrite skipn_firstn_comm.
        rewrite skipn_app, le_len, Nat.sub_diag, skipn_O. rewrite (skipn_all2 (le 4 0)) by (rewrite le_len; lia). rewrite app_nil_l.
        rewrite firstn_firstn. replace (Nat.min 8 (k - 4)) with 8%nat by lia. rewrite <- !app_assoc. rewrite firstn_app, le_len, Nat.sub_diag, firstn_O, app_nil_r. rewrite firstn_all2 by (rewrite le_len; lia). rewrite Lc. reflexivity. }
      rewrite X in N2. change (of_le (le 8 44)) with 44 in N2. lia. }
    destruct (take 16 l2) as [[tg l3]|] eqn:T3; [|reflexivity]. apply take_inv in T3 as (-> & L3). rewrite app_length in L2.
    destruct (take 65 l3) as [[en l4]|] eqn:T4; [|reflexivity]. apply take_inv in T4 as (-> & L4). rewrite app_length in L2. lia.
  Qed.
  Lemma sealed_nonempty g : gen_ok g -> (0 < length (sealed_file H g))%nat.
  Proof.
    intros G. destruct (sealed_shape g G) as (enc & ct & tag & _ & E & _). rewrite E. unfold put_sealed. rewrite app_length, le_len. lia.
  Qed.
  Lemma pair_nonempty k : (0 < length (put_pair k))%nat.
  Proof. unfold put_pair. rewrite app_length, le_len. lia. Qed.
  (* the file that an initialisation leaves can be unsealed with the key it stored *)
  Lemma unseal_whole s i g : gen_ok g -> mkf s = Some (sealed_file H g) -> keys s i = Some (put_pair (g_pair H g)) ->
    unseal H s i = Opened i 0 (g_master g).
  Proof.
    intros G M K. destruct (sealed_shape g G) as (enc & ct & tag & _ & E & O & A & B & C & D). unfold unseal. rewrite M. cbn [bytes_of].
    rewrite E, take_sealed_put by assumption. unfold key_for. rewrite K, take_pair_put by exact G. cbn [g_pair k_priv]. rewrite O.
    rewrite take_masters_one by apply G. reflexivity.
  Qed.
  Lemma unseal_ext s t i : mkf s = mkf t -> keys s i = keys t i -> unseal H s i = unseal H t i.
  Proof. intros A B. unfold unseal, key_for. rewrite A, B. reflexivity. Qed.

  (* ---------- who holds the lock ---------- *)
  Definition holds (c : pc) : bool :=
    match c with
    | WritingId _ _ | Reading | Ready _ | SetKey _ _ | WritingKey _ _ _ | GetKey _ _ | CreateMaster _ _ | WritingMaster _ _ _ | Unsealing _ | Opened _ _ _ => true
    | _ => false
    end.
  Definition locked (s : state) : Prop := forall p, holds (at_ s p) = true <-> lock s = Some p.

  Lemma locked_goto s p c : locked s -> holds c = holds (at_ s p) -> locked (goto s p c).
  Proof.
    intros L E q. cbn. destruct (Nat.eq_dec q p) as [->|N0]; [rewrite upd_same, E|rewrite upd_other by exact N0]; apply L.
  Qed.
  Lemma locked_files s s' : locked s -> lock s' = lock s -> at_ s' = at_ s -> locked s'.
  Proof. intros L A B q. rewrite A, B. apply L. Qed.
  Lemma locked_leave s p c : locked s -> holds c = false -> locked (leave s p c).
  Proof.
    intros L E q. cbn. unfold release. destruct (Nat.eq_dec q p) as [->|N0].
    - rewrite upd_same, E. split; [discriminate|]. destruct (lock s) as [r|]; [|discriminate]. destruct (Nat.eqb_spec r p); [discriminate|]. intros [= ->]. congruence.
    - rewrite upd_other by exact N0. rewrite (L q). destruct (lock s) as [r|]; [|reflexivity]. destruct (Nat.eqb_spec r p) as [->|]; [|reflexivity].
      split; [intros [= ->]; congruence|discriminate].
  Qed.
  Lemma locked_acquire s p c : locked s -> holds c = true -> locked (acquire s p c).
  Proof.
    intros L E. unfold acquire. destruct (lock s) as [r|] eqn:K; [exact L|]. intros q. cbn. destruct (Nat.eq_dec q p) as [->|N0].
    - rewrite upd_same, E. split; reflexivity.
    - rewrite upd_other by exact N0. rewrite (L q), K. split; [discriminate|intros [= ->]; congruence].
  Qed.
  Lemma unseal_shape s i : (exists v x, unseal H s i = Opened i v x) \/ (exists e, unseal H s i = Failed e) \/ unseal H s i = Panicked.
  Proof.
    unfold unseal. destruct (take_sealed _ _) as [[[ct tag] enc]|]; [|right; left; eauto]. destruct (key_for _ _ _) as [[k|]|e|]; [|right; left; eauto|right; left; eauto|right; right; reflexivity].
    destruct (hopen _ _ _ _ _) as [m|]; [|right; right; reflexivity]. destruct (take_masters m) as [l|]; [|right; left; eauto].
    destruct (newest l) as [[v x]|]; [left; eauto|right; right; reflexivity].
  Qed.
  Lemma locked_step s e : locked s -> locked (step H s e).
  Proof.
    intros L. destruct e as [p o|p d g k|p|i f]; cbn [step].
    - destruct (idle (at_ s p)) eqn:I; [|exact L]. intros q. cbn. destruct (Nat.eq_dec q p) as [->|N0]; [|rewrite upd_other by exact N0; apply L].
      rewrite upd_same. cbn [holds]. rewrite <- (L p). destruct (at_ s p); cbn in *; split; congruence.
    - unfold advance. destruct (at_ s p) eqn:A; try exact L.
      + destruct (over s p), (idf s); apply locked_goto; try exact L; rewrite A; reflexivity.
      + apply locked_goto; [apply locked_files with s; [exact L|reflexivity|reflexivity]|cbn; rewrite A; reflexivity].
      + apply locked_acquire; [exact L|reflexivity].
      + cbv zeta. destruct (_ =? _)%nat; (apply locked_goto; [apply locked_files with s; [exact L|reflexivity|reflexivity]|cbn; rewrite A; reflexivity]).
      + apply locked_acquire; [exact L|reflexivity].
      + destruct (parse _); [apply locked_goto; [exact L|rewrite A; reflexivity]|apply locked_leave; [exact L|reflexivity]].
      + apply locked_goto; [apply locked_files with s; [exact L|reflexivity|reflexivity]|cbn; rewrite A; reflexivity].
      + cbv zeta. destruct (_ =? _)%nat; (apply locked_goto; [apply locked_files with s; [exact L|reflexivity|reflexivity]|cbn; rewrite A; reflexivity]).
      + apply locked_acquire; [exact L|reflexivity].
      + destruct (mkf s); (apply locked_goto; [exact L|rewrite A; reflexivity]).
      + apply locked_goto; [apply locked_files with s; [exact L|reflexivity|reflexivity]|cbn; rewrite A; reflexivity].
      + cbv zeta. destruct (_ =? _)%nat; (apply locked_goto; [apply locked_files with s; [exact L|reflexivity|reflexivity]|cbn; rewrite A; reflexivity]).
      + destruct (key_for _ _ _) as [[r|]|e|]; try (apply locked_leave; [exact L|reflexivity]).
        destruct (bytes_eqb _ _); [apply locked_goto; [exact L|rewrite A; reflexivity]|apply locked_leave; [exact L|reflexivity]].
      + apply locked_goto; [apply locked_files with s; [exact L|reflexivity|reflexivity]|cbn; rewrite A; reflexivity].
      + cbv zeta. destruct (_ =? _)%nat; (apply locked_goto; [apply locked_files with s; [exact L|reflexivity|reflexivity]|cbn; rewrite A; reflexivity]).
      + destruct (unseal_shape s id) as [(v & x & ->)|[(e & ->)| ->]]; [apply locked_goto; [exact L|rewrite A; reflexivity]|apply locked_leave; [exact L|reflexivity]|apply locked_leave; [exact L|reflexivity]].
    - apply locked_leave; [exact L|reflexivity].
    - apply locked_files with s; [exact L|reflexivity|reflexivity].
  Qed.
  Lemma locked_run es : forall s, locked s -> locked (run H s es).
  Proof. induction es as [|e r IH]; intros s L; [exact L|]. apply IH, locked_step, L. Qed.
  Lemma locked_empty : locked empty.
  Proof. intros p. cbn. split; discriminate. Qed.
  Lemma run_app es1 : forall es2 s, run H s (es1 ++ es2) = run H (run H s es1) es2.
  Proof. induction es1 as [|e r IH]; intros es2 s; [reflexivity|]. cbn [app run]. apply IH. Qed.

  (* ---------- a step of one process concerns that process only ---------- *)
  Lemma others s p d g k q : q <> p -> at_ (advance H s p d g k) q = at_ s q.
  Proof.
    intros N0. unfold advance, acquire. destruct (at_ s p); try reflexivity; cbv zeta;
      repeat (match goal with |- context [match ?x with _ => _ end] => destruct x end; cbn);
      try reflexivity; apply upd_other; exact N0.
  Qed.
  Lemma over_advance s p d g k : over (advance H s p d g k) = over s.
  Proof.
    unfold advance, acquire. destruct (at_ s p); try reflexivity; cbv zeta;
      repeat (match goal with |- context [match ?x with _ => _ end] => destruct x end; cbn); reflexivity.
  Qed.
  (* who touches which file *)
  Definition writes_id (c : pc) : bool := match c with Creating _ | WritingId _ _ | CreatingOver _ | WritingOver _ _ => true | _ => false end.
  Definition writes_mk (c : pc) : bool := match c with CreateMaster _ _ | WritingMaster _ _ _ => true | _ => false end.
  Definition writes_key (c : pc) : bool := match c with SetKey _ _ | WritingKey _ _ _ => true | _ => false end.
  Lemma advance_id s p d g k : writes_id (at_ s p) = false -> idf (advance H s p d g k) = idf s.
  Proof.
    unfold advance, acquire. destruct (at_ s p); cbn [writes_id]; intros X; try discriminate X; try reflexivity; cbv zeta;
      repeat (match goal with |- context [match ?x with _ => _ end] => destruct x end; cbn); reflexivity.
  Qed.
  Lemma advance_mk s p d g k : writes_mk (at_ s p) = false -> mkf (advance H s p d g k) = mkf s.
  Proof.
    unfold advance, acquire. destruct (at_ s p); cbn [writes_mk]; intros X; try discriminate X; try reflexivity; cbv zeta;
      repeat (match goal with |- context [match ?x with _ => _ end] => destruct x end; cbn); reflexivity.
  Qed.
  Lemma advance_keys s p d g k : writes_key (at_ s p) = false -> keys (advance H s p d g k) = keys s.
  Proof.
    unfold advance, acquire. destruct (at_ s p); cbn [writes_key]; intros X; try discriminate X; try reflexivity; cbv zeta;
      repeat (match goal with |- context [match ?x with _ => _ end] => destruct x end; cbn); reflexivity.
  Qed.
End H.
