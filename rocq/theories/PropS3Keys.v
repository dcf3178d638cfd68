(* C103: vault keys kept in an S3 bucket. *)
From Coq Require Import ZifyBool Lia Arith.
From Verif Require Import Base Vault DocId OpenStorage OpenStorageProofs PropOpenStorage S3Keys S3KeysProofs.
Local Open Scope N_scope.

(* ================= specification ================= *)
(* two path prefixes name the same place if one is the other with its final slash added *)
Definition final_slash_added (a b : bytes) : Prop := a <> [] /\ (forall q, a <> q ++ [47]) /\ b = a ++ [47].
Definition same_path (a b : bytes) : Prop := a = b \/ final_slash_added a b \/ final_slash_added b a.
(* somebody has directory d open with this master key *)
Definition open_with (s : S3Keys.state) (d : nat) (key : bytes) : Prop := exists v, S3Keys.at_ s d = S3Keys.Opened v key.
(* nobody has it open or is opening it *)
Definition closed (s : S3Keys.state) (d : nat) : Prop :=
  S3Keys.at_ s d = Closed \/ (exists e, S3Keys.at_ s d = S3Keys.Failed e) \/ S3Keys.at_ s d = S3Keys.Panicked.
Lemma closed_idle s d : closed s d -> S3Keys.idle (S3Keys.at_ s d) = true.
Proof. intros [E|[(e & E)|E]]; rewrite E; reflexivity. Qed.

(* ---------- names ---------- *)
Lemma ends_spec p : ends_with_slash p = true <-> exists q, p = q ++ [47].
Proof.
  unfold ends_with_slash. destruct p as [|b q] using rev_ind; [split; [discriminate|intros (q & E); destruct q; discriminate]|].
  rewrite rev_app_distr. cbn. unfold slash. rewrite N.eqb_eq. split; [intros ->; exists q; reflexivity|].
  intros (r & E). apply app_inj_tail in E as (_ & E). exact E.
Qed.
Definition dir (p : bytes) : bytes :=
  if negb (match p with [] => true | _ => false end) && negb (ends_with_slash p) then p ++ [slash] else p.
Lemma dir_same a b : dir a = dir b <-> same_path a b.
Proof.
  assert (E : forall p, ((p = [] \/ exists q, p = q ++ [47]) /\ dir p = p) \/ (p <> [] /\ (forall q, p <> q ++ [47]) /\ dir p = p ++ [47])).
  { intros p. unfold dir. destruct p as [|x p]; [left; split; [left|]; reflexivity|]. destruct (ends_with_slash (x :: p)) eqn:E.
    - left. split; [right; apply ends_spec; exact E|reflexivity].
    - right. split; [discriminate|]. split; [|reflexivity]. intros q F. rewrite (proj2 (ends_spec _)) in E; [discriminate|exists q; exact F]. }
  unfold same_path, final_slash_added. destruct (E a) as [(A1 & ->)|(A1 & A2 & ->)], (E b) as [(B1 & ->)|(B1 & B2 & ->)].
  - split; [intros ->; left; reflexivity|]. intros [Q|[(Q & R & _)|(Q & R & _)]]; [exact Q| |].
    + destruct A1 as [A1|(q & A1)]; [congruence|contradiction (R q)].
    + destruct B1 as [B1|(q & B1)]; [congruence|contradiction (R q)].
  - split; [intros ->; right; right; repeat split; assumption|]. intros [->|[(Q & R & _)|(_ & _ & ->)]]; [| |reflexivity].
    + destruct A1 as [A1|(q & A1)]; [congruence|contradiction (B2 q)].
    + destruct A1 as [A1|(q & A1)]; [congruence|contradiction (R q)].
  - split; [intros <-; right; left; repeat split; assumption|]. intros [->|[(_ & _ & ->)|(Q & R & _)]]; [|reflexivity|].
    + destruct B1 as [B1|(q & B1)]; [congruence|contradiction (A2 q)].
    + destruct B1 as [B1|(q & B1)]; [congruence|contradiction (R q)].
  - split; [intros F; apply app_inj_tail in F as (-> & _); left; reflexivity|]. intros [->|[(_ & _ & ->)|(_ & _ & ->)]]; [reflexivity| |].
    + contradiction (B2 a). reflexivity.
    + contradiction (A2 b). reflexivity.
Qed.
(* Two storages' keys are the same object exactly if they use the same service and bucket, the
   same path up to a final slash, and have the same id. *)
Theorem C103_objects c1 c2 i1 i2 : i1 < 2 ^ 64 -> i2 < 2 ^ 64 ->
  (object_of c1 i1 = object_of c2 i2 <->
   s_endpoint c1 = s_endpoint c2 /\ s_bucket c1 = s_bucket c2 /\ same_path (s_path c1) (s_path c2) /\ i1 = i2).
Proof.
  intros B1 B2. rewrite <- dir_same. unfold object_of.
  change (path_for_id c1 i1) with (dir (s_path c1) ++ storage_name i1). change (path_for_id c2 i2) with (dir (s_path c2) ++ storage_name i2). split.
  - intros [= E1 E2 E3]. apply app_same_end in E3 as (E3 & E4); [|unfold storage_name; rewrite !hexw_length; reflexivity].
    apply hexw_inj in E4; [|exact B1|exact B2]. repeat split; assumption.
  - intros (-> & -> & -> & ->). reflexivity.
Qed.
(* The name of the object: the path, a slash unless there is one or there is no path, and
   sixteen hexadecimal digits that read as the id. *)
Fixpoint hex_value (acc : N) (l : bytes) : option N :=
  match l with
  | [] => Some acc
  | b :: l => if (48 <=? b) && (b <=? 57) then hex_value (acc * 16 + (b - 48)) l
              else if (97 <=? b) && (b <=? 102) then hex_value (acc * 16 + (b - 87)) l else None
  end.
Theorem C103_name c i : i < 2 ^ 64 -> exists p n,
  path_for_id c i = p ++ n /\ length n = 16%nat /\ hex_value 0 n = Some i /\
  (p = s_path c \/ final_slash_added (s_path c) p) /\ (p <> [] -> exists q, p = q ++ [47]).
Proof.
  intros B. exists (dir (s_path c)), (storage_name i). split; [reflexivity|]. split; [apply hexw_length|]. split.
  - assert (E : forall w n acc, n < 16 ^ N.of_nat w -> hex_value acc (hexw w n) = Some (acc * 16 ^ N.of_nat w + n)).
    { assert (A : forall l acc b, hex_value acc (l ++ [b]) = match hex_value acc l with Some x => hex_value x [b] | None => None end).
      { induction l as [|x l IH]; intros acc b; [reflexivity|]. cbn [app hex_value]. destruct ((48 <=? x) && (x <=? 57)); [apply IH|].
        destruct ((97 <=? x) && (x <=? 102)); [apply IH|reflexivity]. }
      induction w as [|w IH]; intros n acc L; [cbn in L |- *; f_equal; lia|].
      assert (P : 16 ^ N.of_nat (S w) = 16 * 16 ^ N.of_nat w).
      { replace (N.of_nat (S w)) with (N.succ (N.of_nat w)) by lia. apply N.pow_succ_r. lia. }
      cbn [hexw]. rewrite A, IH by (apply N.div_lt_upper_bound; lia). rewrite P.
      pose proof (N.mod_upper_bound n 16 ltac:(lia)) as M. pose proof (N.div_mod n 16 ltac:(lia)) as D.
      set (r := n mod 16) in *. set (q := n / 16) in *. clearbody r q. cbn [hex_value]. unfold nib.
      destruct (N.ltb_spec r 10) as [X|X].
      - replace ((48 <=? 48 + r) && (48 + r <=? 57)) with true by lia. f_equal. lia.
      - replace ((48 <=? 87 + r) && (87 + r <=? 57)) with false by lia. replace ((97 <=? 87 + r) && (87 + r <=? 102)) with true by lia. f_equal. lia. }
    unfold storage_name. rewrite E by exact B. f_equal; lia.
  - unfold dir. destruct (s_path c) as [|x p]; cbn [negb andb]; [split; [left; reflexivity|congruence]|].
    destruct (ends_with_slash (x :: p)) eqn:E; cbn [negb andb].
    + split; [left; reflexivity|]. intros _. apply ends_spec. exact E.
    + split; [|intros _; eexists; reflexivity]. right. split; [discriminate|]. split; [|reflexivity].
      intros q F. rewrite (proj2 (ends_spec _)) in E; [discriminate|exists q; exact F].
Qed.
(* The region used.  FINDING: without an endpoint the configured region is ignored, although
   it is documented as "the AWS region to use". *)
Theorem C103_region env c :
  (forall e, s_endpoint c = Some e -> fst (client env c) = Some e /\
     (forall r, s_region c = Some r -> snd (client env c) = Some r) /\
     (s_region c = None -> snd (client env c) = Some (match env with Some r => r | None => us_east_1 end))) /\
  (s_endpoint c = None -> client env c = (None, env)).
Proof.
  unfold client. split.
  - intros e ->. cbn [fst snd]. split; [reflexivity|]. split; [intros r ->; reflexivity|]. intros ->. destruct env; reflexivity.
  - intros ->. reflexivity.
Qed.
Theorem C103_builders b p e c :
  s_path (with_path p c) = p /\ s_endpoint (with_endpoint e c) = Some e /\
  with_path p (with_endpoint e c) = with_endpoint e (with_path p c) /\
  s_bucket (with_path p (with_endpoint e (s3_new b))) = b /\ s_path (s3_new b) = [] /\ s_endpoint (s3_new b) = None /\
  s_region (with_path p (with_endpoint e c)) = s_region c.
Proof. repeat split. Qed.

Section H.
  Context (H : hpke) (W : lawful H).
  (* A stored key is read back by every storage for which it is the same object, until another
     one is put there; other objects are not changed; a failed call is never taken for the
     absence of a key. *)
  Theorem C103_read_back o c i g : gen_ok H g ->
    let '(o', l, r) := set_vault_key_for o c i (g_pair H g) Accepted in
    r = Done tt /\ l = [] /\
    (forall c' i', object_of c' i' = object_of c i -> vault_key_for H o' c' i' Answered = Done (Some (g_pair H g))) /\
    (forall c' i' a, object_of c' i' <> object_of c i -> vault_key_for H o' c' i' a = vault_key_for H o c' i' a).
  Proof.
    intros G. unfold set_vault_key_for. repeat split.
    - intros c' i' E. unfold vault_key_for. rewrite E, put_same, (take_pair_put H W) by exact G. reflexivity.
    - intros c' i' a E. unfold vault_key_for. rewrite put_other by exact E. reflexivity.
  Qed.
  Theorem C103_no_key o c i a : vault_key_for H o c i a = Done None <-> a = Answered /\ o (object_of c i) = None.
  Proof.
    unfold vault_key_for. destruct a; [|split; [discriminate|intros ([=] & _)]].
    destruct (o (object_of c i)) as [b|].
    - destruct (take_pair H b); (split; [discriminate|intros (_ & [=])]).
    - split; [split; reflexivity|reflexivity].
  Qed.
  Theorem C103_put_failed o c i k r : r <> Accepted ->
    exists l, set_vault_key_for o c i k r = (o, l, Fail EKeyStorage) /\
    (forall w b, In (w, b) l -> w = object_of c i /\ b = put_pair k).
  Proof.
    destruct r; [congruence| |]; intros _; eexists; (split; [reflexivity|]); cbn; [tauto|].
    intros w b [[= <- <-]|[]]. split; reflexivity.
  Qed.

  Context (conf : nat -> s3 * N).
  Notation run := (S3Keys.run H conf).
  Notation step := (S3Keys.step H conf).
  Notation start := S3Keys.start.

  (* Every opening of a directory that succeeds has the master key of the first one, whatever
     the service does and whoever else uses the bucket, as long as the directory's object is
     changed from outside only while no master-keys file depends on it. *)
  Theorem C103_same_key d es1 es2 k1 k2 : draws_ok H (es1 ++ es2) -> quiet H conf d start (es1 ++ es2) ->
    open_with (run start es1) d k1 -> open_with (run start (es1 ++ es2)) d k2 -> k1 = k2.
  Proof.
    intros G Q (v1 & O1) (v2 & O2). apply quiet_app in Q as (Q1 & Q2).
    assert (G1 : draws_ok H es1) by (intros d' g X; apply (G d'), in_or_app; left; exact X).
    assert (G2 : draws_ok H es2) by (intros d' g X; apply (G d'), in_or_app; right; exact X).
    rewrite run_app in O2. pose proof (inv_run H W conf d es1 _ G1 Q1 (inv_start H conf d)) as I1.
    pose proof (inv_run H W conf d es2 _ G2 Q2 I1) as I2. destruct I1 as [_ K1 _], I2 as [_ K2 _]. rewrite O1 in K1. rewrite O2 in K2.
    destruct K1 as (_ & g1 & A1 & -> & M1 & B1), K2 as (_ & g2 & A2 & -> & M2 & B2).
    pose proof (inv_run H W conf d es1 _ G1 Q1 (inv_start H conf d)) as I1.
    rewrite (mk_run H W conf d _ es2 _ G2 Q2 I1 M1) in M2. rewrite (mk_object_run H W conf d _ es2 _ G2 Q2 I1 M1), B1 in B2.
    injection M2 as M2. assert (B3 : put_pair (g_pair H g1) = put_pair (g_pair H g2)) by congruence.
    pose proof (unseal_whole H W g1 (fun _ => Some (put_pair (g_pair H g1))) (s3_new []) 0 A1 eq_refl) as U1.
    pose proof (unseal_whole H W g2 (fun _ => Some (put_pair (g_pair H g2))) (s3_new []) 0 A2 eq_refl) as U2.
    rewrite <- M2, <- B3, U1 in U2. injection U2 as ->. reflexivity.
  Qed.

  (* Once somebody had the directory open, it can be opened again whenever the service answers,
     with the same key; a failing service makes the opening fail and changes nothing. *)
  Theorem C103_opens d es1 es2 k g : draws_ok H (es1 ++ es2) -> quiet H conf d start (es1 ++ es2) ->
    open_with (run start es1) d k -> let s := run start (es1 ++ es2) in closed s d ->
    open_with (run s [Open d g; Get d Answered]) d k /\
    S3Keys.at_ (run s [Open d g; Get d Broken]) d = S3Keys.Failed EKeyStorage /\
    forall a, (S3Keys.mk (run s [Open d g; Get d a]) = S3Keys.mk s /\ S3Keys.objs (run s [Open d g; Get d a]) = S3Keys.objs s).
  Proof.
    cbv zeta. intros G Q (v1 & O1) C. apply quiet_app in Q as (Q1 & Q2). rewrite run_app in *.
    assert (G1 : draws_ok H es1) by (intros d' g' X; apply (G d'), in_or_app; left; exact X).
    assert (G2 : draws_ok H es2) by (intros d' g' X; apply (G d'), in_or_app; right; exact X).
    pose proof (inv_run H W conf d es1 _ G1 Q1 (inv_start H conf d)) as I1.
    pose proof I1 as [_ K1 _]. rewrite O1 in K1. destruct K1 as (_ & g1 & A1 & -> & M1 & B1).
    pose proof (mk_run H W conf d _ es2 _ G2 Q2 I1 M1) as M2. pose proof (mk_object_run H W conf d _ es2 _ G2 Q2 I1 M1) as B2. rewrite B1 in B2.
    set (s := S3Keys.run H conf (S3Keys.run H conf S3Keys.start es1) es2) in *. clearbody s.
    apply closed_idle in C. cbn [S3Keys.run S3Keys.step]. rewrite C, M2. cbn [goto S3Keys.at_ S3Keys.mk S3Keys.objs]. rewrite upd_same.
    cbn [goto S3Keys.at_ S3Keys.mk S3Keys.objs]. rewrite !upd_same, M2. split; [|split].
    - exists 0. cbn [goto S3Keys.at_]. rewrite upd_same. apply unseal_whole; assumption.
    - destruct (sealed_shape H W g1 A1) as (enc & ct & tag & _ & S' & _ & X1 & X2 & X3 & X4). unfold S3Keys.unseal. cbn [bytes_of].
      rewrite S', (take_sealed_put H) by assumption. reflexivity.
    - intros a. split; reflexivity.
  Qed.

  (* An initialisation that fails before master-keys is written leaves nothing that stands in
     the way: the next one, if the service and the disk do their part, opens the directory. *)
  Theorem C103_retry d es g n : draws_ok H es -> gen_ok H g -> let s := run start es in
    closed s d -> S3Keys.mk s d = None -> (length (sealed_file H g) <= n)%nat ->
    open_with (run s [Open d g; Put d Accepted; Get d Answered; Write d n]) d (g_master g).
  Proof.
    cbv zeta. intros _ G C M L. apply closed_idle in C. set (s := S3Keys.run H conf S3Keys.start es) in *. clearbody s.
    cbn [S3Keys.run S3Keys.step]. rewrite C, M. cbn [goto S3Keys.at_]. rewrite upd_same. unfold set_vault_key_for.
    cbn [goto S3Keys.at_ S3Keys.objs]. rewrite upd_same. unfold vault_key_for. fold (key_object conf d). rewrite put_same, (take_pair_put H W) by exact G.
    cbn [g_pair k_pub]. rewrite (proj2 (bytes_eqb_spec _ _) eq_refl). cbn [goto S3Keys.at_]. rewrite upd_same.
    replace (length (sealed_file H g) <=? n)%nat with true by lia. exists 0. cbn [goto S3Keys.at_]. apply upd_same.
  Qed.

  (* Nothing is sealed with a key the storage does not give back: if the object is not the
     key, is missing or the service fails, the opening fails and writes nothing. *)
  Theorem C103_noticed d s g a : S3Keys.at_ s d = Checking g ->
    (a = Answered -> forall b k, S3Keys.objs s (key_object conf d) = Some b -> take_pair H b = Some k -> k_pub k <> pub_of H (g_priv g)) ->
    let s' := step s (Get d a) in
    S3Keys.at_ s' d = S3Keys.Failed EKeyStorage /\ S3Keys.mk s' = S3Keys.mk s /\ S3Keys.objs s' = S3Keys.objs s.
  Proof.
    cbv zeta. intros E N. cbn [S3Keys.step]. rewrite E. unfold vault_key_for. destruct a; [|repeat split; apply upd_same]. fold (key_object conf d).
    destruct (S3Keys.objs s (key_object conf d)) as [b|] eqn:O; [|repeat split; apply upd_same].
    destruct (take_pair H b) as [k|] eqn:T; [|repeat split; apply upd_same].
    destruct (bytes_eqb (k_pub k) (pub_of H (g_priv g))) eqn:Q; [|repeat split; apply upd_same].
    apply bytes_eqb_spec in Q. contradiction (N eq_refl b k eq_refl T).
  Qed.

  (* With master-keys written and the key gone, or with other settings under which there is no
     key, the directory does not open, and no new key is made up. *)
  Theorem C103_missing d s g f g1 : S3Keys.mk s d = Some f -> f = sealed_file H g1 -> gen_ok H g1 -> closed s d ->
    S3Keys.objs s (key_object conf d) = None ->
    let s' := run s [Open d g; Get d Answered] in
    S3Keys.at_ s' d = S3Keys.Failed EKeyNotFound /\ S3Keys.mk s' = S3Keys.mk s /\ S3Keys.objs s' = S3Keys.objs s.
  Proof.
    cbv zeta. intros M -> G C O. apply closed_idle in C. cbn [S3Keys.run S3Keys.step]. rewrite C, M. cbn [goto S3Keys.at_]. rewrite upd_same.
    cbn [goto S3Keys.at_ S3Keys.mk S3Keys.objs]. rewrite M. repeat split. rewrite upd_same. unfold vault_key_for. fold (key_object conf d). rewrite O.
    destruct (sealed_shape H W g1 G) as (enc & ct & tag & _ & S' & _ & X1 & X2 & X3 & X4). unfold S3Keys.unseal. cbn [bytes_of].
    rewrite S', (take_sealed_put H) by assumption. reflexivity.
  Qed.

  (* A directory's calls change no other directory, and no object but its own. *)
  Theorem C103_own_only d s e : (exists g, e = Open d g) \/ (exists r, e = Put d r) \/ (exists r, e = Get d r) \/ (exists n, e = Write d n) \/ e = Close d ->
    (forall w, w <> key_object conf d -> S3Keys.objs (step s e) w = S3Keys.objs s w) /\
    (forall d', d' <> d -> S3Keys.at_ (step s e) d' = S3Keys.at_ s d' /\ S3Keys.mk (step s e) d' = S3Keys.mk s d') /\
    (exists l, S3Keys.late (step s e) = S3Keys.late s ++ l /\ forall w b, In (w, b) l -> w = key_object conf d).
  Proof.
    intros E. split; [|split].
    - intros w N. destruct E as [(g & ->)|[(r & ->)|[(r & ->)|[(n & ->)| ->]]]]; cbn [S3Keys.step].
      + destruct (S3Keys.idle _); reflexivity.
      + destruct (S3Keys.at_ s d); try reflexivity. destruct r; try reflexivity. cbn [set_vault_key_for goto S3Keys.objs]. apply put_other, N.
      + destruct (S3Keys.at_ s d); try reflexivity. destruct (vault_key_for _ _ _ _ _) as [[k|]|x|]; reflexivity.
      + destruct (S3Keys.at_ s d); reflexivity.
      + reflexivity.
    - intros d' N. apply other_step. destruct E as [(g & ->)|[(r & ->)|[(r & ->)|[(n & ->)| ->]]]]; congruence.
    - destruct E as [(g & ->)|[(r & ->)|[(r & ->)|[(n & ->)| ->]]]]; cbn [S3Keys.step].
      + destruct (S3Keys.idle _); exists []; rewrite app_nil_r; (split; [reflexivity|intros w b []]).
      + destruct (S3Keys.at_ s d); try (exists []; rewrite app_nil_r; split; [reflexivity|intros w b []]).
        destruct r; cbn [set_vault_key_for goto S3Keys.late].
        * exists []. split; [reflexivity|intros w b []].
        * exists []. split; [reflexivity|intros w b []].
        * eexists. split; [reflexivity|]. intros w b [X|[]]. injection X as <- _. reflexivity.
      + destruct (S3Keys.at_ s d); try destruct (vault_key_for _ _ _ _ _) as [[k|]|x|]; exists []; rewrite app_nil_r; (split; [reflexivity|intros w b []]).
      + destruct (S3Keys.at_ s d); exists []; rewrite app_nil_r; (split; [reflexivity|intros w b []]).
      + exists []; rewrite app_nil_r; (split; [reflexivity|intros w b []]).
  Qed.
End H.

(* Two directories whose keys are different objects never get in each other's way: if nobody
   else changes the bucket and no given-up request arrives, every history is quiet. *)
Theorem C103_quiet H conf d es : (forall d', d' <> d -> key_object conf d' <> key_object conf d) ->
  (forall e, In e es -> match e with Arrive _ | Outside _ _ => False | _ => True end) -> forall s, quiet H conf d s es.
Proof.
  intros N. induction es as [|e es IH]; intros F s; [exact I|]. split; [|apply IH; intros e' X; apply F; right; exact X].
  intros T. specialize (F e (or_introl eq_refl)). destruct e; cbn in T; try contradiction. destruct T as (D & E). contradiction (N _ D E).
Qed.

(* ---------- concrete cases ---------- *)
Notation ex_conf := (fun d : nat => (with_path (match d with O => [] | _ => [107] end) (s3_new [98]), 7)).
Example ex_history : list S3Keys.event :=
  [Open 0 g1; Open 1 g2; Put 0 Accepted; Put 1 Refused; Get 0 Answered; Write 0 500; Open 1 g2; Put 1 Accepted; Get 1 Answered; Write 1 500; Close 0; Close 1].
(* two directories with the same id and different paths *)
Example ex_same : open_with (S3Keys.run toy ex_conf S3Keys.start (firstn 6 ex_history)) 0 (repeat 1 32) /\
  open_with (S3Keys.run toy ex_conf S3Keys.start (ex_history ++ [Open 0 g2; Get 0 Answered])) 0 (repeat 1 32) /\
  open_with (S3Keys.run toy ex_conf S3Keys.start (ex_history ++ [Open 1 g1; Get 1 Answered])) 1 (repeat 7 32) /\
  closed (S3Keys.run toy ex_conf S3Keys.start ex_history) 0.
Proof. repeat split; try (exists 0; vm_compute; reflexivity). left. vm_compute. reflexivity. Qed.
Example ex_quiet : quiet toy ex_conf 0 S3Keys.start (ex_history ++ [Open 0 g2; Get 0 Answered]) /\ draws_ok toy (ex_history ++ [Open 0 g2; Get 0 Answered]).
Proof.
  split.
  - apply C103_quiet.
    + intros d' D. destruct d' as [|d']; [congruence|]. vm_compute. discriminate.
    + intros e X. cbn in X. repeat (destruct X as [<-|X]; [exact I|]). contradiction.
  - intros d g X. cbn in X. repeat (destruct X as [X|X]; [try discriminate; injection X as <- <-; repeat split|]). contradiction.
Qed.
(* the names *)
Example ex_name : path_for_id (fst (ex_conf 1%nat)) 255 = [107; 47] ++ repeat 48 14 ++ [102; 102].
Proof. reflexivity. Qed.

(* FINDING: a put that was reported as failed (a timeout) is not withdrawn.  If it is carried
   out after a second opening has stored and sealed another key, it replaces that key: the
   directory can no longer be opened, the next opening panics. *)
Definition late_put : list S3Keys.event :=
  [Open 0 g1; Put 0 Unsure; Open 0 g2; Put 0 Accepted; Get 0 Answered; Write 0 500; Close 0; Arrive 0; Open 0 g1; Get 0 Answered].
Theorem C103_late_put_refuted :
  open_with (S3Keys.run toy ex_conf S3Keys.start (firstn 6 late_put)) 0 (repeat 7 32) /\
  S3Keys.at_ (S3Keys.run toy ex_conf S3Keys.start late_put) 0 = S3Keys.Panicked.
Proof. split; [exists 0|]; vm_compute; reflexivity. Qed.

Print Assumptions C103_objects.
Print Assumptions C103_name.
Print Assumptions C103_region.
Print Assumptions C103_builders.
Print Assumptions C103_read_back.
Print Assumptions C103_no_key.
Print Assumptions C103_put_failed.
Print Assumptions C103_same_key.
Print Assumptions C103_opens.
Print Assumptions C103_retry.
Print Assumptions C103_noticed.
Print Assumptions C103_missing.
Print Assumptions C103_own_only.
Print Assumptions C103_quiet.
Print Assumptions C103_late_put_refuted.
