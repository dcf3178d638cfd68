(* C69: one owner, one id. C70: the vault's key survives. *)
From Coq Require Import ZifyBool Lia Arith.
From Verif Require Import Base Vault OpenStorage OpenStorageProofs OpenStorageInv OpenVaultInv OpenCalm.
Local Open Scope N_scope.

(* ================= specification ================= *)
(* somebody has the directory open: under this id, with this master key *)
Definition has_open (s : state) (p : nat) (i : N) (key : bytes) : Prop := exists v, at_ s p = Opened i v key.
Definition is_open (s : state) (p : nat) : Prop := exists i v key, at_ s p = Opened i v key.
(* the process was not configured with an id of its own *)
Definition by_file (s : state) (p : nat) : Prop := over s p = None.
(* no process is running: not started, killed, closed, or ended with an error *)
Definition nobody (s : state) : Prop := forall p, idle (at_ s p) = true.

(* ---------- an instance, for the examples ---------- *)
Definition pad : bytes := repeat 4 33.
Definition tag0 : bytes := repeat 9 16.
Definition toy : hpke :=
  Hpke (fun a => a ++ pad) (fun _ => true) (fun _ => true) (fun _ => true)
       (fun pub _ m => (pub, rev m, tag0))
       (fun a enc ct tag => if bytes_eqb enc (a ++ pad) && bytes_eqb tag tag0 then Some (rev ct) else None).
Lemma toy_lawful : lawful toy.
Proof.
  split.
  - intros a L _. split; [reflexivity|]. cbn [pub_of toy]. rewrite app_length, L. reflexivity.
  - intros a r m enc ct tag L _ [= <- <- <-]. cbn [hopen toy pub_of enc_ok]. rewrite (proj2 (bytes_eqb_spec _ _) eq_refl), (proj2 (bytes_eqb_spec _ _) eq_refl). cbn [andb].
    rewrite rev_involutive, rev_length, app_length, L. repeat split; reflexivity.
Qed.
Definition g1 : gen := Gen (repeat 1 32) (repeat 2 32) [].
Definition g2 : gen := Gen (repeat 7 32) (repeat 8 32) [].
Lemma g1_ok : gen_ok toy g1. Proof. repeat split. Qed.
Lemma g2_ok : gen_ok toy g2. Proof. repeat split. Qed.
Definition go (p : nat) (d : N) (g : gen) (n : nat) : list event := repeat (Advance p d g 200) n.

Lemma untouched H p es : (forall e, In e es -> match e with Start q _ | Advance q _ _ _ | Stop q => q <> p | External _ _ => True end) ->
  forall s, at_ (run H s es) p = at_ s p /\ over (run H s es) p = over s p.
Proof.
  induction es as [|e r IH]; intros A s; [split; reflexivity|]. cbn [run]. destruct (IH (fun x X => A x (or_intror X)) (step H s e)) as (-> & ->).
  specialize (A e (or_introl eq_refl)). destruct e as [q o|q d g k|q|i f]; cbn [step].
  - destruct (idle _); [|split; reflexivity]. cbn [at_ over]. rewrite !upd_other by (intros ->; congruence). split; reflexivity.
  - rewrite over_advance. split; [apply others; congruence|reflexivity].
  - cbn [at_ over leave]. rewrite upd_other by (intros ->; congruence). split; reflexivity.
  - split; reflexivity.
Qed.

Section C69.
  Context (H : hpke).
  Notation run := (run H).

  (* ================= C69 ================= *)
  (* at most one process has the directory open, whatever happens *)
  Theorem C69_exclusive es p q : is_open (run empty es) p -> is_open (run empty es) q -> p = q.
  Proof.
    intros (i & v & x & A) (j & w & y & B). pose proof (locked_run H es empty locked_empty) as L.
    assert (Hp : holds (at_ (run empty es) p) = true) by (rewrite A; reflexivity). assert (Hq : holds (at_ (run empty es) q) = true) by (rewrite B; reflexivity).
    apply (L p) in Hp. apply (L q) in Hq. congruence.
  Qed.

  (* the id is the same for ever, when the processes that open the directory up
     to the first success do not overlap; crashes at any point, several processes
     at once afterwards *)
  Theorem C69_same_id es1 es2 p q i j k k' : Forall (event_ok H) es1 -> one_at_a_time H empty es1 ->
    has_open (run empty es1) p i k -> by_file (run empty es1) p ->
    has_open (run empty (es1 ++ es2)) q j k' -> by_file (run empty (es1 ++ es2)) q -> i = j.
  Proof.
    intros Ok One (v & A) Fp (w & B) Fq. destruct (number_run H es1 empty Ok One alone_empty number_empty) as (Al & K).
    pose proof (opened_settled _ p i v k Al K A Fp) as S. rewrite run_app in B, Fq. destruct (settled_run H es2 _ _ S) as ((_ & _ & S2) & _).
    destruct (S2 q) as (_ & _ & X). specialize (X j). rewrite B in X. specialize (X eq_refl). unfold by_file in Fq. rewrite Fq in X. congruence.
  Qed.

  (* a configured id is used, and nothing else is *)
  Definition configured (s : state) : Prop := forall p o, over s p = Some o ->
    (forall i, pc_id (at_ s p) = Some i -> i = o) /\ match at_ s p with Creating _ | LockNew _ | WritingId _ _ | LockRead | Reading => False | _ => True end.
  Lemma configured_step s e : configured s -> configured (step H s e).
  Proof.
    intros C p o. destruct e as [q u|q d g k|q|i f]; cbn [step].
    - destruct (idle _); [|apply C]. cbn [over at_]. destruct (Nat.eq_dec p q) as [->|N0]; [rewrite !upd_same; intros _; split; [discriminate|exact I]|rewrite !upd_other by exact N0; apply C].
    - rewrite over_advance. destruct (Nat.eq_dec p q) as [->|N0]; [|rewrite (others H s q d g k p N0); apply C].
      intros O. destruct (C q o O) as (C1 & C2). unfold advance. destruct (at_ s q) eqn:A; try (destruct C2; fail); try (rewrite A; split; [exact C1|exact I]).
      + rewrite O. destruct (idf s); cbn [at_ goto]; rewrite upd_same; (split; [intros i [= <-]; reflexivity|exact I]).
      + cbn [at_ goto]; rewrite upd_same; (split; [intros i X; apply C1, X|exact I]).
      + cbv zeta. destruct (_ =? _)%nat; cbn [at_ goto]; rewrite upd_same; (split; [intros i X; apply C1, X|exact I]).
      + unfold acquire. destruct (lock s); cbn [at_]; rewrite ?upd_same, ?A; (split; [intros i X; apply C1, X|exact I]).
      + destruct (mkf s); cbn [at_ goto]; rewrite upd_same; (split; [intros i X; apply C1, X|exact I]).
      + cbn [at_ goto]; rewrite upd_same; (split; [intros i X; apply C1, X|exact I]).
      + cbv zeta. destruct (_ =? _)%nat; cbn [at_ goto]; rewrite upd_same; (split; [intros i X; apply C1, X|exact I]).
      + destruct (key_for _ _ _) as [[r|]|e|]; [destruct (bytes_eqb _ _)|..]; cbn [at_ goto leave]; rewrite upd_same; (split; [intros i X; try discriminate X; apply C1, X|exact I]).
      + cbn [at_ goto]; rewrite upd_same; (split; [intros i X; apply C1, X|exact I]).
      + cbv zeta. destruct (_ =? _)%nat; cbn [at_ goto]; rewrite upd_same; (split; [intros i X; apply C1, X|exact I]).
      + destruct (unseal_shape H s id) as [(v & x & ->)|[(e & ->)| ->]]; cbn [at_ goto leave]; rewrite upd_same; (split; [intros i X; try discriminate X; apply C1, X|exact I]).
    - cbn [over at_ leave]. destruct (Nat.eq_dec p q) as [->|N0]; [rewrite upd_same; intros _; split; [discriminate|exact I]|rewrite upd_other by exact N0; apply C].
    - apply C.
  Qed.
  Theorem C69_configured es p i k o : has_open (run empty es) p i k -> over (run empty es) p = Some o -> i = o.
  Proof.
    intros (v & A) O. assert (C : configured (run empty es)).
    { assert (G : forall es s, configured s -> configured (run s es)) by (induction es0 as [|e r IH]; intros s X; [exact X|apply IH, configured_step, X]). apply G. intros q o' X. discriminate X. }
    destruct (C p o O) as (C1 & _). apply C1. rewrite A. reflexivity.
  Qed.

  (* with nobody running, an id file that exists is never written again *)
  Theorem C69_never_rewritten s es : nobody s -> idf s <> None -> idf (run s es) = idf s.
  Proof.
    intros Q I. apply (settled_run H es s _ (settled_quiet s Q I)).
  Qed.

  (* an id configured for the first opening is written into the directory: whoever
     opens it afterwards without one gets that id *)
  Definition own_ok (s : state) (p : nat) (o : N) : Prop :=
    over s p = Some o /\ (forall q, q <> p -> idle (at_ s q) = true) /\
    match at_ s p with
    | Checking => idf s = None \/ idf s = Some (to_string o)
    | CreatingOver i => i = o
    | WritingOver i off => i = o /\ (off <= length (to_string o))%nat /\ idf s = Some (firstn off (to_string o))
    | Off | Creating _ | LockNew _ | WritingId _ _ | LockRead | Reading => False
    | Failed _ | Panicked => idf s = Some (to_string o)
    | c => pc_id c = Some o /\ idf s = Some (to_string o)
    end.
  Lemma own_advance s p o d g k : own_ok s p o -> own_ok (advance H s p d g k) p o.
  Proof.
    intros (O & Q & K). split; [rewrite over_advance; exact O|]. split; [intros q N0; rewrite (others H s p d g k q N0); apply Q, N0|].
    unfold advance. destruct (at_ s p) eqn:A; try (destruct K; fail); try (rewrite A; exact K).
    - rewrite O. destruct (idf s) as [f|] eqn:F; cbn [at_ goto idf]; rewrite upd_same.
      + cbn [pc_id]. split; [reflexivity|]. rewrite F. destruct K as [K|K]; [discriminate K|exact K].
      + reflexivity.
    - cbn [at_ goto idf set_id]; rewrite upd_same. subst id. split; [reflexivity|]. split; [lia|reflexivity].
    - destruct K as (-> & K1 & K2). cbv zeta. rewrite K2. cbn [bytes_of]. rewrite (write_at_next _ off k K1). pose proof (piece_bound _ _ k K1) as B.
      destruct (Nat.eqb_spec (off + length (firstn k (skipn off (to_string o)))) (length (to_string o))) as [E|E]; cbn [at_ goto set_id idf]; rewrite upd_same.
      + cbn [pc_id]. split; [reflexivity|]. rewrite E, firstn_all. reflexivity.
      + split; [reflexivity|]. split; [exact B|reflexivity].
    - unfold acquire. destruct (lock s); cbn [at_ idf]; rewrite ?upd_same, ?A; exact K.
    - destruct (mkf s); cbn [at_ goto idf]; rewrite upd_same; exact K.
    - cbn [at_ goto idf set_key]; rewrite upd_same; exact K.
    - cbv zeta. destruct (_ =? _)%nat; cbn [at_ goto idf set_key]; rewrite upd_same; exact K.
    - destruct K as (K1 & K2). destruct (key_for _ _ _) as [[r|]|e|]; [destruct (bytes_eqb _ _)|..]; cbn [at_ goto leave idf]; rewrite upd_same; try exact K2. split; [exact K1|exact K2].
    - cbn [at_ goto idf set_mk]; rewrite upd_same; exact K.
    - cbv zeta. destruct (_ =? _)%nat; cbn [at_ goto idf set_mk]; rewrite upd_same; exact K.
    - destruct K as (K1 & K2). unfold unseal. cbn [pc_id] in K1. injection K1 as ->.
      destruct (take_sealed H _) as [[[ct tag] enc]|]; [|cbn [at_ leave idf]; rewrite upd_same; exact K2].
      destruct (key_for _ _ _) as [[r|]|e|]; try (cbn [at_ leave idf]; rewrite upd_same; exact K2).
      destruct (hopen H _ _ _ _) as [m|]; [|cbn [at_ leave idf]; rewrite upd_same; exact K2].
      destruct (take_masters m) as [l|]; [|cbn [at_ leave idf]; rewrite upd_same; exact K2].
      destruct (newest l) as [[v x]|]; cbn [at_ leave goto idf]; rewrite upd_same; [split; [reflexivity|exact K2]|exact K2].
  Qed.
  Theorem C69_configured_kept s p o es1 es2 q j k : nobody s -> idf s = None -> o < 2 ^ 64 ->
    (forall e, In e es1 -> exists d g n, e = Advance p d g n) -> is_open (run s (Start p (Some o) :: es1)) p ->
    has_open (run s (Start p (Some o) :: es1 ++ es2)) q j k -> by_file (run s (Start p (Some o) :: es1 ++ es2)) q -> j = o.
  Proof.
    intros Nb I0 Lt Adv (i & v & x & A) (w & B) Fq. cbn [OpenStorage.run] in *. rewrite run_app in B, Fq. set (s0 := step H s (Start p (Some o))) in *.
    assert (K0 : own_ok s0 p o).
    { unfold s0. cbn [step]. rewrite Nb. split; [cbn [over]; apply upd_same|]. cbn [at_ idf]. split; [intros r N0; rewrite upd_other by exact N0; apply Nb|]. rewrite upd_same. left. exact I0. }
    assert (G : forall es t, (forall e, In e es -> exists d g n, e = Advance p d g n) -> own_ok t p o -> own_ok (run t es) p o).
    { induction es as [|e r IH]; intros t X Y; [exact Y|]. cbn [OpenStorage.run]. apply IH; [intros e' E'; apply X; right; exact E'|]. destruct (X e (or_introl eq_refl)) as (d & g & n & ->). cbn [step]. apply own_advance, Y. }
    pose proof (G es1 s0 Adv K0) as (O1 & Q1 & K1). rewrite A in K1. destruct K1 as (P1 & K1). cbn [pc_id] in P1. injection P1 as ->.
    assert (S : settled (run s0 es1) (Some o)).
    { split; [rewrite K1; discriminate|]. split; [unfold id_of; rewrite K1; apply parse_to_string, Lt|]. intros r. destruct (Nat.eq_dec r p) as [->|N0].
      - rewrite A, O1. cbn [creating reads pc_id]. split; [reflexivity|]. split; [discriminate|]. intros i' [= <-]. reflexivity.
      - destruct (idle_pc _ (Q1 r N0)) as (Z1 & Z2 & Z3). rewrite Z1, Z2, Z3. split; [reflexivity|]. split; discriminate. }
    destruct (settled_run H es2 _ _ S) as ((_ & _ & S2) & _). destruct (S2 q) as (_ & _ & X). specialize (X j). rewrite B in X. specialize (X eq_refl). unfold by_file in Fq. rewrite Fq in X. congruence.
  Qed.

  (* FINDING: a crash between the creation of the id file and its first byte: the
     directory cannot be opened any more, unless with a configured id *)
  Theorem C69_empty_id_refuted es1 p : Forall (event_ok H) es1 -> one_at_a_time H empty es1 ->
    (match at_ (run empty es1) p with LockNew _ | WritingId _ 0 => True | _ => False end) ->
    forall es2 q, by_file (run empty (es1 ++ Stop p :: es2)) q -> ~ is_open (run empty (es1 ++ Stop p :: es2)) q.
  Proof.
    intros Ok One At es2 q. destruct (number_run H es1 empty Ok One alone_empty number_empty) as (Al & K). rewrite run_app. cbn [OpenStorage.run OpenStorage.step]. intros Fq (i & v & x & A).
    set (s := run empty es1) in *. assert (E : idf s = Some []).
    { specialize (K p). unfold number_ok in K. destruct (at_ s p); try destruct At; [apply K|]. destruct off; [|destruct At]. apply K. }
    assert (N0 : idle (at_ s p) = false) by (destruct (at_ s p); try destruct At; reflexivity).
    assert (Q : forall r, idle (at_ (leave s p Off) r) = true).
    { intros r. cbn [at_ leave]. destruct (Nat.eq_dec r p) as [->|Nr]; [rewrite upd_same; reflexivity|]. rewrite upd_other by exact Nr. destruct (idle (at_ s r)) eqn:J; [reflexivity|]. elim Nr. apply Al; assumption. }
    assert (S : settled (leave s p Off) None).
    { pose proof (settled_quiet (leave s p Off) Q) as S. unfold id_of in S. cbn [idf leave] in S. rewrite E in S. apply S. discriminate. }
    destruct (settled_run H es2 _ _ S) as ((_ & _ & S2) & _). destruct (S2 q) as (_ & _ & X). specialize (X i). rewrite A in X. specialize (X eq_refl). unfold by_file in Fq. rewrite Fq in X. discriminate X.
  Qed.
End C69.

Section C70.
  Context (H : hpke) (W : lawful H).
  Notation run := (run H).

  (* ================= C70 ================= *)
  (* whoever opens the directory under an id later, gets the master key that the
     first one got: what was encrypted stays readable. Any schedule, any crashes. *)
  Theorem C70_same_key es1 es2 p q i k k' : Forall (event_ok H) (es1 ++ es2) -> Forall internal (es1 ++ es2) ->
    has_open (run empty es1) p i k -> has_open (run empty (es1 ++ es2)) q i k' -> k' = k.
  Proof.
    intros Ok In (v & A) (w & B). apply Forall_app in Ok as (O1 & O2). apply Forall_app in In as (I1 & I2). rewrite run_app in B.
    apply (opened_later H W (run empty es1) es2 p i v k q w k' O2 I2); [apply locked_run, locked_empty|apply vault_run; try assumption; [apply locked_empty|apply vault_empty]|exact A|exact B].
  Qed.

  (* the sealed master keys are written once: never again after somebody had the
     directory open, whatever happens to the key storage *)
  Lemma opened_has_file es p i v x : at_ (run empty es) p = Opened i v x -> mkf (run empty es) <> None.
  Proof.
    assert (G : forall s, (forall p, match at_ s p with Unsealing _ | WritingMaster _ _ _ | Opened _ _ _ => mkf s <> None | _ => True end) ->
      forall p, match at_ (run s es) p with Unsealing _ | WritingMaster _ _ _ | Opened _ _ _ => mkf (run s es) <> None | _ => True end).
    { induction es as [|e r IH]; intros s K; [exact K|]. cbn [OpenStorage.run]. apply IH. clear IH. intros q. destruct e as [p' o|p' d g k|p'|j f]; cbn [step].
      - destruct (idle _); [|apply K]. cbn [at_ mkf]. destruct (Nat.eq_dec q p') as [->|N0]; [rewrite upd_same; exact I|rewrite upd_other by exact N0; apply K].
      - assert (M : mkf s <> None -> mkf (advance H s p' d g k) <> None).
        { intros X. destruct (writes_mk (at_ s p')) eqn:Wm; [|rewrite advance_mk by exact Wm; exact X]. unfold advance. destruct (at_ s p'); cbn in Wm; try discriminate Wm; cbv zeta; [cbn; discriminate|]. destruct (_ =? _)%nat; cbn; discriminate. }
        destruct (Nat.eq_dec q p') as [->|N0].
        + specialize (K p'). unfold advance in *. destruct (at_ s p') eqn:A; try (rewrite A; exact I).
          * destruct (over s p'), (idf s); cbn [at_ goto]; rewrite upd_same; exact I.
          * cbn [at_ goto]; rewrite upd_same; exact I.
          * unfold acquire. destruct (lock s); cbn [at_]; rewrite ?upd_same, ?A; exact I.
          * cbv zeta. destruct (_ =? _)%nat; cbn [at_ goto]; rewrite upd_same; exact I.
          * unfold acquire. destruct (lock s); cbn [at_]; rewrite ?upd_same, ?A; exact I.
          * destruct (parse _); cbn [at_ goto leave]; rewrite upd_same; exact I.
          * cbn [at_ goto]; rewrite upd_same; exact I.
          * cbv zeta. destruct (_ =? _)%nat; cbn [at_ goto]; rewrite upd_same; exact I.
          * unfold acquire. destruct (lock s); cbn [at_]; rewrite ?upd_same, ?A; exact I.
          * destruct (mkf s) eqn:F; cbn [at_ goto]; rewrite upd_same; [cbn [mkf goto]; rewrite F; discriminate|exact I].
          * cbn [at_ goto]; rewrite upd_same; exact I.
          * cbv zeta. destruct (_ =? _)%nat; cbn [at_ goto]; rewrite upd_same; exact I.
          * destruct (key_for _ _ _) as [[r0|]|e|]; [destruct (bytes_eqb _ _)|..]; cbn [at_ goto leave]; rewrite upd_same; exact I.
          * cbn [at_ goto]; rewrite upd_same; cbn; discriminate.
          * cbv zeta. destruct (_ =? _)%nat; cbn [at_ goto]; rewrite upd_same; cbn; discriminate.
          * destruct (unseal_shape H s id) as [(v0 & x0 & E)|[(e & E)|E]]; rewrite E; cbn [at_ goto leave]; rewrite upd_same; try exact I. exact K.
          * rewrite A. exact K.
        + rewrite (others H s p' d g k q N0). specialize (K q). destruct (at_ s q); try exact I; apply M, K.
      - cbn [at_ mkf leave]. destruct (Nat.eq_dec q p') as [->|N0]; [rewrite upd_same; exact I|rewrite upd_other by exact N0; apply K].
      - apply K. }
    intros A. specialize (G empty (fun _ => I) p). rewrite A in G. exact G.
  Qed.
  Theorem C70_written_once es1 es2 p : is_open (run empty es1) p ->
    mkf (run empty (es1 ++ es2)) = mkf (run empty es1) /\ (Forall internal es2 -> keys (run empty (es1 ++ es2)) = keys (run empty es1)).
  Proof.
    intros (i & v & x & A). rewrite run_app. pose proof (opened_has_file _ _ _ _ _ A) as M.
    destruct (founded_run H es2 _ (opened_founded _ p i v x (locked_run H es1 empty locked_empty) M A)) as (_ & E & K). split; assumption.
  Qed.

  (* a key storage that does not return the key it was given is noticed before
     anything is sealed with it: the call fails and no master key file appears *)
  Theorem C70_checked s p i g d g' k : at_ s p = GetKey i g ->
    (forall r, match keys s i with Some b => take_pair H b | None => None end = Some r -> k_pub r <> pub_of H (g_priv g)) ->
    let s' := step H s (Advance p d g' k) in
    at_ s' p = Failed EKeyStorage /\ mkf s' = mkf s /\ keys s' = keys s.
  Proof.
    intros A X. cbn [step]. unfold advance. rewrite A. unfold key_for in *. destruct (keys s i) as [b|]; [destruct (take_pair H b) as [r|]|]; cbn.
    - specialize (X r eq_refl). destruct (bytes_eqb (k_pub r) (pub_of H (g_priv g))) eqn:E; [apply bytes_eqb_spec in E; congruence|]. cbn. rewrite upd_same. repeat split.
    - rewrite upd_same. repeat split.
    - rewrite upd_same. repeat split.
  Qed.

  (* one process at a time, none of which dies in the two dangerous places: no
     call ever fails, and with nobody running the next call succeeds *)
  Theorem C70_calm es p : calm H empty es -> match at_ (run empty es) p with Failed _ | Panicked => False | _ => True end.
  Proof.
    intros C. destruct (calm_run H W es empty C (calm_empty H)) as (_ & _ & K & _). specialize (K p). unfold good in K. destruct (at_ (run empty es) p); try exact I; destruct K.
  Qed.
  Theorem C70_reopens es p pushes_ : calm H empty es -> nobody (run empty es) ->
    Forall (event_ok H) pushes_ -> Forall (fun e => exists d g k, e = Advance p d g k /\ (200 <= k)%nat) pushes_ -> (10 <= length pushes_)%nat ->
    is_open (run empty (es ++ Start p None :: pushes_)) p.
  Proof.
    intros C Q Ok P Len. pose proof (calm_run H W es empty C (calm_empty H)) as K. rewrite run_app. cbn [OpenStorage.run].
    assert (K' : calm_inv H (step H (run empty es) (Start p None))).
    { apply (calm_step H W); [exact I| |exact K]. split; [reflexivity|exact Q]. }
    assert (A : at_ (step H (run empty es) (Start p None)) p = Checking) by (cbn [step]; rewrite Q; cbn [idle at_]; apply upd_same).
    apply (opens_alone H W p pushes_ _ K'); [rewrite A; discriminate|exact Ok|exact P|rewrite A; exact Len].
  Qed.

  (* FINDING: a crash (or a full disk) while the master keys are being written:
     nobody can open the directory any more, whatever happens to the key storage *)
  Lemma torn_run es : forall s, founded s -> take_sealed H (bytes_of (mkf s)) = None -> (forall q, ~ is_open s q) -> forall q, ~ is_open (run s es) q.
  Proof.
    induction es as [|e r IH]; intros s F T N0; [exact N0|]. cbn [OpenStorage.run]. destruct (founded_step H s e F) as (F' & M & _). apply IH; [exact F'|rewrite M; exact T|].
    intros q (i & v & x & A). destruct e as [p o|p d g k|p|j f]; cbn [step] in A.
    - destruct (idle _); [|apply (N0 q); eauto; exists i, v, x; exact A]. cbn [at_] in A. destruct (Nat.eq_dec q p) as [->|Nq]; [rewrite upd_same in A; discriminate A|rewrite upd_other in A by exact Nq]. apply (N0 q). exists i, v, x. exact A.
    - destruct (Nat.eq_dec q p) as [->|Nq]; [|rewrite (others H s p d g k q Nq) in A; apply (N0 q); exists i, v, x; exact A].
      destruct F as (_ & U). specialize (U p). unfold advance in A. destruct (at_ s p) eqn:B; cbn in U; try discriminate U; try (rewrite B in A; discriminate A).
      + destruct (over s p), (idf s); cbn [at_ goto] in A; rewrite upd_same in A; discriminate A.
      + cbn [at_ goto] in A; rewrite upd_same in A; discriminate A.
      + unfold acquire in A. destruct (lock s); cbn [at_] in A; rewrite ?upd_same, ?B in A; discriminate A.
      + cbv zeta in A. destruct (_ =? _)%nat; cbn [at_ goto] in A; rewrite upd_same in A; discriminate A.
      + unfold acquire in A. destruct (lock s); cbn [at_] in A; rewrite ?upd_same, ?B in A; discriminate A.
      + destruct (parse _); cbn [at_ goto leave] in A; rewrite upd_same in A; discriminate A.
      + cbn [at_ goto] in A; rewrite upd_same in A; discriminate A.
      + cbv zeta in A. destruct (_ =? _)%nat; cbn [at_ goto] in A; rewrite upd_same in A; discriminate A.
      + unfold acquire in A. destruct (lock s); cbn [at_] in A; rewrite ?upd_same, ?B in A; discriminate A.
      + destruct (mkf s); cbn [at_ goto] in A; rewrite upd_same in A; discriminate A.
      + unfold unseal in A. rewrite T in A. cbn [at_ leave] in A. rewrite upd_same in A. discriminate A.
      + apply (N0 p). exists id, version, key. exact B.
    - cbn [at_ leave] in A. destruct (Nat.eq_dec q p) as [->|Nq]; [rewrite upd_same in A; discriminate A|rewrite upd_other in A by exact Nq]. apply (N0 q). exists i, v, x. exact A.
    - apply (N0 q). exists i, v, x. exact A.
  Qed.
  Theorem C70_torn_refuted es1 p i g off : Forall (event_ok H) es1 -> Forall internal es1 -> at_ (run empty es1) p = WritingMaster i g off ->
    forall es2 q, ~ is_open (run empty (es1 ++ Stop p :: es2)) q.
  Proof.
    intros Ok In A es2. rewrite run_app. cbn [OpenStorage.run OpenStorage.step]. set (s := run empty es1) in *.
    pose proof (locked_run H es1 empty locked_empty) as L. fold s in L. pose proof (vault_run H W es1 empty Ok In locked_empty (vault_empty H) p) as V. fold s in V.
    unfold vault_ok in V. rewrite A in V. destruct V as (G & K & Lt & M).
    assert (X : forall q, holds (at_ (leave s p Off) q) = false).
    { intros q. cbn [at_ leave]. destruct (Nat.eq_dec q p) as [->|Nq]; [rewrite upd_same; reflexivity|rewrite upd_other by exact Nq]. destruct (holds (at_ s q)) eqn:Hq; [|reflexivity].
      apply (L q) in Hq. assert (Hp : holds (at_ s p) = true) by (rewrite A; reflexivity). apply (L p) in Hp. congruence. }
    apply torn_run.
    - split; [cbn [mkf leave]; rewrite M; discriminate|]. intros q. specialize (X q). destruct (at_ (leave s p Off) q); cbn in *; congruence.
    - cbn [mkf leave]. rewrite M. cbn [bytes_of]. apply take_sealed_cut; assumption.
    - intros q (i' & v & x & B). specialize (X q). rewrite B in X. discriminate X.
  Qed.

  (* a vault whose key is not stored under the id cannot be opened under that id *)
  Theorem C70_lost_key es1 es2 n : nobody (run empty es1) -> mkf (run empty es1) <> None -> keys (run empty es1) n = None ->
    Forall (event_ok H) es2 -> Forall internal es2 ->
    forall q k, ~ has_open (run empty (es1 ++ es2)) q n k.
  Proof.
    rewrite run_app. pose proof (locked_run H es1 empty locked_empty) as L. set (s := run empty es1) in *. clearbody s. intros Q M K Ok In q k (v & A).
    destruct (founded_run H es2 s (quiet_founded s Q M)) as (_ & E & Ek). specialize (Ek In).
    assert (Vs : forall p, vault_ok H s p) by (intros p; apply vault_free; specialize (Q p); destruct (at_ s p); cbn in *; congruence).
    pose proof (vault_run H W es2 s Ok In L Vs q) as V. unfold vault_ok in V. rewrite A in V. destruct V as (_ & V).
    rewrite (unseal_ext H _ s n E) in V by (rewrite Ek; reflexivity). unfold unseal in V. destruct (take_sealed _ _) as [[[ct tag] enc]|]; [|discriminate V].
    unfold key_for in V. rewrite K in V. discriminate V.
  Qed.
  (* A master-keys file sealed for the stored vault key may hold several numbered
     keys: the process opens with the highest number and its key. *)
  Lemma take_entries_put l : forall fuel r, Forall (fun x => fst x < 2 ^ 32 /\ length (snd x) = 32%nat) l -> (length l <= fuel)%nat ->
    take_entries fuel (N.of_nat (length l)) (concat (map (fun x => le 4 (fst x) ++ snd x) l) ++ r) = Some l.
  Proof.
    induction l as [|[n x] l IH]; intros fuel r F L; [destruct fuel; reflexivity|].
    inversion F as [|a b (Fn & Fx) Fl]; subst. cbn [fst snd] in *. destruct fuel as [|fuel]; [cbn in L; lia|].
    cbn [take_entries]. destruct (N.eqb_spec (N.of_nat (length ((n, x) :: l))) 0) as [Z|Z]; [cbn in Z; lia|].
    cbn [map concat fst snd]. rewrite <- !app_assoc. rewrite take_int_app by exact Fn. rewrite take_app by exact Fx.
    replace (N.of_nat (length ((n, x) :: l)) - 1) with (N.of_nat (length l)) by (cbn [length]; lia).
    rewrite IH; [reflexivity|exact Fl|cbn in L; lia].
  Qed.
  Lemma newest_max l v x : NoDup (map fst l) -> In (v, x) l -> (forall w y, In (w, y) l -> w <= v) -> newest l = Some (v, x).
  Proof.
    induction l as [|[n y] l IH]; intros D X M; [destruct X|]. cbn [map fst] in D. inversion D as [|a b D1 D2]; subst. cbn [newest].
    destruct X as [X|X].
    - injection X as -> ->. destruct (newest l) as [[j k']|] eqn:E; [|reflexivity].
      assert (J : In (j, k') l).
      { clear -E. revert j k' E. induction l as [|[a b] l IHl]; intros j k' E; [discriminate|]. cbn [newest] in E.
        destruct (newest l) as [[j0 k0]|]; [destruct (a <=? j0)|]; injection E as <- <-; [right; apply IHl; reflexivity|left; reflexivity|left; reflexivity]. }
      destruct (N.leb_spec v j) as [Le|Le]; [|reflexivity]. exfalso. apply D1. pose proof (M j k' (or_intror J)).
      assert (j = v) by lia. subst j. change v with (fst (v, k')). apply in_map, J.
    - rewrite (IH D2 X) by (intros w z Z; apply (M w z); right; exact Z). destruct (N.leb_spec n v) as [_|G]; [reflexivity|].
      pose proof (M n y (or_introl eq_refl)). lia.
  Qed.
  Theorem C70_newest s p i g l enc ct tag v x d g' k : gen_ok H g -> at_ s p = Unsealing i ->
    keys s i = Some (put_pair (g_pair H g)) -> hseal H (pub_of H (g_priv g)) (g_rand g) (put_masters l) = (enc, ct, tag) -> mkf s = Some (put_sealed ct tag enc) ->
    Forall (fun x => fst x < 2 ^ 32 /\ length (snd x) = 32%nat) l -> N.of_nat (length l) < 2 ^ 32 ->
    NoDup (map fst l) -> In (v, x) l -> (forall w y, In (w, y) l -> w <= v) ->
    at_ (step H s (Advance p d g' k)) p = Opened i v x.
  Proof.
    intros G A K E M F Ln D X Mx. pose proof G as (Gm & Gl & Go). destruct (w_seal H W _ _ _ _ _ _ Gl Go E) as (O & Oe & Le & Lt & Lc).
    assert (Lp : length (put_masters l) = (8 + 36 * length l)%nat).
    { unfold put_masters. rewrite app_length, le_len. f_equal. clear -F. induction F as [|[n z] l (_ & B) _ IH]; [reflexivity|]. cbn [map concat fst snd length]. cbn [snd] in B. rewrite !app_length, le_len, IH, B. lia. }
    assert (T : take_sealed H (put_sealed ct tag enc) = Some (ct, tag, enc)).
    { unfold take_sealed, put_sealed. rewrite take_int_app by reflexivity. cbn [N.eqb].
      rewrite take_bytes_app. 2:{ rewrite Lc, Lp. change (2 ^ 32) with 4294967296 in Ln. change (2 ^ 64) with 18446744073709551616. lia. }
      rewrite take_app by exact Lt. rewrite take_all by exact Le. rewrite Oe. reflexivity. }
    assert (TM : take_masters (put_masters l) = Some l).
    { unfold take_masters, put_masters. rewrite take_int_app by (change (256 ^ N.of_nat 8) with 18446744073709551616; change (2 ^ 32) with 4294967296 in Ln; lia).
      rewrite <- (app_nil_r (concat _)) at 2. apply take_entries_put; [exact F|].
      unfold put_masters in Lp. rewrite app_length, le_len in Lp. unfold bytes in *. lia. }
    cbn [step]. unfold advance. rewrite A. unfold unseal. rewrite M. cbn [bytes_of]. rewrite T. unfold key_for. rewrite K, take_pair_put by assumption.
    cbn [g_pair k_priv]. rewrite O, TM, (newest_max l v x D X Mx). cbn [at_ goto]. apply upd_same.
  Qed.

  (* a vault key that is missing or unreadable: the call fails saying which, and changes nothing *)
  Theorem C70_key_errors s p i r d g' k : at_ s p = Unsealing i -> take_sealed H (bytes_of (mkf s)) = Some r ->
    (keys s i = None -> at_ (step H s (Advance p d g' k)) p = Failed EKeyNotFound) /\
    (forall b, keys s i = Some b -> take_pair H b = None -> at_ (step H s (Advance p d g' k)) p = Failed EKeyStorage) /\
    mkf (step H s (Advance p d g' k)) = mkf s /\ keys (step H s (Advance p d g' k)) = keys s.
  Proof.
    intros A T. cbn [step]. unfold advance. rewrite A. split; [|split].
    - intros K. unfold unseal, key_for. rewrite T, K. destruct r as [[ct tag] enc]. cbn [at_ leave]. apply upd_same.
    - intros b K P. unfold unseal, key_for. rewrite T, K, P. destruct r as [[ct tag] enc]. cbn [at_ leave]. apply upd_same.
    - destruct (unseal H s i); split; reflexivity.
  Qed.
End C70.

(* ---------- the hypotheses are met ---------- *)
Definition first : list event := Start 0 None :: go 0 111 g1 10.
Lemma go_ok p d g n : d < 2 ^ 64 -> gen_ok toy g -> Forall (event_ok toy) (go p d g n).
Proof. intros D G. apply Forall_forall. intros e X. apply repeat_spec in X. subst. split; assumption. Qed.
Lemma go_internal p d g n : Forall internal (go p d g n).
Proof. apply Forall_forall. intros e X. apply repeat_spec in X. subst. exact I. Qed.
Example C69_ex_open : at_ (run toy empty first) 0 = Opened 111 0 (repeat 1 32).
Proof. vm_compute. reflexivity. Qed.
(* opened, closed, opened by somebody else; a third process waits *)
Definition later : list event := Stop 0 :: Start 1 None :: Start 2 None :: go 1 5 g2 5 ++ go 2 6 g2 5.
Example C69_ex_same : at_ (run toy empty (first ++ later)) 1 = Opened 111 0 (repeat 1 32) /\ at_ (run toy empty (first ++ later)) 2 = LockRead.
Proof. vm_compute. split; reflexivity. Qed.
Example C69_ex_serial : one_at_a_time toy empty first /\ Forall (event_ok toy) first /\ Forall internal first.
Proof.
  split; [|split].
  - split; [intros q; reflexivity|]. repeat (split; [exact I|]). exact I.
  - constructor; [exact I|]. apply go_ok; [reflexivity|apply g1_ok].
  - constructor; [exact I|]. apply go_internal.
Qed.
(* a configured id: the key of another id is not found *)
Example C69_ex_configured : at_ (run toy empty (first ++ Stop 0 :: Start 1 (Some 7) :: go 1 5 g2 4)) 1 = Failed EKeyNotFound.
Proof. vm_compute. reflexivity. Qed.
Example C69_ex_configured_kept : at_ (run toy empty ((Start 1 (Some 7) :: go 1 5 g2 10) ++ Stop 1 :: Start 0 None :: go 0 9 g1 8)) 0 = Opened 7 0 (repeat 7 32).
Proof. vm_compute. reflexivity. Qed.
Example C69_ex_configured_open : at_ (run toy empty (Start 1 (Some 7) :: go 1 5 g2 10)) 1 = Opened 7 0 (repeat 7 32).
Proof. vm_compute. reflexivity. Qed.
(* killed with the id file still empty; killed after one digit *)
Definition killed_empty : list event := Start 0 None :: go 0 111 g1 2.
Example C69_ex_killed : at_ (run toy empty killed_empty) 0 = LockNew 111 /\ at_ (run toy empty (killed_empty ++ Stop 0 :: Start 1 None :: go 1 5 g2 5)) 1 = Panicked.
Proof. vm_compute. split; reflexivity. Qed.
Definition killed_digit : list event := Start 0 None :: go 0 111 g1 3 ++ [Advance 0 111 g1 1; Stop 0].
Example C70_ex_calm : calm toy empty killed_digit /\ nobody (run toy empty killed_digit) /\
  at_ (run toy empty (killed_digit ++ Start 1 None :: go 1 5 g2 10)) 1 = Opened 1 0 (repeat 7 32).
Proof.
  split; [|split].
  - unfold killed_digit, go. cbn [repeat app]. split; [exact I|]. split; [split; [reflexivity|intros q; reflexivity]|].
    do 4 (split; [split; [reflexivity|apply g1_ok]|split; [exact I|]]). split; [exact I|]. split; [vm_compute; exact I|exact I].
  - intros p. destruct (Nat.eq_dec p 0) as [->|N0]; [vm_compute; reflexivity|].
    destruct (untouched toy p killed_digit) with (s := empty) as (E & _); [|rewrite E; reflexivity].
    intros e X. unfold killed_digit, go in X. cbn [repeat app] in X. repeat (destruct X as [<-|X]; [congruence|]). destruct X.
  - vm_compute. reflexivity.
Qed.
Definition torn : list event := Start 0 None :: go 0 111 g1 9 ++ [Advance 0 111 g1 50].
Example C70_ex_torn : at_ (run toy empty torn) 0 = WritingMaster 111 g1 50 /\ at_ (run toy empty (torn ++ Stop 0 :: Start 1 None :: go 1 5 g2 5)) 1 = Failed EInitializing.
Proof. vm_compute. split; reflexivity. Qed.
Definition unchecked : list event := Start 0 None :: go 0 111 g1 7 ++ [External 111 None].
Example C70_ex_checked : at_ (run toy empty unchecked) 0 = GetKey 111 g1 /\ keys (run toy empty unchecked) 111 = None /\
  at_ (run toy empty (unchecked ++ go 0 111 g1 1)) 0 = Failed EKeyStorage /\ mkf (run toy empty (unchecked ++ go 0 111 g1 1)) = None.
Proof. vm_compute. repeat split; reflexivity. Qed.
(* another key under the id: the call panics *)
Example C70_ex_wrong_key : at_ (run toy empty (first ++ Stop 0 :: External 111 (Some (put_pair (g_pair toy g2))) :: Start 1 None :: go 1 5 g2 5)) 1 = Panicked.
Proof. vm_compute. reflexivity. Qed.

(* FINDING: two first calls at once. Both find no id file. The second one truncates
   the file of the first, which has the directory open; then it waits, and when
   the first has closed it writes its own id. The vault's key is not found under
   it, now or later. *)
Definition race_open : list event := [Start 0 None; Start 1 None; Advance 0 111 g1 200; Advance 1 222 g2 200] ++ go 0 111 g1 9.
Definition race : list event := race_open ++ [Advance 1 222 g2 200; Stop 0] ++ go 1 222 g2 4.
Theorem C69_race_refuted : has_open (run toy empty race_open) 0 111 (repeat 1 32) /\ at_ (run toy empty race) 1 = Failed EKeyNotFound /\
  forall es q, Forall (event_ok toy) es -> Forall internal es -> by_file (run toy empty (race ++ es)) q -> ~ is_open (run toy empty (race ++ es)) q.
Proof.
  split; [exists 0; vm_compute; reflexivity|]. split; [vm_compute; reflexivity|]. intros es q Ok In F (i & v & x & A).
  assert (Q : nobody (run toy empty race)).
  { intros p. destruct (Nat.eq_dec p 0) as [->|N0]; [vm_compute; reflexivity|]. destruct (Nat.eq_dec p 1) as [->|N1]; [vm_compute; reflexivity|].
    destruct (untouched toy p race) with (s := empty) as (E & _); [|rewrite E; reflexivity].
    intros e X. unfold race, race_open, go in X. cbn [repeat app] in X. repeat (destruct X as [<-|X]; [congruence|]). destruct X. }
  assert (I : id_of (run toy empty race) = Some 222) by (vm_compute; reflexivity).
  assert (M : mkf (run toy empty race) <> None) by (vm_compute; discriminate).
  assert (K : keys (run toy empty race) 222 = None) by (vm_compute; reflexivity).
  assert (E : i = 222).
  { rewrite run_app in A, F. assert (Id : idf (run toy empty race) <> None) by (unfold id_of in I; destruct (idf (run toy empty race)); [discriminate|discriminate I]).
    pose proof (settled_quiet _ Q Id) as S. rewrite I in S. destruct (settled_run toy es _ _ S) as ((_ & _ & S2) & _). destruct (S2 q) as (_ & _ & X). specialize (X i). rewrite A in X. specialize (X eq_refl). unfold by_file in F. rewrite F in X. congruence. }
  subst i. apply (C70_lost_key toy toy_lawful race es 222 Q M K Ok In q x). exists v. exact A.
Qed.

(* three keys in one file: number 7 is used; the key storage without the key, with a damaged key *)
Definition several : list (N * bytes) := [(3, repeat 3 32); (7, repeat 5 32); (5, repeat 4 32)].
Definition several_file : bytes := match hseal toy (pub_of toy (g_priv g1)) [] (put_masters several) with (enc, ct, tag) => put_sealed ct tag enc end.
Definition several_state (k : option bytes) : state := St None (Some several_file) (fun _ => k) None (fun _ => Unsealing 9) (fun _ => None).
Example C70_ex_newest : at_ (step toy (several_state (Some (put_pair (g_pair toy g1)))) (Advance 0 0 g2 9)) 0 = Opened 9 7 (repeat 5 32) /\
  Forall (fun x => fst x < 2 ^ 32 /\ length (snd x) = 32%nat) several /\ NoDup (map fst several).
Proof.
  split; [vm_compute; reflexivity|]. split; [repeat constructor|]. cbn. repeat constructor; cbn; intuition discriminate.
Qed.
Example C70_ex_key_errors : take_sealed toy several_file <> None /\
  at_ (step toy (several_state None) (Advance 0 0 g2 9)) 0 = Failed EKeyNotFound /\ at_ (step toy (several_state (Some [0; 0; 0; 0; 1])) (Advance 0 0 g2 9)) 0 = Failed EKeyStorage.
Proof. split; [vm_compute; discriminate|]. split; vm_compute; reflexivity. Qed.

Print Assumptions C69_exclusive.
Print Assumptions C69_same_id.
Print Assumptions C69_configured.
Print Assumptions C69_configured_kept.
Print Assumptions C69_never_rewritten.
Print Assumptions C69_empty_id_refuted.
Print Assumptions C69_race_refuted.
Print Assumptions C70_same_key.
Print Assumptions C70_written_once.
Print Assumptions C70_checked.
Print Assumptions C70_calm.
Print Assumptions C70_reopens.
Print Assumptions C70_torn_refuted.
Print Assumptions C70_lost_key.
Print Assumptions C70_newest.
Print Assumptions C70_key_errors.
