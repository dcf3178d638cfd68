(* Invariants of OpenStorage.v. *)
From Coq Require Import ZifyBool Lia Arith.
From Verif Require Import Base Vault OpenStorage OpenStorageProofs.
Local Open Scope N_scope.

Section H.
  Context (H : hpke) (W : lawful H).
  Notation step := (step H).
  Notation run := (run H).
  Notation advance := (advance H).

  (* the random numbers and configured ids are what they are in the program *)
  Definition event_ok (e : event) : Prop :=
    match e with
    | Start _ (Some o) => o < 2 ^ 64
    | Advance _ d g _ => d < 2 ^ 64 /\ gen_ok H g
    | _ => True
    end.
  (* nobody calls open while another process has the directory open or is opening it *)
  Fixpoint one_at_a_time (s : state) (es : list event) : Prop :=
    match es with
    | [] => True
    | e :: r => match e with Start _ _ => forall q, idle (at_ s q) = true | _ => True end /\ one_at_a_time (step s e) r
    end.
  Lemma one_app es1 : forall es2 s, one_at_a_time s (es1 ++ es2) <-> one_at_a_time s es1 /\ one_at_a_time (run s es1) es2.
  Proof. induction es1 as [|e r IH]; intros es2 s; cbn; [tauto|]. rewrite IH. tauto. Qed.

  (* ---------- the id ---------- *)
  Definition id_of (s : state) : option N := match idf s with Some f => parse f | None => None end.
  Definition pc_id (c : pc) : option N :=
    match c with
    | LockOver i | Ready i | SetKey i _ | WritingKey i _ _ | GetKey i _ | CreateMaster i _ | WritingMaster i _ _ | Unsealing i | Opened i _ _
    | CreatingOver i | WritingOver i _ => Some i
    | _ => None
    end.
  Definition creating (c : pc) : bool := match c with Creating _ | LockNew _ | WritingId _ _ | CreatingOver _ | WritingOver _ _ => true | _ => false end.
  Definition expect (o : option N) (n : N) : N := match o with Some x => x | None => n end.

  (* what a step does to the process that takes it, when the id file is not
     being created *)
  Lemma advance_pc_id s p d g k : creating (at_ s p) = false -> idf s <> None ->
    creating (at_ (advance s p d g k) p) = false /\
    forall i, pc_id (at_ (advance s p d g k) p) = Some i -> pc_id (at_ s p) = Some i \/ (at_ s p = Checking /\ over s p = Some i) \/ (at_ s p = Reading /\ id_of s = Some i).
  Proof.
    intros C I. unfold advance. destruct (at_ s p) eqn:A; cbn [creating] in C; try discriminate C; try (rewrite A; split; [reflexivity|intros i0 X; left; exact X]).
    - destruct (idf s) as [f|]; [|congruence]. destruct (over s p) as [o|]; cbn; rewrite upd_same; (split; [reflexivity|]); cbn; intros i [= <-]. right. left. split; reflexivity.
    - unfold acquire. destruct (lock s); cbn; rewrite ?upd_same, ?A; split; try reflexivity; intros i X; discriminate X.
    - destruct (idf s) as [f|] eqn:F; [|congruence]. cbn [bytes_of]. destruct (parse f) as [n|] eqn:P; cbn; rewrite upd_same; (split; [reflexivity|]); intros i X; [|discriminate X].
      right. right. split; [reflexivity|]. unfold id_of. rewrite F, P. exact X.
    - unfold acquire. destruct (lock s); cbn; rewrite ?upd_same, ?A; split; try reflexivity; intros i X; left; exact X.
    - destruct (mkf s); cbn; rewrite upd_same; (split; [reflexivity|]); intros i X; left; exact X.
    - cbn. rewrite upd_same. split; [reflexivity|]. intros i X. left. exact X.
    - cbv zeta. destruct (_ =? _)%nat; cbn; rewrite upd_same; (split; [reflexivity|]); intros i X; left; exact X.
    - destruct (key_for _ _ _) as [[r|]|e|]; [destruct (bytes_eqb _ _)|..]; cbn; rewrite upd_same; (split; [reflexivity|]); intros i X; try discriminate X; left; exact X.
    - cbn. rewrite upd_same. split; [reflexivity|]. intros i X. left. exact X.
    - cbv zeta. destruct (_ =? _)%nat; cbn; rewrite upd_same; (split; [reflexivity|]); intros i X; left; exact X.
    - destruct (unseal_shape H s id) as [(v & x & ->)|[(e & ->)| ->]]; cbn; rewrite upd_same; (split; [reflexivity|]); intros i X; try discriminate X; left; exact X.
  Qed.
  Lemma not_creating c : creating c = false -> writes_id c = false.
  Proof. destruct c; cbn; congruence. Qed.

  Definition reads (c : pc) : bool := match c with LockRead | Reading => true | _ => false end.
  Lemma advance_reads s p d g k : (reads (at_ s p) = true -> over s p = None) -> reads (at_ (advance s p d g k) p) = true -> over s p = None.
  Proof.
    intros R. unfold advance. destruct (at_ s p) eqn:A; try (rewrite A; cbn; discriminate).
    - destruct (over s p) as [o|]; [|reflexivity]. destruct (idf s); cbn; rewrite upd_same; cbn; discriminate.
    - cbn. rewrite upd_same. discriminate.
    - unfold acquire. destruct (lock s); cbn; rewrite ?upd_same, ?A; discriminate.
    - cbv zeta. destruct (_ =? _)%nat; cbn; rewrite upd_same; discriminate.
    - intros _. apply R. reflexivity.
    - intros _. apply R. reflexivity.
    - cbn. rewrite upd_same. discriminate.
    - cbv zeta. destruct (_ =? _)%nat; cbn; rewrite upd_same; discriminate.
    - unfold acquire. destruct (lock s); cbn; rewrite ?upd_same, ?A; discriminate.
    - destruct (mkf s); cbn; rewrite upd_same; discriminate.
    - cbn. rewrite upd_same. discriminate.
    - cbv zeta. destruct (_ =? _)%nat; cbn; rewrite upd_same; discriminate.
    - destruct (key_for _ _ _) as [[r|]|e|]; [destruct (bytes_eqb _ _)|..]; cbn; rewrite upd_same; discriminate.
    - cbn. rewrite upd_same. discriminate.
    - cbv zeta. destruct (_ =? _)%nat; cbn; rewrite upd_same; discriminate.
    - destruct (unseal_shape H s id) as [(v & x & ->)|[(e & ->)| ->]]; cbn; rewrite upd_same; discriminate.
  Qed.
  Lemma idle_pc c : idle c = true -> pc_id c = None /\ reads c = false /\ creating c = false.
  Proof. destruct c; cbn; intros X; try discriminate X; repeat split. Qed.

  Definition settled (s : state) (n : option N) : Prop :=
    idf s <> None /\ id_of s = n /\
    forall p, creating (at_ s p) = false /\ (reads (at_ s p) = true -> over s p = None) /\
      forall i, pc_id (at_ s p) = Some i -> match over s p with Some o => i = o | None => n = Some i end.
  Lemma settled_step s n e : settled s n -> settled (step s e) n /\ idf (step s e) = idf s.
  Proof.
    intros (I & E & K). destruct e as [p o|p d g k|p|i f]; cbn [OpenStorage.step].
    - destruct (idle (at_ s p)) eqn:Id; [|split; [split; [exact I|split; [exact E|exact K]]|reflexivity]].
      split; [|reflexivity]. split; [exact I|]. split; [exact E|]. intros q. cbn. destruct (Nat.eq_dec q p) as [->|N0].
      + rewrite !upd_same. split; [reflexivity|]. split; [discriminate|discriminate].
      + rewrite !upd_other by exact N0. apply K.
    - destruct (K p) as (C & R & Kp). pose proof (advance_id H s p d g k (not_creating _ C)) as F. split; [|exact F].
      destruct (advance_pc_id s p d g k C I) as (C' & P). split; [rewrite F; exact I|]. split; [unfold id_of; rewrite F; exact E|].
      intros q. rewrite over_advance. destruct (Nat.eq_dec q p) as [->|N0].
      + split; [exact C'|]. split; [apply advance_reads, R|]. intros i X. destruct (P i X) as [Y|[(Y & Z)|(Y & Z)]].
        * apply Kp, Y.
        * rewrite Z. reflexivity.
        * rewrite R by (rewrite Y; reflexivity). rewrite <- E. exact Z.
      + rewrite (others H s p d g k q N0). apply K.
    - split; [|reflexivity]. split; [exact I|]. split; [exact E|]. intros q. cbn. destruct (Nat.eq_dec q p) as [->|N0].
      + rewrite upd_same. split; [reflexivity|]. split; discriminate.
      + rewrite upd_other by exact N0. apply K.
    - split; [|reflexivity]. split; [exact I|]. split; [exact E|exact K].
  Qed.
  Lemma settled_run es : forall s n, settled s n -> settled (run s es) n /\ idf (run s es) = idf s.
  Proof.
    induction es as [|e r IH]; intros s n S; [split; [exact S|reflexivity]|]. cbn [OpenStorage.run].
    destruct (settled_step s n e S) as (S' & E). destruct (IH _ _ S') as (S2 & E2). split; [exact S2|]. rewrite E2, E. reflexivity.
  Qed.
  (* everybody has ended and the id file is there *)
  Lemma settled_quiet s : (forall p, idle (at_ s p) = true) -> idf s <> None -> settled s (id_of s).
  Proof.
    intros Q I. split; [exact I|]. split; [reflexivity|]. intros p. destruct (idle_pc _ (Q p)) as (A & B & C). rewrite A, B, C.
    split; [reflexivity|]. split; discriminate.
  Qed.

  (* ---------- one process at a time: the number in the file ---------- *)
  Definition number_ok (s : state) (p : nat) : Prop :=
    match at_ s p with
    | Creating i => i < 2 ^ 64 /\ over s p = None
    | LockNew i => i < 2 ^ 64 /\ over s p = None /\ idf s = Some []
    | WritingId i off => i < 2 ^ 64 /\ over s p = None /\ (off <= length (to_string i))%nat /\ idf s = Some (firstn off (to_string i))
    | c => (reads c = true -> over s p = None) /\
           forall i, pc_id c = Some i -> match over s p with Some o => i = o | None => id_of s = Some i /\ creating c = false end
    end.
  Definition alone (s : state) : Prop := forall p q, idle (at_ s p) = false -> idle (at_ s q) = false -> p = q.
  Lemma number_idle s p : idle (at_ s p) = true -> number_ok s p.
  Proof. intros I. unfold number_ok. destruct (at_ s p); cbn in *; try discriminate I; split; discriminate. Qed.
  Lemma advance_idle s p d g k : idle (at_ s p) = true -> advance s p d g k = s.
  Proof. intros I. unfold advance. destruct (at_ s p); cbn in I; try discriminate I; reflexivity. Qed.

  Lemma number_advance s p d g k : d < 2 ^ 64 -> number_ok s p -> number_ok (advance s p d g k) p.
  Proof.
    intros D K. unfold number_ok in K. unfold advance. destruct (at_ s p) eqn:A; unfold number_ok; try (rewrite A; exact K).
    - destruct (over s p) as [o|] eqn:O; destruct (idf s) as [f|]; cbn; rewrite upd_same, ?O; cbn.
      + split; [discriminate|]. intros i [= <-]. reflexivity.
      + split; [discriminate|]. intros i [= <-]. reflexivity.
      + split; [reflexivity|discriminate].
      + split; [exact D|reflexivity].
    - cbn. rewrite upd_same. destruct K as (K1 & K2). repeat apply conj; [exact K1|exact K2|reflexivity].
    - unfold acquire. destruct (lock s); cbn; rewrite ?A, ?upd_same; [exact K|]. destruct K as (K1 & K2 & K3). repeat apply conj; [exact K1|exact K2|lia|exact K3].
    - destruct K as (K1 & K2 & K3 & K4). cbv zeta. rewrite K4. cbn [bytes_of]. rewrite (write_at_next _ off k K3). pose proof (piece_bound _ _ k K3) as B.
      destruct (Nat.eqb_spec (off + length (firstn k (skipn off (to_string id)))) (length (to_string id))) as [E|E]; cbn [at_ goto set_id over]; rewrite upd_same.
      + cbn [reads pc_id]. split; [discriminate|]. intros i [= <-]. rewrite K2. unfold id_of. cbn [idf goto set_id]. rewrite E, firstn_all, parse_to_string by exact K1. split; reflexivity.
      + repeat apply conj; [exact K1|exact K2|exact B|reflexivity].
    - unfold acquire. destruct (lock s); cbn; rewrite ?A, ?upd_same; [exact K|]. split; [intros _; apply K; reflexivity|discriminate].
    - destruct K as (K1 & _). specialize (K1 eq_refl). destruct (parse (bytes_of (idf s))) as [i|] eqn:P; cbn; rewrite upd_same; cbn; (split; [discriminate|]); intros j; [|discriminate].
      intros [= <-]. rewrite K1. split; [|reflexivity]. unfold id_of. cbn. destruct (idf s) as [f|]; cbn in P; [exact P|discriminate P].
    - cbn. rewrite upd_same. cbn. split; [discriminate|]. intros i [= <-]. destruct K as (_ & K). specialize (K _ eq_refl). destruct (over s p); [exact K|]. destruct K. discriminate.
    - destruct K as (_ & K). specialize (K _ eq_refl). destruct (over s p) as [o|] eqn:O; [|destruct K; discriminate]. cbv zeta. destruct (_ =? _)%nat; cbn; rewrite upd_same, O; cbn; (split; [discriminate|]); intros i [= <-]; exact K.
    - destruct K as (_ & K). specialize (K _ eq_refl). unfold acquire. destruct (lock s); cbn; rewrite ?A, ?upd_same; cbn; (split; [discriminate|]); intros i [= <-]; unfold id_of in *; cbn; exact K.
    - destruct K as (_ & K). specialize (K _ eq_refl). destruct (mkf s); cbn; rewrite upd_same; cbn; (split; [discriminate|]); intros i [= <-]; exact K.
    - destruct K as (_ & K). specialize (K _ eq_refl). cbn; rewrite upd_same; cbn; (split; [discriminate|]); intros i [= <-]; exact K.
    - destruct K as (_ & K). specialize (K _ eq_refl). cbv zeta. destruct (_ =? _)%nat; cbn; rewrite upd_same; cbn; (split; [discriminate|]); intros i [= <-]; exact K.
    - destruct K as (_ & K). specialize (K _ eq_refl). destruct (key_for _ _ _) as [[r|]|e|]; [destruct (bytes_eqb _ _)|..]; cbn; rewrite upd_same; cbn; (split; [discriminate|]); intros i X; try discriminate X; injection X as <-; exact K.
    - destruct K as (_ & K). specialize (K _ eq_refl). cbn; rewrite upd_same; cbn; (split; [discriminate|]); intros i [= <-]; exact K.
    - destruct K as (_ & K). specialize (K _ eq_refl). cbv zeta. destruct (_ =? _)%nat; cbn; rewrite upd_same; cbn; (split; [discriminate|]); intros i [= <-]; exact K.
    - destruct K as (_ & K). specialize (K _ eq_refl). destruct (unseal_shape H s id) as [(v & x & ->)|[(e & ->)| ->]]; cbn; rewrite upd_same; cbn; (split; [discriminate|]); intros i X; try discriminate X; injection X as <-; exact K.
  Qed.
  Lemma number_step s e : event_ok e -> match e with Start _ _ => forall q, idle (at_ s q) = true | _ => True end ->
    alone s -> (forall p, number_ok s p) -> alone (step s e) /\ forall p, number_ok (step s e) p.
  Proof.
    intros Ok Q Al K. destruct e as [p o|p d g k|p|i f]; cbn [OpenStorage.step].
    - destruct (idle (at_ s p)); [|split; assumption].
      set (s' := St _ _ _ _ _ _). assert (X : forall q, q <> p -> idle (at_ s' q) = true) by (intros q N0; cbn; rewrite upd_other by exact N0; apply Q).
      split.
      + intros a b Ia Ib. destruct (Nat.eq_dec a p) as [->|Na]; [|rewrite X in Ia by exact Na; discriminate]. destruct (Nat.eq_dec b p) as [->|Nb]; [reflexivity|rewrite X in Ib by exact Nb; discriminate].
      + intros q. destruct (Nat.eq_dec q p) as [->|N0]; [|apply number_idle, X, N0]. unfold number_ok. cbn. rewrite upd_same. cbn. split; discriminate.
    - destruct (idle (at_ s p)) eqn:I; [rewrite advance_idle by exact I; split; assumption|].
      assert (X : forall q, q <> p -> idle (at_ (advance s p d g k) q) = true).
      { intros q N0. rewrite (others H s p d g k q N0). destruct (idle (at_ s q)) eqn:J; [reflexivity|]. elim N0. apply Al; assumption. }
      split.
      + intros a b Ia Ib. destruct (Nat.eq_dec a p) as [->|Na]; [|rewrite X in Ia by exact Na; discriminate]. destruct (Nat.eq_dec b p) as [->|Nb]; [reflexivity|rewrite X in Ib by exact Nb; discriminate].
      + intros q. destruct (Nat.eq_dec q p) as [->|N0]; [apply number_advance; [apply Ok|apply K]|apply number_idle, X, N0].
    - assert (X : forall q, idle (at_ (leave s p Off) q) = false -> idle (at_ s q) = false /\ at_ (leave s p Off) q = at_ s q).
      { intros q. cbn. destruct (Nat.eq_dec q p) as [->|N0]; [rewrite upd_same; discriminate|rewrite upd_other by exact N0; intros Y; split; [exact Y|reflexivity]]. }
      split.
      + intros a b Ia Ib. apply Al; apply X; assumption.
      + intros q. destruct (idle (at_ (leave s p Off) q)) eqn:J; [apply number_idle, J|]. destruct (X q J) as (_ & E). specialize (K q). unfold number_ok in *. rewrite E. exact K.
    - split; [exact Al|]. exact K.
  Qed.
  Lemma number_run es : forall s, Forall event_ok es -> one_at_a_time s es -> alone s -> (forall p, number_ok s p) ->
    alone (run s es) /\ forall p, number_ok (run s es) p.
  Proof.
    induction es as [|e r IH]; intros s Ok Q Al K; [split; assumption|]. inversion Ok as [|? ? O1 O2]; subst. destruct Q as (Q1 & Q2).
    destruct (number_step s e O1 Q1 Al K) as (A & B). cbn [OpenStorage.run]. apply IH; assumption.
  Qed.
  Lemma alone_empty : alone empty.
  Proof. intros p q X. discriminate X. Qed.
  Lemma number_empty p : number_ok empty p.
  Proof. apply number_idle. reflexivity. Qed.
  (* somebody has it open: the file holds that number, for good *)
  Lemma opened_settled s p i v x : alone s -> (forall q, number_ok s q) -> at_ s p = Opened i v x -> over s p = None -> settled s (Some i).
  Proof.
    intros Al K A O. pose proof (K p) as Kp. unfold number_ok in Kp. rewrite A in Kp. destruct Kp as (_ & Kp). specialize (Kp _ eq_refl). rewrite O in Kp. destruct Kp as (Kp & _).
    split; [unfold id_of in Kp; destruct (idf s); [congruence|discriminate]|]. split; [exact Kp|]. intros q. destruct (Nat.eq_dec q p) as [->|N0].
    - rewrite A, O. cbn. split; [reflexivity|]. split; [discriminate|]. intros j [= <-]. reflexivity.
    - assert (I : idle (at_ s q) = true).
      { destruct (idle (at_ s q)) eqn:J; [reflexivity|]. elim N0. apply Al; [exact J|rewrite A; reflexivity]. }
      destruct (idle_pc _ I) as (X & Y & Z). rewrite X, Y, Z. split; [reflexivity|]. split; discriminate.
  Qed.
End H.
