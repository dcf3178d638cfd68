(* C83: a server's TLS certificates *)
From Coq Require Import Lia Arith.
From Verif Require Import Base Certs.
Local Open Scope nat_scope.

(* the events of a call that runs without others in between *)
Definition alone (i : nat) (o : op) (l : list event) : Prop :=
  exists r, l = EStart i o :: r /\ forall e, In e r -> exists ok, e = EStep i ok.
(* ... and whose accesses to the database and the file system succeed *)
Definition smooth (i : nat) (o : op) (l : list event) : Prop :=
  exists n, l = EStart i o :: repeat (EStep i true) n.

Lemma run_app ec po l1 : forall l2 s s1, run ec po l1 s = Some s1 -> run ec po (l1 ++ l2) s = run ec po l2 s1.
Proof.
  induction l1 as [|e r IH]; cbn [run app]; intros l2 s s1 H; [now inversion H|].
  destruct (step ec po e s); [eauto|discriminate].
Qed.
Lemma run_snoc ec po l e s s' : run ec po (l ++ [e]) s = Some s' -> exists s1, run ec po l s = Some s1 /\ step ec po e s1 = Some s'.
Proof.
  revert s. induction l as [|x r IH]; cbn [run app]; intros s H.
  - exists s. destruct (step ec po e s); [inversion H; subst; auto|discriminate].
  - destruct (step ec po x s); [eauto|discriminate].
Qed.
Lemma find_call_set i j k l : find_call i (set_call j k l) = if Nat.eqb j i then Some k else find_call i l.
Proof.
  unfold find_call, set_call. cbn [find fst]. destruct (Nat.eqb_spec j i) as [E|E]; [reflexivity|].
  induction l as [|[a b] r IH]; cbn; [reflexivity|].
  destruct (Nat.eqb_spec a j) as [Ej|Ej]; cbn.
  - destruct (Nat.eqb_spec a i); [congruence|exact IH].
  - destruct (Nat.eqb_spec a i); [reflexivity|exact IH].
Qed.
Lemma stored_store c s a b q k : stored (mk_state (s_domain s) (store c s) a b q k) = Some c.
Proof. unfold stored, assoc, store. cbn [s_domain s_docs find fst]. now rewrite bytes_eqb_refl. Qed.
Lemma assoc_filter {A} d k (l : list (bytes * A)) : d <> k -> assoc k (filter (fun p => negb (bytes_eqb (fst p) d)) l) = assoc k l.
Proof.
  unfold assoc. intro N. induction l as [|[x y] r IH]; cbn; [reflexivity|].
  destruct (bytes_eqb x d) eqn:E; cbn.
  - apply bytes_eqb_spec in E. subst x. destruct (bytes_eqb d k) eqn:E2; [apply bytes_eqb_spec in E2; congruence|exact IH].
  - destruct (bytes_eqb x k); [reflexivity|exact IH].
Qed.
Lemma assoc_store c s k : assoc k (store c s) = if bytes_eqb (s_domain s) k then Some c else assoc k (s_docs s).
Proof.
  unfold store. unfold assoc at 1. cbn [find fst]. destruct (bytes_eqb (s_domain s) k) eqn:E; [reflexivity|].
  apply bytes_eqb_neq in E. exact (assoc_filter _ _ (s_docs s) E).
Qed.

(* --- what the history allows ------------------------------------------------------- *)
Section Hist.
Context (ec : bytes -> bool) (po : cert -> bool) (d0 : bytes).
(* c was given to an installing call *)
Definition given (l : list event) (c : cert) : Prop := exists i o, In (EStart i o) l /\ offered o = Some c.
(* c was the stored certificate of the name d at some moment of l *)
Definition was_stored (l : list event) (d : bytes) (c : cert) : Prop :=
  exists l1 l2 s1, l = l1 ++ l2 /\ run ec po l1 (init d0) = Some s1 /\ s_domain s1 = d /\ stored s1 = Some c.
Record hinv (l : list event) (s : state) : Prop := {
  h_docs : forall d c, assoc d (s_docs s) = Some c -> given l c;
  h_served : forall c, s_served s = Some c -> ec (c_key c) = true /\ was_stored l (s_domain s) c;
  h_quic : forall c, In c (s_quic s) -> po c = true /\ was_stored l (s_domain s) c;
  h_pin : forall p, s_pinned s = Some p -> p = [] \/ exists i b k, In (EStart i (OSelf b p k)) l;
  h_calls : forall i k, find_call i (s_calls s) = Some k -> In (EStart i (k_op k)) l;
  h_set : forall i k c, find_call i (s_calls s) = Some k -> k_at k = AtSet c -> was_stored l (s_domain s) c
}.
Lemma given_more l e c : given l c -> given (l ++ [e]) c.
Proof. intros (i & o & H & Ho). exists i, o. split; [apply in_or_app; now left|exact Ho]. Qed.
Lemma was_more l e d c : was_stored l d c -> was_stored (l ++ [e]) d c.
Proof. intros (l1 & l2 & s1 & -> & H). exists l1, (l2 ++ [e]), s1. split; [now rewrite <- app_assoc|exact H]. Qed.
Lemma was_now l e s c : run ec po l (init d0) = Some s -> stored s = Some c -> was_stored (l ++ [e]) (s_domain s) c.
Proof. intros H Hs. exists l, [e], s. auto. Qed.

Lemma hinv_at l s i k p :
  (forall d c, assoc d (s_docs s) = Some c -> given l c) ->
  (forall c, s_served s = Some c -> ec (c_key c) = true /\ was_stored l (s_domain s) c) ->
  (forall c, In c (s_quic s) -> po c = true /\ was_stored l (s_domain s) c) ->
  (forall p, s_pinned s = Some p -> p = [] \/ exists i b k, In (EStart i (OSelf b p k)) l) ->
  (forall i k, find_call i (s_calls s) = Some k -> In (EStart i (k_op k)) l) ->
  (forall i k c, find_call i (s_calls s) = Some k -> k_at k = AtSet c -> was_stored l (s_domain s) c) ->
  In (EStart i (k_op k)) l -> (forall c, p = AtSet c -> was_stored l (s_domain s) c) ->
  hinv l (at_place i k p s).
Proof.
  intros H1 H2 H3 H4 H5 H6 H7 H8. constructor; cbn [at_place s_docs s_served s_quic s_pinned s_calls s_domain]; auto.
  - intros j k'. rewrite find_call_set. destruct (Nat.eqb_spec i j) as [<-|]; [|apply H5]. intro E. inversion E; subst. exact H7.
  - intros j k' c. rewrite find_call_set. destruct (Nat.eqb_spec i j) as [<-|]; [|apply H6]. intro E. inversion E; subst. cbn. apply H8.
Qed.

Lemma hinv_step l e s s' : run ec po l (init d0) = Some s -> hinv l s -> step ec po e s = Some s' -> hinv (l ++ [e]) s'.
Proof.
  intros HR [H1 H2 H3 H4 H5 H6] HS.
  assert (G1 : forall d c, assoc d (s_docs s) = Some c -> given (l ++ [e]) c) by (intros; apply given_more; eauto).
  assert (G2 : forall c, s_served s = Some c -> ec (c_key c) = true /\ was_stored (l ++ [e]) (s_domain s) c)
    by (intros c Hc; destruct (H2 c Hc); split; [auto|now apply was_more]).
  assert (G3 : forall c, In c (s_quic s) -> po c = true /\ was_stored (l ++ [e]) (s_domain s) c)
    by (intros c Hc; destruct (H3 c Hc); split; [auto|now apply was_more]).
  assert (G4 : forall p, s_pinned s = Some p -> p = [] \/ exists i b k, In (EStart i (OSelf b p k)) (l ++ [e]))
    by (intros p Hp; destruct (H4 p Hp) as [|(i & b & k & ?)]; [now left|right; exists i, b, k; apply in_or_app; now left]).
  assert (G5 : forall i k, find_call i (s_calls s) = Some k -> In (EStart i (k_op k)) (l ++ [e])) by (intros; apply in_or_app; left; eauto).
  assert (G6 : forall i k c, find_call i (s_calls s) = Some k -> k_at k = AtSet c -> was_stored (l ++ [e]) (s_domain s) c)
    by (intros; apply was_more; eauto).
  destruct e as [i o|i ok|d]; cbn [step] in HS.
  - destruct (find_call i (s_calls s)) eqn:F; [discriminate|]. inversion HS; subst s'.
    apply hinv_at; auto; cbn [k_op]; [apply in_or_app; right; now left|].
    intros c Hc. destruct o as [| |[|]| |]; discriminate.
  - destruct (find_call i (s_calls s)) as [k|] eqn:F; [|discriminate].
    assert (s' = step_call ec po i k ok s) as -> by (destruct (k_at k); congruence). clear HS.
    pose proof (G5 _ _ F) as Gi.
    unfold step_call. destruct (k_at k) as [| | |c| | | | | |a] eqn:K.
    + apply hinv_at; auto. intros c. destruct (_ && _); discriminate.
    + destruct ok, (offered (k_op k)) as [c|] eqn:O; try (apply hinv_at; auto; discriminate).
      apply hinv_at; cbn [s_docs s_served s_quic s_pinned s_calls s_domain]; auto; try discriminate.
      intros d c'. rewrite assoc_store. destruct (bytes_eqb (s_domain s) d); [|apply G1].
      intro E. inversion E; subst c'. exists i, (k_op k). auto.
    + destruct ok, (stored s) as [c|] eqn:St; try (apply hinv_at; auto; destruct (k_op k); discriminate).
      apply hinv_at; auto. intros c' E. inversion E; subst c'. now apply was_now.
    + destruct (ec (c_key c)) eqn:Ec.
      * apply hinv_at; cbn [s_docs s_served s_quic s_pinned s_calls s_domain]; auto; [|destruct (k_op k); discriminate].
        intros c' E. inversion E; subst c'. split; [exact Ec|exact (G6 _ _ _ F K)].
      * apply hinv_at; auto. destruct (k_op k); discriminate.
    + apply hinv_at; auto. intro c. destruct (s_pinned s), (k_op k); discriminate.
    + destruct ok, (s_pinned s) eqn:Ep; try (apply hinv_at; auto; try rewrite Ep; auto; discriminate).
      apply hinv_at; cbn [s_docs s_served s_quic s_pinned s_calls s_domain]; auto; [discriminate|].
      intro c. destruct (k_op k); discriminate.
    + destruct ok; [|apply hinv_at; auto; discriminate].
      apply hinv_at; cbn [s_docs s_served s_quic s_pinned s_calls s_domain]; auto; [|discriminate].
      intros p E. inversion E. now left.
    + destruct ok, (k_op k) as [b one key| | | |] eqn:O; try (apply hinv_at; auto; try rewrite O; auto; discriminate).
      apply hinv_at; cbn [s_docs s_served s_quic s_pinned s_calls s_domain]; auto; try rewrite O; auto; [|discriminate].
      intros p E. inversion E; subst p. right. exists i, b, key. exact Gi.
    + destruct ok, (stored s) as [c|] eqn:St; try (apply hinv_at; auto; discriminate).
      destruct (po c) eqn:P; [|apply hinv_at; auto; discriminate].
      apply hinv_at; cbn [s_docs s_served s_quic s_pinned s_calls s_domain]; auto; [|discriminate].
      intros c' [<-|Hin]; [split; [exact P|now apply was_now]|now apply G3].
    + constructor; auto.
  - inversion HS; subst s'. constructor; cbn [s_docs s_served s_quic s_pinned s_calls s_domain]; auto; try discriminate.
    intros c [].
Qed.
Lemma hinv_init : hinv [] (init d0).
Proof. constructor; cbn; try discriminate. intros c []. Qed.
Lemma hinv_run l : forall s, run ec po l (init d0) = Some s -> hinv l s.
Proof.
  induction l as [|e l IH] using rev_ind; intros s H; [inversion H; subst; apply hinv_init|].
  destruct (run_snoc _ _ _ _ _ _ H) as (s1 & H1 & H2). eapply hinv_step; eauto.
Qed.
End Hist.

(* Whatever calls run at the same time, fail, or are cut off by a crash: a certificate chain is
   only stored or presented to clients together with the key it was installed with; TLS
   listeners and QUIC endpoints present only certificates that were at some moment stored for
   the name the server has; and the pinned-certificate file, unless it was cut off while being
   created, holds a certificate made by install_self_signed_certificate *)
Theorem C83_genuine : forall ec po d l s, run ec po l (init d) = Some s ->
  (forall c, stored s = Some c \/ s_served s = Some c \/ In c (s_quic s) -> exists i o, In (EStart i o) l /\ offered o = Some c) /\
  (forall c, s_served s = Some c -> ec (c_key c) = true /\
     exists l1 l2 s1, l = l1 ++ l2 /\ run ec po l1 (init d) = Some s1 /\ s_domain s1 = s_domain s /\ stored s1 = Some c) /\
  (forall c, In c (s_quic s) -> po c = true /\
     exists l1 l2 s1, l = l1 ++ l2 /\ run ec po l1 (init d) = Some s1 /\ s_domain s1 = s_domain s /\ stored s1 = Some c) /\
  (forall p, s_pinned s = Some p -> p = [] \/ exists i b k, In (EStart i (OSelf b p k)) l).
Proof.
  intros ec po d l s H. destruct (hinv_run _ _ _ _ _ H) as [H1 H2 H3 H4 _ _].
  assert (W : forall c, was_stored ec po d l (s_domain s) c -> exists i o, In (EStart i o) l /\ offered o = Some c).
  { intros c (l1 & l2 & s1 & -> & R & Hd & Hs). destruct (hinv_run _ _ _ _ _ R) as [G1 _ _ _ _ _].
    destruct (G1 _ _ Hs) as (i & o & Hin & Ho). exists i, o. split; [apply in_or_app; now left|exact Ho]. }
  repeat split; auto.
  - intros c [Hc|[Hc|Hc]]; [exact (H1 _ _ Hc)|exact (W c (proj2 (H2 _ Hc)))|exact (W c (proj2 (H3 _ Hc)))].
  - now apply H2.
  - now apply H2.
  - now apply H3.
  - now apply H3.
Qed.

(* --- a call without others in between ------------------------------------------------ *)
(* what the rest of a call has done, by where it is *)
Definition mid (ec : bytes -> bool) (i : nat) (o : op) (s s' : state) : Prop :=
  s_domain s' = s_domain s /\
  (forall j, j <> i -> find_call j (s_calls s') = find_call j (s_calls s)) /\
  (forall n, n <> s_domain s -> assoc n (s_docs s') = assoc n (s_docs s)) /\
  exists p, find_call i (s_calls s') = Some (mk_call o p) /\
  let same := s_docs s' = s_docs s in
  let unserved := s_served s' = s_served s in
  let unpinned := s_pinned s' = s_pinned s in
  let put := stored s' = offered o /\ offered o <> None in
  let live := s_served s' = offered o /\ exists c, offered o = Some c /\ ec (c_key c) = true in
  let self := exists b one k, o = OSelf b one k in
  (o <> OListen -> s_quic s' = s_quic s) /\
  match p with
  | AtCheck => same /\ unserved /\ unpinned /\ self
  | AtStore => same /\ unserved /\ unpinned /\ o <> OSecure /\ o <> OListen
  | AtRead => unserved /\ unpinned /\ (o = OSecure /\ same \/ o <> OListen /\ put)
  | AtSet c => unserved /\ unpinned /\ stored s' = Some c /\ (o = OSecure /\ same \/ o <> OListen /\ put)
  | AtExists => put /\ live /\ unpinned /\ o <> OSecure /\ o <> OListen
  | AtRemove => put /\ live /\ unpinned /\ o <> OSecure /\ o <> OListen
  | AtCreate => put /\ live /\ s_pinned s' = None /\ self
  | AtWrite => put /\ live /\ s_pinned s' = Some [] /\ self
  | AtListen => same /\ unserved /\ unpinned /\ s_quic s' = s_quic s /\ o = OListen
  | Ended Refused => same /\ unserved /\ unpinned /\ (exists one k, o = OSelf false one k) /\ stored s <> None
  | Ended Ok =>
      match o with
      | OSelf _ one _ => put /\ live /\ s_pinned s' = Some one
      | OInstall _ | OPem _ => put /\ live /\ s_pinned s' = None
      | OSecure => same /\ unpinned /\ (unserved \/ s_served s' = stored s /\ stored s <> None)
      | OListen => same /\ unserved /\ unpinned /\ exists c, stored s = Some c /\ s_quic s' = c :: s_quic s
      end
  | Ended Failed =>
      (same /\ unserved /\ unpinned \/ put /\ (unserved /\ unpinned \/ live)) /\ o <> OSecure /\ (o = OListen -> s_quic s' = s_quic s)
  end.

Lemma mid_start ec po i o s s' : step ec po (EStart i o) s = Some s' -> mid ec i o s s'.
Proof.
  cbn [step]. destruct (find_call i (s_calls s)) eqn:F; [discriminate|]. intro H. inversion H; subst s'. clear H.
  unfold mid. cbn [at_place s_domain s_docs s_calls s_served s_quic s_pinned k_op].
  split; [reflexivity|]. split; [intros j Hj; rewrite find_call_set; destruct (Nat.eqb_spec i j); [congruence|reflexivity]|].
  split; [reflexivity|]. exists (start_place o). split; [rewrite find_call_set, Nat.eqb_refl; reflexivity|].
  split; [reflexivity|].
  destruct o as [b one k|c|[c|]| |]; cbn [start_place]; repeat split; try discriminate; eauto.
  all: left; repeat split; reflexivity.
Qed.

Lemma mid_step ec po i o s s1 ok s' : mid ec i o s s1 -> step ec po (EStep i ok) s1 = Some s' -> mid ec i o s s'.
Proof.
  intros (Hd & Hj & Ha & p & F & Hq & HM) H. cbn [step] in H. rewrite F in H. cbn [k_at] in H.
  assert (s' = step_call ec po i (mk_call o p) ok s1 /\ forall a, p <> Ended a) as [-> NE].
  { destruct p; try (inversion H; subst; split; [reflexivity|discriminate]). discriminate. }
  clear H.
  assert (J : forall q j, j <> i -> find_call j (set_call i (mk_call o q) (s_calls s1)) = find_call j (s_calls s))
    by (intros q j Hn; rewrite find_call_set; destruct (Nat.eqb_spec i j); [congruence|auto]).
  assert (I : forall q, find_call i (set_call i (mk_call o q) (s_calls s1)) = Some (mk_call o q))
    by (intro q; now rewrite find_call_set, Nat.eqb_refl).
  assert (ST : forall q, stored (at_place i (mk_call o p) q s1) = stored s1) by reflexivity.
  unfold step_call. cbn [k_at k_op].
  destruct p as [| | |c| | | | | |a]; cbn zeta in HM |- *.
  - destruct HM as (E1 & E2 & E3 & b & one & k & ->).
    set (q := if _ : bool then Ended Refused else AtStore).
    unfold mid. cbn [at_place s_domain s_docs s_calls s_served s_quic s_pinned k_op].
    repeat (split; [now auto|]). exists q. split; [apply I|]. split; [exact Hq|].
    subst q. destruct ok; cbn [andb]; [|repeat split; auto; discriminate].
    destruct (stored s1) eqn:St; cbn [andb]; [|repeat split; auto; discriminate].
    destruct b; cbn [negb]; [repeat split; auto; discriminate|].
    repeat split; eauto. unfold stored in *. rewrite <- E1, <- Hd, St. discriminate.
  - destruct HM as (E1 & E2 & E3 & N1 & N2).
    destruct ok, (offered o) as [c|] eqn:O;
      try (unfold mid; cbn [at_place s_domain s_docs s_calls s_served s_quic s_pinned k_op];
           repeat (split; [now auto|]); exists (Ended Failed); split; [apply I|]; split; [exact Hq|]; 
           split; [left; auto|split; [auto|intro; congruence]]).
    unfold mid. cbn [at_place s_domain s_docs s_calls s_served s_quic s_pinned k_op].
    split; [exact Hd|]. split; [apply J|]. split.
    { intros n Hn. rewrite assoc_store. destruct (bytes_eqb (s_domain s1) n) eqn:E; [apply bytes_eqb_spec in E; congruence|auto]. }
    exists AtRead. split; [apply I|]. split; [exact Hq|]. repeat split; auto. right. split; [exact N2|].
    split; [|rewrite O; discriminate]. unfold stored. cbn [at_place s_domain s_docs]. rewrite assoc_store, bytes_eqb_refl. now rewrite O.
  - destruct HM as (E2 & E3 & HM).
    destruct ok, (stored s1) as [c|] eqn:St.
    1: { unfold mid. cbn [at_place s_domain s_docs s_calls s_served s_quic s_pinned k_op].
         repeat (split; [now auto|]). exists (AtSet c). split; [apply I|]. split; [exact Hq|]. repeat split; auto.
         destruct HM as [HM|HM]; [now left|right]. unfold stored in *. cbn [at_place s_domain s_docs] in *. rewrite St. exact HM. }
    all: unfold mid; cbn [at_place s_domain s_docs s_calls s_served s_quic s_pinned k_op]; repeat (split; [now auto|]);
      eexists; split; [apply I|]; split; [exact Hq|];
      destruct HM as [[-> Hs]|[Hl [Hp Hp']]]; [auto|].
    all: destruct o; try congruence; try (exfalso; now apply Hp').
    all: split; [right; split; [split; [unfold stored in *; cbn [at_place s_domain s_docs] in *; congruence|exact Hp']|left; auto]|split; [discriminate|intro; congruence]].
  - destruct HM as (E2 & E3 & St & HM). destruct (ec (c_key c)) eqn:Ec.
    + unfold mid. cbn [at_place s_domain s_docs s_calls s_served s_quic s_pinned k_op].
      repeat (split; [now auto|]). eexists. split; [apply I|]. split; [exact Hq|].
      destruct HM as [[-> Hs]|[Hl [Hp Hp']]].
      * repeat split; auto. right. unfold stored in *. rewrite <- Hs, <- Hd, St. split; [reflexivity|discriminate].
      * destruct (offered o) as [c'|] eqn:O; [|congruence]. assert (c' = c) by congruence. subst c'.
        destruct o; try discriminate; repeat split; eauto; try discriminate; cbn; auto; congruence.
    + unfold mid. cbn [at_place s_domain s_docs s_calls s_served s_quic s_pinned k_op].
      repeat (split; [now auto|]). eexists. split; [apply I|]. split; [exact Hq|].
      destruct HM as [[-> Hs]|[Hl [Hp Hp']]]; [auto|].
      destruct o; try congruence; try (exfalso; now apply Hp').
      all: split; [right; split; [split; [exact Hp|exact Hp']|left; auto]|split; [discriminate|intro; congruence]].
  - destruct HM as ((Hp & Hp') & (L1 & L2) & E3 & N1 & N2).
    unfold mid. cbn [at_place s_domain s_docs s_calls s_served s_quic s_pinned k_op].
    repeat (split; [now auto|]). eexists. split; [apply I|]. split; [exact Hq|].
    destruct (s_pinned s1) eqn:Pn.
    + repeat split; auto.
    + destruct o as [b one k|c|c| |]; try congruence; repeat split; eauto.
  - destruct HM as ((Hp & Hp') & (L1 & L2) & E3 & N1 & N2).
    assert (D : forall P : Prop, P \/ ~ P -> True) by auto.
    destruct ok, (s_pinned s1) eqn:Pn.
    1: { unfold mid. cbn [at_place s_domain s_docs s_calls s_served s_quic s_pinned k_op].
         repeat (split; [now auto|]). eexists. split; [apply I|]. split; [exact Hq|].
         destruct o as [b1 one k|c|c| |]; try congruence; repeat split; eauto. }
    all: unfold mid; cbn [at_place s_domain s_docs s_calls s_served s_quic s_pinned k_op]; repeat (split; [now auto|]);
      exists (Ended Failed); split; [apply I|]; split; [exact Hq|];
      split; [right; split; [split; [exact Hp|exact Hp']|right; split; [exact L1|exact L2]]|split; [exact N1|intro; congruence]].
  - destruct HM as ((Hp & Hp') & (L1 & L2) & E3 & b & one & k & ->). destruct ok.
    + unfold mid. cbn [at_place s_domain s_docs s_calls s_served s_quic s_pinned k_op].
      repeat (split; [now auto|]). exists AtWrite. split; [apply I|]. split; [exact Hq|]. repeat split; eauto.
    + unfold mid. cbn [at_place s_domain s_docs s_calls s_served s_quic s_pinned k_op].
      repeat (split; [now auto|]). exists (Ended Failed). split; [apply I|]. split; [exact Hq|].
      split; [right; split; [split; [exact Hp|exact Hp']|right; split; [exact L1|exact L2]]|split; discriminate].
  - destruct HM as ((Hp & Hp') & (L1 & L2) & E3 & b & one & k & ->). destruct ok.
    + unfold mid. cbn [at_place s_domain s_docs s_calls s_served s_quic s_pinned k_op].
      repeat (split; [now auto|]). exists (Ended Ok). split; [apply I|]. split; [exact Hq|]. repeat split; eauto.
    + unfold mid. cbn [at_place s_domain s_docs s_calls s_served s_quic s_pinned k_op].
      repeat (split; [now auto|]). exists (Ended Failed). split; [apply I|]. split; [exact Hq|].
      split; [right; split; [split; [exact Hp|exact Hp']|right; split; [exact L1|exact L2]]|split; discriminate].
  - destruct HM as (E1 & E2 & E3 & E4 & ->).
    destruct ok, (stored s1) as [c|] eqn:St; [destruct (po c)| | |].
    1: { unfold mid. cbn [at_place s_domain s_docs s_calls s_served s_quic s_pinned k_op].
         repeat (split; [now auto|]). exists (Ended Ok). split; [apply I|]. split; [congruence|].
         repeat split; auto. exists c. rewrite E4. split; [|reflexivity]. unfold stored in *. now rewrite <- E1, <- Hd. }
    all: unfold mid; cbn [at_place s_domain s_docs s_calls s_served s_quic s_pinned k_op]; repeat (split; [now auto|]);
      exists (Ended Failed); split; [apply I|]; split; [congruence|]; split; [left; auto|split; [discriminate|auto]].
  - exfalso. exact (NE a eq_refl).
Qed.
Lemma mid_run ec po i o l s s' : alone i o l -> run ec po l s = Some s' -> mid ec i o s s'.
Proof.
  intros (r & -> & Hr) H. cbn [run] in H. destruct (step ec po (EStart i o) s) as [s1|] eqn:E; [|discriminate].
  apply mid_start in E. revert s1 E H. induction r as [|e r IH]; intros s1 E H; cbn [run] in H; [now inversion H; subst|].
  destruct (Hr e (or_introl eq_refl)) as (ok & ->).
  destruct (step ec po (EStep i ok) s1) as [s2|] eqn:E2; [|discriminate].
  refine (IH _ s2 (mid_step _ _ _ _ _ _ _ _ E E2) H). intros e' He. apply Hr. now right.
Qed.

(* A call that no other call overlaps. If an install returns Ok, the certificate is the stored
   one and the one TLS listeners present, and the pinned-certificate file is there exactly for
   a self-signed one and holds it, whatever state the server was in before. Refused: only
   install_self_signed_certificate without overwrite, when there is a certificate; nothing
   changed. Failed: the stored certificate is the old or the new one. No call touches the
   certificates of other names, and only listen_on adds an endpoint *)
Theorem C83_install : forall ec po i o c l s s' a, alone i o l -> offered o = Some c ->
  run ec po l s = Some s' -> answer_of i s' = Some a ->
  s_quic s' = s_quic s /\
  (forall n, n <> s_domain s -> assoc n (s_docs s') = assoc n (s_docs s)) /\
  match a with
  | Ok => stored s' = Some c /\ s_served s' = Some c /\ s_pinned s' = match o with OSelf _ one _ => Some one | _ => None end
  | Refused => s_docs s' = s_docs s /\ s_served s' = s_served s /\ s_pinned s' = s_pinned s /\
               stored s <> None /\ exists one k, o = OSelf false one k
  | Failed => (stored s' = stored s \/ stored s' = Some c) /\ (s_served s' = s_served s \/ s_served s' = Some c)
  end.
Proof.
  intros ec po i o c l s s' a HA HO HR Hans. destruct (mid_run _ _ _ _ _ _ _ HA HR) as (Hd & _ & Ha & p & F & Hq & HM).
  unfold answer_of in Hans. rewrite F in Hans.
  destruct p; try discriminate. inversion Hans; subst a0.
  split; [apply Hq; intros ->; discriminate|]. split; [exact Ha|].
  cbn zeta in HM. rewrite HO in HM. destruct a.
  - destruct o; try discriminate; destruct HM as ((E1 & _) & (E2 & _) & E3); repeat split; auto.
  - destruct HM as (E1 & E2 & E3 & E4 & E5). auto.
  - destruct HM as [[(E1 & E2 & E3)|((E1 & _) & [(E2 & E3)|(E2 & _)])] _]; split; auto.
    left. unfold stored. now rewrite E1, Hd.
Qed.


Section Progress.
Context (ec : bytes -> bool) (po : cert -> bool) (i : nat).
Definition fin (s : state) : Prop := exists n s', run ec po (repeat (EStep i true) n) s = Some s' /\ answer_of i s' = Some Ok.
Lemma fin_step o p s : (forall a, p <> Ended a) -> fin (step_call ec po i (mk_call o p) true (at_place i (mk_call o AtCheck) p s)) ->
  fin (at_place i (mk_call o AtCheck) p s).
Proof.
  intros NE (n & s' & H & HA). exists (Datatypes.S n), s'. split; [|exact HA].
  cbn [repeat run step]. change (s_calls (at_place i (mk_call o AtCheck) p s)) with (set_call i (mk_call o p) (s_calls s)). rewrite find_call_set, Nat.eqb_refl. cbn [k_at k_op].
  destruct p; try exact H. exfalso. exact (NE a eq_refl).
Qed.
Lemma at_at k o p q s : at_place i (mk_call o k) p s = at_place i (mk_call o q) p s.
Proof. reflexivity. Qed.
Lemma fin_end o q s : fin (at_place i (mk_call o q) (Ended Ok) s).
Proof.
  exists 0, (at_place i (mk_call o q) (Ended Ok) s). split; [reflexivity|].
  unfold answer_of. cbn [at_place s_calls]. now rewrite find_call_set, Nat.eqb_refl.
Qed.
Ltac go := apply fin_step; [discriminate|]; unfold step_call; cbn [k_at k_op].
Lemma fin_write b one k s : fin (at_place i (mk_call (OSelf b one k) AtCheck) AtWrite s).
Proof. go. apply fin_end. Qed.
Lemma fin_create b one k s : fin (at_place i (mk_call (OSelf b one k) AtCheck) AtCreate s).
Proof. go. rewrite (at_at AtCreate _ _ AtCheck). apply fin_write. Qed.
Lemma fin_next o s : offered o <> None -> fin (at_place i (mk_call o AtCheck) (match o with OSelf _ _ _ => AtCreate | _ => Ended Ok end) s).
Proof. intro H. destruct o; try apply fin_end. apply fin_create. Qed.
Lemma fin_remove o s : offered o <> None -> s_pinned s <> None -> fin (at_place i (mk_call o AtCheck) AtRemove s).
Proof.
  intros H HP. go. cbn [at_place s_pinned]. destruct (s_pinned s); [|congruence].
  match goal with |- fin (at_place i _ _ ?x) => exact (fin_next o x H) end.
Qed.
Lemma fin_exists o s : offered o <> None -> fin (at_place i (mk_call o AtCheck) AtExists s).
Proof.
  intros H. go. cbn [at_place s_pinned]. destruct (s_pinned s) eqn:P.
  - match goal with |- fin (at_place i _ _ ?x) => refine (fin_remove o x H _) end. cbn [at_place s_pinned]. congruence.
  - match goal with |- fin (at_place i _ _ ?x) => exact (fin_next o x H) end.
Qed.
Lemma fin_set o c s : offered o <> None -> ec (c_key c) = true -> fin (at_place i (mk_call o AtCheck) (AtSet c) s).
Proof.
  intros H E. go. rewrite E. destruct o; try (now elim H);
  match goal with |- fin (at_place i (mk_call ?o _) _ ?x) => exact (fin_exists o x H) end.
Qed.
Lemma fin_read o c s : offered o <> None -> ec (c_key c) = true -> stored s = Some c -> fin (at_place i (mk_call o AtCheck) AtRead s).
Proof.
  intros H E St. go. change (stored (at_place i (mk_call o AtCheck) AtRead s)) with (stored s). rewrite St.
  match goal with |- fin (at_place i _ _ ?x) => exact (fin_set o c x H E) end.
Qed.
Lemma fin_store o c s : offered o = Some c -> ec (c_key c) = true -> fin (at_place i (mk_call o AtCheck) AtStore s).
Proof.
  intros H E. go. rewrite H.
  match goal with |- fin (at_place i _ _ ?x) => refine (fin_read o c x _ E _) end; [congruence|apply stored_store].
Qed.
End Progress.

(* ... and if the key is one rustls accepts, the accesses to the disk succeed, and there is
   nothing to refuse, it does return Ok *)
Theorem C83_install_succeeds : forall ec po i o c s, offered o = Some c -> ec (c_key c) = true ->
  (stored s = None \/ forall one k, o <> OSelf false one k) -> find_call i (s_calls s) = None ->
  exists l s', smooth i o l /\ run ec po l s = Some s' /\ answer_of i s' = Some Ok.
Proof.
  intros ec po i o c s HO HE HP HN.
  enough (fin ec po i (at_place i (mk_call o AtCheck) (start_place o) s)) as (n & s' & H1 & H2).
  { exists (EStart i o :: repeat (EStep i true) n), s'. split; [exists n; reflexivity|]. split; [|exact H2].
    cbn [run step]. now rewrite HN. }
  destruct o as [b one key|c'|[c'|]| |]; try discriminate; cbn [start_place].
  - apply fin_step; [discriminate|]. unfold step_call. cbn [k_at k_op].
    match goal with |- context [if ?x then Ended Refused else AtStore] => assert (x = false) as -> end.
    { change (stored (at_place i (mk_call (OSelf b one key) AtCheck) AtCheck s)) with (stored s).
      destruct HP as [->|HP]; [reflexivity|]. destruct b; [apply Bool.andb_false_r|]. exfalso. exact (HP one key eq_refl). }
    match goal with |- fin _ _ _ (at_place i _ _ ?x) => exact (fin_store ec po i (OSelf b one key) c x HO HE) end.
  - exact (fin_store ec po i (OInstall c') c s HO HE).
  - exact (fin_store ec po i (OPem (Some c')) c s HO HE).
Qed.

(* Listening: whatever certificate was presented before, listen_for_secure_tcp_on makes it the
   stored one, if its key is one rustls accepts, and listen_on's endpoint has the stored one *)
Theorem C83_listen : forall ec po i l s s', run ec po l s = Some s' -> 
  (smooth i OSecure l -> answer_of i s' <> None -> answer_of i s' = Some Ok /\
     s_docs s' = s_docs s /\ s_pinned s' = s_pinned s /\ s_quic s' = s_quic s /\
     s_served s' = match stored s with Some c => if ec (c_key c) then Some c else s_served s | None => s_served s end) /\
  (alone i OListen l -> answer_of i s' = Some Ok ->
     s_docs s' = s_docs s /\ s_pinned s' = s_pinned s /\ s_served s' = s_served s /\
     exists c, stored s = Some c /\ s_quic s' = c :: s_quic s).
Proof.
  intros ec po i l s s' HR. split.
  - intros (n & ->) Hans. cbn [run step] in HR. destruct (find_call i (s_calls s)) eqn:F; [discriminate|]. cbn [start_place] in HR.
    destruct n as [|n]; cbn [repeat run step] in HR.
    { inversion HR; subst. unfold answer_of in Hans. cbn [at_place s_calls] in Hans. rewrite find_call_set, Nat.eqb_refl in Hans. now elim Hans. }
    cbn [at_place s_calls] in HR. rewrite find_call_set, Nat.eqb_refl in HR. cbn [k_at k_op] in HR.
    unfold step_call in HR. cbn [k_at k_op] in HR.
    match type of HR with context [stored ?x] => change (stored x) with (stored s) in HR end.
    assert (RE : forall m k a x y, run ec po (repeat (EStep i true) m) (at_place i k (Ended a) x) = Some y -> y = at_place i k (Ended a) x).
    { intros [|m] k a x y H; cbn [repeat run step] in H; [now inversion H|].
      cbn [at_place s_calls] in H. rewrite find_call_set, Nat.eqb_refl in H. discriminate. }
    assert (AN : forall k a x, answer_of i (at_place i k (Ended a) x) = Some a).
    { intros. unfold answer_of. cbn [at_place s_calls]. now rewrite find_call_set, Nat.eqb_refl. }
    destruct (stored s) as [c|] eqn:St.
    2: { apply RE in HR. subst s'. rewrite AN. repeat split. }
    destruct n as [|n]; cbn [repeat run step] in HR.
    { inversion HR; subst. unfold answer_of in Hans. cbn [at_place s_calls] in Hans. rewrite find_call_set, Nat.eqb_refl in Hans. now elim Hans. }
    cbn [at_place s_calls] in HR. rewrite find_call_set, Nat.eqb_refl in HR. cbn [k_at k_op] in HR.
    unfold step_call in HR. cbn [k_at k_op] in HR.
    destruct (ec (c_key c)); apply RE in HR; subst s'; rewrite AN; repeat split.
  - intros HA Hans. destruct (mid_run _ _ _ _ _ _ _ HA HR) as (Hd & _ & Ha & p & F & Hq & HM).
    unfold answer_of in Hans. rewrite F in Hans. destruct p; try discriminate. inversion Hans; subst a. destruct HM as (E1 & E2 & E3 & E4). auto.
Qed.

(* A history without overlapping calls, failed calls or crashes in the middle of a call: then
   the pinned-certificate file holds the stored certificate, which is self-signed, and TLS
   listeners present the stored certificate *)
Inductive calm (ec : bytes -> bool) (po : cert -> bool) : state -> Prop :=
| calm_init d : calm ec po (init d)
| calm_call i o l s s' a : calm ec po s -> alone i o l -> run ec po l s = Some s' -> answer_of i s' = Some a -> a <> Failed -> calm ec po s'
| calm_restart s s' : calm ec po s -> step ec po (ECrash (s_domain s)) s = Some s' -> calm ec po s'.
Theorem C83_calm : forall ec po s, calm ec po s ->
  (forall p, s_pinned s = Some p -> exists key, stored s = Some (mk_cert [p] key)) /\
  (s_served s = None \/ s_served s = stored s).
Proof.
  intros ec po s H. induction H as [d|i o l s s' a H [IH1 IH2] HA HR Hans NF|s s' H [IH1 IH2] HS].
  - split; [discriminate|now left].
  - destruct (mid_run _ _ _ _ _ _ _ HA HR) as (Hd & _ & Ha & p & F & Hq & HM).
    unfold answer_of in Hans. rewrite F in Hans. destruct p; try discriminate. inversion Hans; subst a0. cbn zeta in HM.
    assert (SS : s_docs s' = s_docs s -> stored s' = stored s) by (unfold stored; intros ->; now rewrite Hd).
    destruct a; [|destruct HM as (E1 & -> & -> & _); rewrite (SS E1); auto|congruence].
    destruct o as [b one key|c|c| |].
    + destruct HM as ((E1 & _) & (E2 & _) & ->). split; [|right; congruence]. intros p E. inversion E; subst. exists key. exact E1.
    + destruct HM as ((E1 & _) & (E2 & _) & ->). split; [discriminate|right; congruence].
    + destruct HM as ((E1 & _) & (E2 & _) & ->). split; [discriminate|right; congruence].
    + destruct HM as (E1 & -> & E3). rewrite (SS E1). split; [exact IH1|]. destruct E3 as [->|[-> _]]; auto.
    + destruct HM as (E1 & -> & -> & _). rewrite (SS E1). auto.
  - cbn [step] in HS. inversion HS; subst s'. cbn [s_pinned s_served]. auto.
Qed.

(* A call of install_self_signed_certificate without overwrite that finds a certificate when it
   looks, changes nothing whatever the other calls do: it is over *)
Theorem C83_no_overwrite : forall ec po i s s' one key, find_call i (s_calls s) = Some (mk_call (OSelf false one key) AtCheck) ->
  stored s <> None -> step ec po (EStep i true) s = Some s' ->
  answer_of i s' = Some Refused /\ s_docs s' = s_docs s /\ s_served s' = s_served s /\ s_pinned s' = s_pinned s /\ s_quic s' = s_quic s.
Proof.
  intros ec po i s s' one key F St HS. cbn [step] in HS. rewrite F in HS. cbn [k_at] in HS. inversion HS; subst s'. clear HS.
  unfold step_call. cbn [k_at k_op]. destruct (stored s) eqn:E; [|congruence]. cbn [andb negb].
  unfold answer_of. cbn [at_place s_calls s_docs s_served s_pinned s_quic k_op]. rewrite find_call_set, Nat.eqb_refl. repeat split.
Qed.

(* --- examples and what does not hold --------------------------------------------------- *)
Definition ex_ec (k : bytes) : bool := match k with [] => false | _ => true end.
Definition ex_po (c : cert) : bool := true.
Definition ex_run (l : list event) : state := match run ex_ec ex_po l (init [100%N]) with Some s => s | None => init [] end.
Definition steps (i n : nat) : list event := repeat (EStep i true) n.
Definition certA := mk_cert [[1%N]; [2%N]] [7%N].
Definition certB := mk_cert [[3%N]] [8%N].
Definition ex_l1 := (EStart 0 (OSelf false [5%N] [6%N]) :: steps 0 7) ++ [EStart 1 OListen; EStep 1 true] ++ (EStart 2 (OInstall certA) :: steps 2 5).
Example ex_genuine : run ex_ec ex_po ex_l1 (init [100%N]) = Some (ex_run ex_l1) /\ s_served (ex_run ex_l1) = Some certA /\
  s_quic (ex_run ex_l1) = [mk_cert [[5%N]] [6%N]] /\ s_pinned (ex_run ex_l1) = None /\
  s_pinned (ex_run (EStart 0 (OSelf false [5%N] [6%N]) :: steps 0 7)) = Some [5%N].
Proof. repeat match goal with |- _ /\ _ => split end; vm_compute; reflexivity. Qed.
Example ex_install : alone 0 (OSelf false [5%N] [6%N]) (EStart 0 (OSelf false [5%N] [6%N]) :: steps 0 7) /\
  answer_of 0 (ex_run (EStart 0 (OSelf false [5%N] [6%N]) :: steps 0 7)) = Some Ok /\
  answer_of 3 (ex_run (ex_l1 ++ [EStart 3 (OSelf false [5%N] [6%N]); EStep 3 true])) = Some Refused /\
  find_call 3 (s_calls (ex_run ex_l1)) = None /\ ex_ec (c_key certB) = true.
Proof.
  split; [exists (steps 0 7); split; [reflexivity|]; intros e He; exists true; exact (repeat_spec _ _ _ He)|].
  repeat match goal with |- _ /\ _ => split end; vm_compute; reflexivity.
Qed.
Example ex_listen : smooth 4 OSecure (EStart 4 OSecure :: steps 4 2) /\ alone 1 OListen [EStart 1 OListen; EStep 1 true] /\
  let s := ex_run (ex_l1 ++ [ECrash [100%N]]) in s_served s = None /\
  s_served (ex_run (ex_l1 ++ [ECrash [100%N]] ++ (EStart 4 OSecure :: steps 4 2))) = Some certA.
Proof.
  split; [exists 2; reflexivity|]. split; [exists [EStep 1 true]; split; [reflexivity|]; intros e [<-|[]]; now exists true|].
  cbv zeta. repeat match goal with |- _ /\ _ => split end; vm_compute; reflexivity.
Qed.
Example ex_calm : calm ex_ec ex_po (ex_run (EStart 0 (OSelf false [5%N] [6%N]) :: steps 0 7)) /\
  stored (ex_run (EStart 0 (OSelf false [5%N] [6%N]) :: steps 0 7)) = Some (mk_cert [[5%N]] [6%N]).
Proof.
  split; [|vm_compute; reflexivity].
  refine (calm_call ex_ec ex_po 0 (OSelf false [5%N] [6%N]) (EStart 0 (OSelf false [5%N] [6%N]) :: steps 0 7) (init [100%N]) _ Ok (calm_init _ _ _) _ _ _ _).
  - exists (steps 0 7). split; [reflexivity|]. intros e He. exists true. exact (repeat_spec _ _ _ He).
  - vm_compute; reflexivity.
  - vm_compute; reflexivity.
  - discriminate.
Qed.
Example ex_no_overwrite : let s := ex_run (ex_l1 ++ [EStart 3 (OSelf false [9%N] [9%N])]) in
  find_call 3 (s_calls s) = Some (mk_call (OSelf false [9%N] [9%N]) AtCheck) /\ stored s = Some certA.
Proof. cbv zeta. repeat match goal with |- _ /\ _ => split end; vm_compute; reflexivity. Qed.

(* NOT true: that after all installs returned Ok, clients are presented the stored certificate.
   Two installs overlap: the first reads the certificate back before the second stores its own
   and puts it into the cache after the second did. The listeners keep presenting certA while
   certificate_chain() is certB's, until the next install or restart *)
Theorem C83_race_refuted : ~ forall ec po d l s, run ec po l (init d) = Some s ->
  (forall i k, find_call i (s_calls s) = Some k -> k_at k = Ended Ok) -> s_served s = stored s.
Proof.
  intro H.
  set (l := [EStart 0 (OInstall certA); EStart 1 (OInstall certB); EStep 0 true; EStep 0 true; EStep 1 true; EStep 1 true; EStep 1 true; EStep 1 true; EStep 0 true; EStep 0 true]).
  specialize (H ex_ec ex_po [100%N] l (ex_run l)).
  assert (K : s_calls (ex_run l) = [(0, mk_call (OInstall certA) (Ended Ok)); (1, mk_call (OInstall certB) (Ended Ok))]) by (vm_compute; reflexivity).
  assert (E : s_served (ex_run l) = stored (ex_run l)).
  { apply H; [vm_compute; reflexivity|]. intros i k. rewrite K. unfold find_call. cbn [find fst].
    destruct (0 =? i); [intro E; inversion E; reflexivity|]. destruct (1 =? i); [intro E; inversion E; reflexivity|discriminate]. }
  vm_compute in E. discriminate.
Qed.
(* NOT true: that without overwrite an installed certificate is never replaced: two calls that
   both look before either stores, both return Ok; and a call whose look fails goes on as if
   there was no certificate *)
Theorem C83_overwrite_refuted :
  (exists ec po d l s i j one key one' key', run ec po l (init d) = Some s /\ i <> j /\
     find_call i (s_calls s) = Some (mk_call (OSelf false one key) (Ended Ok)) /\
     find_call j (s_calls s) = Some (mk_call (OSelf false one' key') (Ended Ok)) /\
     stored s = Some (mk_cert [one'] key') /\ one <> one') /\
  (exists ec po d l i one key s s', run ec po l (init d) = Some s /\ stored s = Some certA /\ alone i (OSelf false one key) (EStart i (OSelf false one key) :: EStep i false :: steps i 6) /\
     run ec po (EStart i (OSelf false one key) :: EStep i false :: steps i 6) s = Some s' /\
     answer_of i s' = Some Ok /\ stored s' = Some (mk_cert [one] key)).
Proof.
  split.
  - set (l := [EStart 0 (OSelf false [5%N] [6%N]); EStart 1 (OSelf false [7%N] [8%N]); EStep 0 true; EStep 1 true] ++ steps 0 6 ++ steps 1 7).
    exists ex_ec, ex_po, [100%N], l, (ex_run l), 0, 1, [5%N], [6%N], [7%N], [8%N].
    repeat match goal with |- _ /\ _ => split end; try (vm_compute; reflexivity); discriminate.
  - set (l := EStart 0 (OInstall certA) :: steps 0 4).
    exists ex_ec, ex_po, [100%N], l, 1, [5%N], [6%N], (ex_run l), (ex_run (l ++ EStart 1 (OSelf false [5%N] [6%N]) :: EStep 1 false :: steps 1 6)).
    repeat match goal with |- _ /\ _ => split end; try (vm_compute; reflexivity).
    exists (EStep 1 false :: steps 1 6). split; [reflexivity|]. intros e [<-|He]; [now exists false|]. exists true. exact (repeat_spec _ _ _ He).
Qed.
(* NOT true: that an install that returns an error leaves the server with the certificate it
   had: a key rustls::sign::any_ecdsa_type does not accept (RSA, Ed25519) is found out after the
   certificate was stored; until the next restart the old one is presented, after it none *)
Theorem C83_failed_install_refuted : exists ec po d l s, run ec po l (init d) = Some s /\ s_served s = Some certA /\ stored s = Some certA /\
  exists i c s' s2 j s3, run ec po (EStart i (OPem (Some c)) :: steps i 3) s = Some s' /\ answer_of i s' = Some Failed /\
    stored s' = Some c /\ c <> certA /\ s_served s' = Some certA /\
    step ec po (ECrash d) s' = Some s2 /\ run ec po (EStart j OSecure :: steps j 2) s2 = Some s3 /\ answer_of j s3 = Some Ok /\ s_served s3 = None.
Proof.
  set (l := EStart 0 (OInstall certA) :: steps 0 4). set (c := mk_cert [[4%N]] []).
  set (l2 := EStart 1 (OPem (Some c)) :: steps 1 3).
  exists ex_ec, ex_po, [100%N], l, (ex_run l).
  repeat match goal with |- _ /\ _ => split end; try (vm_compute; reflexivity).
  exists 1, c, (ex_run (l ++ l2)), (ex_run (l ++ l2 ++ [ECrash [100%N]])), 2, (ex_run (l ++ l2 ++ [ECrash [100%N]] ++ EStart 2 OSecure :: steps 2 2)).
  repeat match goal with |- _ /\ _ => split end; try (vm_compute; reflexivity). discriminate.
Qed.
(* NOT true: that the pinned-certificate file, if it is there, holds the stored certificate. A
   crash between storing the new certificate and removing the file leaves the file of the old
   one; a crash while it is written leaves it empty; and it is not for one name: a server opened
   with another name still has it *)
Theorem C83_pinned_refuted :
  (exists l s p c, run ex_ec ex_po l (init [100%N]) = Some s /\ s_pinned s = Some p /\ stored s = Some c /\ ~ In p (c_chain c) /\ p <> [] /\ s_calls s = []) /\
  (exists l s, run ex_ec ex_po l (init [100%N]) = Some s /\ s_pinned s = Some [] /\ s_calls s = []) /\
  (exists l s p, run ex_ec ex_po l (init [100%N]) = Some s /\ s_pinned s = Some p /\ p <> [] /\ stored s = None /\ s_calls s = []).
Proof.
  split; [|split].
  - set (l := (EStart 0 (OSelf false [5%N] [6%N]) :: steps 0 7) ++ (EStart 1 (OInstall certA) :: steps 1 1) ++ [ECrash [100%N]]).
    exists l, (ex_run l), [5%N], certA. repeat match goal with |- _ /\ _ => split end; try (vm_compute; reflexivity).
    + intros [E|[E|[]]]; discriminate.
    + discriminate.
  - set (l := (EStart 0 (OSelf false [5%N] [6%N]) :: steps 0 6) ++ [ECrash [100%N]]).
    exists l, (ex_run l). repeat match goal with |- _ /\ _ => split end; vm_compute; reflexivity.
  - set (l := (EStart 0 (OSelf false [5%N] [6%N]) :: steps 0 7) ++ [ECrash [101%N]]).
    exists l, (ex_run l), [5%N]. repeat match goal with |- _ /\ _ => split end; try (vm_compute; reflexivity). discriminate.
Qed.
(* A QUIC endpoint keeps the certificate it was started with: an install that returns Ok while
   it listens does not reach it, although the pinned-certificate file is the new one's *)
Theorem C83_endpoint_refuted : exists l s one key, run ex_ec ex_po l (init [100%N]) = Some s /\
  (forall i k, find_call i (s_calls s) = Some k -> k_at k = Ended Ok) /\
  s_pinned s = Some one /\ stored s = Some (mk_cert [one] key) /\ s_quic s <> [] /\ forall c, In c (s_quic s) -> ~ In one (c_chain c).
Proof.
  set (l' := (EStart 0 (OSelf false [5%N] [6%N]) :: steps 0 7) ++ [EStart 1 OListen; EStep 1 true] ++ (EStart 2 (OSelf true [7%N] [8%N]) :: steps 2 8)).
  exists l', (ex_run l'), [7%N], [8%N].
  assert (K : s_calls (ex_run l') = [(2, mk_call (OSelf true [7%N] [8%N]) (Ended Ok)); (1, mk_call OListen (Ended Ok)); (0, mk_call (OSelf false [5%N] [6%N]) (Ended Ok))]) by (vm_compute; reflexivity).
  assert (Q : s_quic (ex_run l') = [mk_cert [[5%N]] [6%N]]) by (vm_compute; reflexivity).
  split; [vm_compute; reflexivity|]. split.
  { intros i k. rewrite K. unfold find_call. cbn [find fst].
    destruct (2 =? i); [intro E; inversion E; reflexivity|]. destruct (1 =? i); [intro E; inversion E; reflexivity|].
    destruct (0 =? i); [intro E; inversion E; reflexivity|discriminate]. }
  split; [vm_compute; reflexivity|]. split; [vm_compute; reflexivity|].
  rewrite Q. split; [discriminate|]. intros c [<-|[]] [E|[]]. discriminate.
Qed.

(* --- the TLS handshake and the protocol ------------------------------------------------ *)
(* A client that does not ask for the ACME challenge protocol is presented the cached
   certificate and nothing else; one that does, only the challenge certificate of the name it
   asks for. A connection's protocol is one the service offers: the negotiated one if it is
   among them and the first one otherwise; and the service never gets a challenge connection *)
Theorem C83_handshake : forall keys s offered sni,
  ((forall l, offered = Some l -> ~ In acme_alpn l) -> resolve keys s offered sni = s_served s) /\
  (forall l, offered = Some l -> In acme_alpn l -> resolve keys s offered sni = match sni with Some n => assoc n keys | None => None end).
Proof.
  intros keys s off sni. unfold resolve, is_acme. destruct off as [l|].
  - destruct (existsb (bytes_eqb acme_alpn) l) eqn:E.
    + apply existsb_exists in E. destruct E as (x & Hx & E). apply bytes_eqb_spec in E. subst x.
      split; [intro H; now elim (H l eq_refl)|auto].
    + split; [reflexivity|]. intros l' E' Hin. inversion E'; subst l'. 
      assert (existsb (bytes_eqb acme_alpn) l = true) by (apply existsb_exists; exists acme_alpn; split; [exact Hin|apply bytes_eqb_refl]). congruence.
  - split; [reflexivity|discriminate].
Qed.
Theorem C83_protocol : forall available negotiated p,
  (protocol available negotiated = Panic <-> available = []) /\
  (protocol available negotiated = Done p -> In p available /\
     (forall n, negotiated = Some n -> In n available -> p = n) /\
     ((forall n, negotiated = Some n -> ~ In n available) -> exists r, available = p :: r)) /\
  (given_to_service p = true <-> p <> acme_alpn).
Proof.
  intros av neg p. split; [|split].
  - unfold protocol. destruct neg as [n|].
    + destruct (find (bytes_eqb n) av) eqn:F.
      * split; [discriminate|]. intros ->. discriminate.
      * destruct av; split; congruence.
    + destruct av; split; congruence.
  - unfold protocol. intro H. destruct neg as [n|].
    + destruct (find (bytes_eqb n) av) as [q|] eqn:F.
      * inversion H; subst q. apply find_some in F. destruct F as [Hin E]. apply bytes_eqb_spec in E. subst p.
        split; [exact Hin|]. split; [intros m Em _; congruence|]. intro N. now elim (N n eq_refl).
      * destruct av as [|q r]; [discriminate|]. inversion H; subst q. split; [now left|]. split; [|eauto].
        intros m Em Hin. inversion Em; subst m. exfalso.
        pose proof (List.find_none _ _ F n Hin) as E. rewrite bytes_eqb_refl in E. discriminate.
    + destruct av as [|q r]; [discriminate|]. inversion H; subst q. split; [now left|]. split; [discriminate|eauto].
  - unfold given_to_service. rewrite Bool.negb_true_iff. apply bytes_eqb_neq.
Qed.
Example ex_handshake : resolve [([9%N], certB)] (ex_run ex_l1) (Some [[104%N]]) None = Some certA /\
  resolve [([9%N], certB)] (ex_run ex_l1) (Some [[104%N]; acme_alpn]) (Some [9%N]) = Some certB /\
  protocol [[1%N]; [2%N]] (Some [2%N]) = Done [2%N].
Proof. repeat match goal with |- _ /\ _ => split end; vm_compute; reflexivity. Qed.

(* --- the ACME accounts ------------------------------------------------------------------ *)
(* the accounts some sequence of write_account calls leaves *)
Definition written (l : list (list bytes * bytes)) : list account := fold_left (fun t w => write_account (fst w) (snd w) t) l [].
(* lists of contacts without a ';' and not the list of one empty contact *)
Definition plain (l : list bytes) : Prop := (forall x, In x l -> ~ In 59%N x) /\ l <> [[]].

Lemma split_at (x y : bytes) : forall u v, ~ In 59%N x -> ~ In 59%N y -> x ++ 59%N :: u = y ++ 59%N :: v -> x = y /\ u = v.
Proof.
  revert y. induction x as [|a x IH]; intros [|b y] u v Hx Hy E; cbn in E.
  - inversion E. auto.
  - inversion E; subst. elim Hy. now left.
  - inversion E; subst. elim Hx. now left.
  - inversion E; subst. destruct (IH y u v) as [-> ->]; auto; intro; [apply Hx|apply Hy]; now right.
Qed.
Lemma join_inj l : forall l', (forall x, In x l -> ~ In 59%N x) -> (forall x, In x l' -> ~ In 59%N x) -> l <> [] -> l' <> [] -> join l = join l' -> l = l'.
Proof.
  induction l as [|x l IH]; intros [|y l'] H H' N N' E; try congruence.
  assert (In59 : forall (u : bytes) v, In 59%N (u ++ 59%N :: v)) by (intros; apply in_or_app; right; now left).
  destruct l as [|x2 l], l' as [|y2 l']; cbn [join] in E.
  - congruence.
  - exfalso. apply (H x (or_introl eq_refl)). rewrite E. apply In59.
  - exfalso. apply (H' y (or_introl eq_refl)). rewrite <- E. apply In59.
  - destruct (split_at x y _ _ (H x (or_introl eq_refl)) (H' y (or_introl eq_refl)) E) as [-> E2]. f_equal.
    apply IH; [| |discriminate|discriminate|exact E2]; intros z Hz; [apply H|apply H']; now right.
Qed.
Lemma plain_inj l l' : plain l -> plain l' -> join l = join l' -> l = l'.
Proof.
  assert (NE : forall m : list bytes, m <> [] -> m <> [[]] -> join m <> []).
  { intros [|x [|y r]] A B; cbn [join]; [now elim A|intros ->; now elim B|]. destruct x; discriminate. }
  intros [H N] [H' N'] E. destruct l as [|x l], l' as [|y l']; [reflexivity| | |apply join_inj; auto; discriminate].
  - exfalso. refine (NE (y :: l') _ N' (eq_sym E)). discriminate.
  - exfalso. refine (NE (x :: l) _ N E). discriminate.
Qed.
Lemma find_replace c c' d l : find_account c' (replace_data c d l) =
  if bytes_eqb (join c) (join c') then match find_account c' l with Some a => Some (mk_account (a_contacts a) d) | None => None end else find_account c' l.
Proof.
  unfold find_account. induction l as [|a r IH]; cbn [replace_data find]; [destruct (bytes_eqb _ _); reflexivity|].
  destruct (bytes_eqb (join (a_contacts a)) (join c)) eqn:E1; cbn [find a_contacts].
  - apply bytes_eqb_spec in E1. rewrite E1. destruct (bytes_eqb (join c) (join c')) eqn:E2; reflexivity.
  - rewrite IH. destruct (bytes_eqb (join (a_contacts a)) (join c')) eqn:E3; [|reflexivity].
    destruct (bytes_eqb (join c) (join c')) eqn:E2; [|reflexivity].
    apply bytes_eqb_spec in E2, E3. rewrite E3, E2, bytes_eqb_refl in E1. discriminate.
Qed.
Lemma find_app {A} (f : A -> bool) l m : find f (l ++ m) = match find f l with Some x => Some x | None => find f m end.
Proof. induction l as [|x r IH]; cbn; [reflexivity|]. destruct (f x); auto. Qed.
Lemma read_write c d c' l : read_account c' (write_account c d l) = if bytes_eqb (join c) (join c') then Some d else read_account c' l.
Proof.
  unfold read_account, write_account. destruct (find_account c l) as [a|] eqn:F.
  - rewrite find_replace. destruct (bytes_eqb (join c) (join c')) eqn:E; [|reflexivity].
    assert (find_account c' l = Some a) as ->; [|reflexivity].
    apply bytes_eqb_spec in E. unfold find_account in *. now rewrite <- E.
  - unfold find_account. rewrite find_app. cbn [find a_contacts].
    destruct (bytes_eqb (join c) (join c')) eqn:E.
    + assert (find (fun a => bytes_eqb (join (a_contacts a)) (join c')) l = None) as ->; [|reflexivity].
      apply bytes_eqb_spec in E. rewrite <- E. exact F.
    + destruct (find _ l); reflexivity.
Qed.
Definition same_contacts (a b : list bytes) : {a = b} + {a <> b} := list_eq_dec (list_eq_dec N.eq_dec) a b.
(* read_account gives the last account written for exactly these contacts, if no contact has a
   ';' in it *)
Theorem C83_accounts : forall l c, (forall w, In w l -> plain (fst w)) -> plain c ->
  read_account c (written l) =
  match find (fun w => if same_contacts (fst w) c then true else false) (rev l) with Some w => Some (snd w) | None => None end.
Proof.
  intros l c H Hc. induction l as [|w l IH] using rev_ind; [reflexivity|].
  unfold written. rewrite fold_left_app. cbn [fold_left]. rewrite read_write, rev_app_distr. cbn [rev app find].
  destruct (same_contacts (fst w) c) as [E|E].
  - rewrite E, bytes_eqb_refl. reflexivity.
  - destruct (bytes_eqb (join (fst w)) (join c)) eqn:J.
    + apply bytes_eqb_spec in J. elim E. apply plain_inj; auto. apply H. apply in_or_app. right. now left.
    + apply IH. intros w' Hw. apply H. apply in_or_app. now left.
Qed.
Example ex_accounts : plain [[97%N]; [98%N]] /\ plain [[97%N]] /\
  read_account [[97%N]] (written [([[97%N]], [1%N]); ([[97%N]; [98%N]], [2%N]); ([[97%N]], [3%N])]) = Some [3%N].
Proof.
  repeat split; try discriminate; try (vm_compute; reflexivity).
  - intros x [<-|[<-|[]]] [E|[]]; discriminate.
  - intros x [<-|[]] [E|[]]; discriminate.
Qed.
(* with a ';' two lists of contacts share one account *)
Theorem C83_accounts_refuted : exists l c d c', c <> c' /\ read_account c' (written (l ++ [(c', [1%N])])) = Some [1%N] /\
  read_account c' (written (l ++ [(c', [1%N]); (c, d)])) = Some d /\ d <> [1%N].
Proof.
  exists [], [[97%N; 59%N; 98%N]], [2%N], [[97%N]; [98%N]].
  repeat match goal with |- _ /\ _ => split end; try (vm_compute; reflexivity); discriminate.
Qed.

Print Assumptions C83_genuine.
Print Assumptions C83_install.
Print Assumptions C83_install_succeeds.
Print Assumptions C83_listen.
Print Assumptions C83_calm.
Print Assumptions C83_no_overwrite.
Print Assumptions C83_race_refuted.
Print Assumptions C83_overwrite_refuted.
Print Assumptions C83_failed_install_refuted.
Print Assumptions C83_pinned_refuted.
Print Assumptions C83_endpoint_refuted.
Print Assumptions C83_handshake.
Print Assumptions C83_protocol.
Print Assumptions C83_accounts.
Print Assumptions C83_accounts_refuted.
