(* C86: the transaction log: what is stored is read back, logs of earlier versions are
   upgraded without loss, and the ways to walk over the changed documents agree. *)
From Coq Require Import List NArith Bool Lia Arith ZifyBool.
From Verif Require Import Base Key KeyProofs DocId Docs DocsProofs DocsHist TxLog.
From Verif Require PropDocs DocsSpec.
Import ListNotations.
Local Open Scope N_scope.

(* ---------- specification ---------- *)
(* the id a legacy entry meant: bytes as they are, a number as 8 bytes, high byte first *)
Definition meant (i : legacy_id) : bytes := match i with Raw b => b | U64 n => be 8 n end.
Definition id_ok (d : legacy_doc) : Prop :=
  match snd (fst d) with Raw b => N.of_nat (length b) <= 65535 | U64 _ => True end.
Definition plain (d : legacy_doc) : bytes * bytes * bool :=
  match d with (c, i, del) => (c, meant i, del) end.
Definition coll (d : bytes * bytes * bool) : bytes := fst (fst d).
Definition bytes_dec : forall a b : bytes, {a = b} + {a <> b} := list_eq_dec N.eq_dec.
(* the distinct elements, in the order of their first appearance *)
Definition firsts (l : list bytes) : list bytes := rev (nodup bytes_dec (rev l)).

Lemma firsts_snoc : forall l x, firsts (l ++ [x]) = if in_dec bytes_dec x l then firsts l else firsts l ++ [x].
Proof.
  intros l x. unfold firsts. rewrite rev_app_distr. cbn [rev app nodup].
  destruct (in_dec bytes_dec x (rev l)) as [I|I], (in_dec bytes_dec x l) as [J|J]; try reflexivity.
  - exfalso. apply J. apply in_rev. exact I.
  - exfalso. apply I. apply -> in_rev. exact J.
Qed.
Lemma firsts_in : forall l x, In x (firsts l) <-> In x l.
Proof. intros l x. unfold firsts. rewrite <- in_rev, nodup_In, <- in_rev. reflexivity. Qed.
Lemma firsts_nodup : forall l, NoDup (firsts l).
Proof. intros l. unfold firsts. apply NoDup_rev. apply NoDup_nodup. Qed.
Lemma firsts_mono : forall l m, (length (firsts l) <= length (firsts (l ++ m)))%nat.
Proof.
  intros l m. induction m as [|x m IH] using rev_ind; [rewrite app_nil_r; lia|].
  rewrite app_assoc, firsts_snoc. destruct (in_dec bytes_dec x (l ++ m)); [exact IH|]. rewrite app_length. lia.
Qed.

(* the canonical table of changes *)
Definition canon (ch : changes) (l : list (bytes * bytes * bool)) : Prop :=
  changes_wf ch /\ changes_iter ch = l /\ ch_colls ch = firsts (map coll l).

Lemma index_none : forall c l i, index_of c l i = None <-> ~ In c l.
Proof.
  intros c l. induction l as [|x r IH]; intros i; cbn [index_of In]; [tauto|].
  destruct (bytes_eqb c x) eqn:E.
  - apply bytes_eqb_spec in E. subst. split; [discriminate | intros X; exfalso; apply X; auto].
  - apply bytes_eqb_neq in E. rewrite IH. split; [intros X [Y|Y]; congruence | intros X Y; apply X; auto].
Qed.
Lemma index_snoc : forall d c l i, index_of d (l ++ [c]) i =
  match index_of d l i with Some j => Some j | None => if bytes_eqb d c then Some (i + N.of_nat (length l)) else None end.
Proof.
  intros d c l. induction l as [|x r IH]; intros i; cbn [app index_of length].
  - rewrite N.add_0_r. reflexivity.
  - destruct (bytes_eqb d x); [reflexivity|]. rewrite IH. destruct (index_of d r (i + 1)); [reflexivity|].
    destruct (bytes_eqb d c); [|reflexivity]. f_equal. lia.
Qed.

Lemma canon_record : forall ch l c id del ch', canon ch l -> record_change ch c id del = Done ch' -> canon ch' (l ++ [(c, id, del)]).
Proof.
  intros ch l c id del ch' (W & I & F) R. destruct (record_change_spec _ _ _ _ _ W R) as [W' I'].
  split; [exact W'|]. split; [rewrite I', I; reflexivity|].
  rewrite map_app. cbn [map coll fst]. change (map coll l ++ [coll (c, id, del)]) with (map coll l ++ [c]). rewrite firsts_snoc, <- F.
  unfold record_change in R. destruct (index_of c (ch_colls ch) 0) eqn:X.
  - injection R as <-. cbn. destruct (in_dec bytes_dec c (map coll l)) as [J|J]; [reflexivity|]. exfalso.
    assert (In c (ch_colls ch)) as Y.
    { destruct (in_dec bytes_dec c (ch_colls ch)) as [Y|Y]; [exact Y|]. apply (index_none c _ 0) in Y. congruence. }
    rewrite F in Y. apply (proj1 (firsts_in _ _)) in Y. exact (J Y).
  - destruct (_ <? 65536); [|discriminate]. injection R as <-. cbn.
    destruct (in_dec bytes_dec c (map coll l)) as [J|J]; [|reflexivity]. exfalso.
    apply index_none in X. apply X. rewrite F. apply firsts_in. exact J.
Qed.

Lemma canon_unique : forall ch ch' l, canon ch l -> canon ch' l -> ch = ch'.
Proof.
  intros [cs ds] [cs' ds'] l (W & I & F) (W' & I' & F'). cbn in F, F'. rewrite <- F' in F. subst cs'.
  f_equal. unfold changes_iter in *. cbn in I, I'. unfold changes_wf, change_coll in *. cbn in W, W'.
  assert (ND : NoDup cs) by (rewrite F'; apply firsts_nodup). clear F'. revert l ds' I W' I' . 
  induction ds as [|[[i id] del] r IH]; intros l ds' I W' I'.
  - cbn in I. subst l. destruct ds' as [|[[j jd] jl] r']; [reflexivity|]. inversion_clear W' as [|? ? A B]. cbn in A, I'.
    destruct (nth_error cs (N.to_nat j)); [discriminate | contradiction].
  - inversion_clear W as [|? ? A B]. cbn in A, I. destruct (nth_error cs (N.to_nat i)) as [x|] eqn:Ni; [|contradiction].
    destruct ds' as [|[[j jd] jl] r']; [cbn in I'; congruence|]. inversion_clear W' as [|? ? A' B']. cbn in A', I'.
    destruct (nth_error cs (N.to_nat j)) as [y|] eqn:Nj; [|contradiction]. subst l. injection I' as -> -> -> I'.
    assert (N.to_nat i = N.to_nat j) as E.
    { apply (proj1 (NoDup_nth_error cs) ND); [apply nth_error_Some; congruence | congruence]. }
    apply N2Nat.inj in E. subst j. f_equal. exact (IH B (iter_changes cs r) r' eq_refl B' I').
Qed.

Lemma upgrade_id_ok : forall c i del, id_ok (c, i, del) -> upgrade_id i = Done (meant i).
Proof.
  intros c i del H. unfold id_ok in H. cbn in H. destruct i as [n|b]; unfold upgrade_id, try_from_bytes, max_length, meant.
  - rewrite be_length. reflexivity.
  - destruct (N.leb_spec (N.of_nat (length b)) 65535); [reflexivity | lia].
Qed.

Lemma upgrade_run : forall l l0 ix colls docs, canon (mk_changes colls docs) l0 ->
  (forall c, lookup_index c ix = index_of c colls 0) -> Forall id_ok l ->
  let all := l0 ++ map plain l in
  if N.of_nat (length (firsts (map coll all))) <=? 65536
  then exists ch, upgrade_docs l ix colls docs = Done ch /\ canon ch all
  else (N.of_nat (length colls) <= 65536 -> upgrade_docs l ix colls docs = Panic).
Proof.
  induction l as [|[[c i] del] r IH]; intros l0 ix colls docs C X F; cbv zeta.
  - cbn [map]. rewrite app_nil_r. destruct C as (W & I & E). cbn in E. rewrite <- E.
    destruct (N.leb_spec (N.of_nat (length colls)) 65536).
    + exists (mk_changes colls docs). split; [reflexivity|]. split; [exact W|]. split; [exact I | exact E].
    + intros. lia.
  - inversion_clear F as [|? ? F1 F2]. cbn [map plain upgrade_docs]. rewrite X. rewrite (upgrade_id_ok _ _ _ F1).
    assert (AS : l0 ++ (c, meant i, del) :: map plain r = (l0 ++ [(c, meant i, del)]) ++ map plain r) by (rewrite <- app_assoc; reflexivity).
    rewrite AS. destruct (index_of c colls 0) as [n|] eqn:N0.
    + assert (C' : canon (mk_changes colls (docs ++ [(n, meant i, del)])) (l0 ++ [(c, meant i, del)])).
      { eapply canon_record; [exact C|]. unfold record_change. cbn [ch_colls ch_docs]. rewrite N0. reflexivity. }
      apply (IH _ ix colls _ C' X F2).
    + destruct (N.ltb_spec (N.of_nat (length colls)) 65536) as [L|L].
      * assert (C' : canon (mk_changes (colls ++ [c]) (docs ++ [(N.of_nat (length colls), meant i, del)])) (l0 ++ [(c, meant i, del)])).
        { eapply canon_record; [exact C|]. unfold record_change. cbn [ch_colls ch_docs]. rewrite N0.
          destruct (N.ltb_spec (N.of_nat (length colls)) 65536); [reflexivity | lia]. }
        assert (X' : forall d, lookup_index d ((c, N.of_nat (length colls)) :: ix) = index_of d (colls ++ [c]) 0).
        { intros d. cbn [lookup_index]. rewrite index_snoc, X. destruct (bytes_eqb d c) eqn:E.
          - apply bytes_eqb_spec in E. subst d. rewrite N0. reflexivity.
          - destruct (index_of d colls 0); reflexivity. }
        specialize (IH _ _ _ _ C' X' F2). cbv zeta in IH.
        destruct (_ <=? 65536); [exact IH|]. intros _. apply IH. rewrite app_length. cbn. lia.
      * assert (G : 65536 < N.of_nat (length (firsts (map coll ((l0 ++ [(c, meant i, del)]) ++ map plain r))))).
        { rewrite map_app. pose proof (firsts_mono (map coll (l0 ++ [(c, meant i, del)])) (map coll (map plain r))) as M.
          rewrite map_app in M at 1. cbn [map] in M. change (coll (c, meant i, del)) with c in M. rewrite firsts_snoc in M.
          destruct C as (_ & _ & E). cbn in E. rewrite <- E in M.
          destruct (in_dec bytes_dec c (map coll l0)) as [J|J].
          - exfalso. apply index_none in N0. apply N0. rewrite E. apply firsts_in. exact J.
          - rewrite app_length in M. cbn in M. lia. }
        destruct (N.leb_spec (N.of_nat (length (firsts (map coll ((l0 ++ [(c, meant i, del)]) ++ map plain r))))) 65536); [lia|]. reflexivity.
Qed.

(* Upgrading the changed documents of an old log entry keeps every change, in order; the
   collections are listed once each, in the order of their first change. *)
Theorem C86_upgrade_exact : forall l, Forall id_ok l ->
  N.of_nat (length (firsts (map (fun d => fst (fst d)) l))) <= 65536 ->
  exists ch, upgrade (LDocuments l) = Done (Documents ch) /\
    changes_iter ch = map plain l /\ len ch = length l /\
    ch_colls ch = firsts (map (fun d => fst (fst d)) l) /\
    forall i, get_change ch i = option_map plain (nth_error l i).
Proof.
  intros l F B.
  assert (MC : map coll (map plain l) = map (fun d => fst (fst d)) l).
  { rewrite map_map. apply map_ext. intros [[c i] d]. reflexivity. }
  pose proof (upgrade_run l [] [] [] []) as U. cbn [app] in U. rewrite MC in U.
  assert (C0 : canon (mk_changes [] []) []) by (split; [constructor | split; reflexivity]).
  specialize (U C0 (fun _ => eq_refl) F). cbv zeta in U.
  destruct (N.leb_spec (N.of_nat (length (firsts (map (fun d => fst (fst d)) l)))) 65536) as [_|]; [|lia].
  destruct U as (ch & U & W & I & E). exists ch. unfold upgrade. rewrite U. rewrite MC in E.
  split; [reflexivity|]. split; [exact I|].
  assert (G : forall i, get_change ch i = nth_error (changes_iter ch) i /\ length (changes_iter ch) = len ch).
  { unfold get_change, changes_iter, len, changes_wf, change_coll in *. revert W. generalize (ch_colls ch) as cs. clear. intros cs.
    induction (ch_docs ch) as [|[[n id] del] r IH]; intros W i; [destruct i; split; reflexivity|].
    inversion_clear W as [|? ? A B]. cbn in A. destruct (nth_error cs (N.to_nat n)) as [c|] eqn:X; [|contradiction].
    specialize (IH B). cbn [iter_changes]. rewrite X. split; [|cbn [length]; rewrite (proj2 (IH O)); reflexivity].
    destruct i; cbn [nth_error]; [rewrite X; reflexivity | apply IH]. }
  split; [rewrite <- (proj2 (G O)), I, map_length; reflexivity|]. split; [exact E|].
  intros i. rewrite (proj1 (G i)), I. apply nth_error_map.
Qed.

(* With more than 65536 collections the upgrade panics; an id that is too long makes it fail
   (or panic before), and nothing else does. *)
Theorem C86_upgrade_panics : forall l, Forall id_ok l ->
  (upgrade (LDocuments l) = Panic <-> 65536 < N.of_nat (length (firsts (map (fun d => fst (fst d)) l)))) /\
  (forall e, upgrade (LDocuments l) <> Fail e).
Proof.
  intros l F.
  assert (MC : map coll (map plain l) = map (fun d => fst (fst d)) l).
  { rewrite map_map. apply map_ext. intros [[c i] d]. reflexivity. }
  pose proof (upgrade_run l [] [] [] []) as U. cbn [app] in U. rewrite MC in U.
  assert (C0 : canon (mk_changes [] []) []) by (split; [constructor | split; reflexivity]).
  specialize (U C0 (fun _ => eq_refl) F). cbv zeta in U.
  destruct (N.leb_spec (N.of_nat (length (firsts (map (fun d => fst (fst d)) l)))) 65536) as [L|L].
  - destruct U as (ch & U & _). unfold upgrade. rewrite U. split; [split; [discriminate | lia] | discriminate].
  - assert (upgrade_docs l [] [] [] = Panic) as P by (apply U; cbn; lia). unfold upgrade. rewrite P. split; [tauto | discriminate].
Qed.

Theorem C86_upgrade_bad_id : forall l, ~ Forall id_ok l -> forall c, upgrade (LDocuments l) <> Done c.
Proof.
  intros l N0 c. unfold upgrade.
  assert (G : forall l ix cs ds, ~ Forall id_ok l -> forall ch, upgrade_docs l ix cs ds <> Done ch).
  { clear. induction l as [|[[c i] del] r IH]; intros ix cs ds NF ch; [exfalso; apply NF; constructor|].
    cbn [upgrade_docs].
    assert (D : upgrade_id i = Done (meant i) /\ ~ Forall id_ok r \/ forall x, upgrade_id i <> Done x).
    { destruct i as [n|b].
      - left. split; [apply (upgrade_id_ok c (U64 n) del); exact I|]. intros X. apply NF. constructor; [exact I | exact X].
      - destruct (N.leb_spec (N.of_nat (length b)) 65535) as [L|L].
        + left. split; [apply (upgrade_id_ok c (Raw b) del); exact L|]. intros X. apply NF. constructor; [exact L | exact X].
        + right. intros x. unfold upgrade_id, try_from_bytes, max_length. destruct (N.leb_spec (N.of_nat (length b)) 65535); [lia | discriminate]. }
    destruct D as [[-> NR]|D].
    - destruct (lookup_index c ix); [apply IH; exact NR|]. destruct (_ <? 65536); [apply IH; exact NR | discriminate].
    - destruct (upgrade_id i) as [x| |]; [exfalso; exact (D x eq_refl)| |]; destruct (lookup_index c ix); try discriminate; destruct (_ <? 65536); discriminate. }
  specialize (G l [] [] [] N0). destruct (upgrade_docs l [] [] []) as [ch| |]; [exfalso; exact (G ch eq_refl) | discriminate | discriminate].
Qed.

(* An upgraded entry is the entry this version writes for the same changes. *)
Theorem C86_same_as_new : forall E p s ops s' rs t ch l,
  apply_transaction E p s ops = (s', Done rs) -> db_log s' = db_log s ++ [(t, Some ch)] ->
  map plain l = changes_iter ch -> Forall id_ok l ->
  upgrade (LDocuments l) = Done (Documents ch).
Proof.
  intros E p s ops s' rs t ch l H L M F.
  apply apply_cases in H. destruct H as [(rs' & w & ch' & w' & X & P & C & R & I & ->)|[_ X]]; [|exfalso; exact (X rs eq_refl)].
  cbn in L. apply app_inj_tail in L. destruct L as [_ L]. injection L as _ ->.
  assert (G : forall ops w c0 l0 r0 w1 ch1 r1, canon c0 l0 -> N.of_nat (length (ch_colls c0)) <= 65536 ->
     run_ops E ops w c0 r0 = Done (w1, ch1, r1) -> (exists l1, canon ch1 l1) /\ N.of_nat (length (ch_colls ch1)) <= 65536).
  { clear. assert (RC : forall c0 l0 c id del c1, canon c0 l0 -> N.of_nat (length (ch_colls c0)) <= 65536 ->
      record_change c0 c id del = Done c1 -> (exists l1, canon c1 l1) /\ N.of_nat (length (ch_colls c1)) <= 65536).
    { intros c0 l0 c id del c1 CA B RC. split; [eexists; eapply canon_record; eauto|]. unfold record_change in RC.
      destruct (index_of c (ch_colls c0) 0); [injection RC as <-; exact B|].
      destruct (N.ltb_spec (N.of_nat (length (ch_colls c0))) 65536); [|discriminate]. injection RC as <-. cbn. rewrite app_length. cbn. lia. }
    induction ops as [|o r IH]; intros w c0 l0 r0 w1 ch1 r1 CA B H; cbn [run_ops] in H.
    - injection H as <- <- <-. eauto.
    - destruct (exec_op E w o) as [[w2 res]| |]; try discriminate.
      destruct (record_result c0 res) as [c1| |] eqn:RR; try discriminate.
      assert ((exists l1, canon c1 l1) /\ N.of_nat (length (ch_colls c1)) <= 65536) as [(l1 & C1) B1].
      { destruct res; cbn [record_result] in RR; [injection RR as <-; eauto | eapply RC; eauto | eapply RC; eauto]. }
      eapply IH; eauto. }
  destruct (G ops (db_work s) (mk_changes [] []) [] [] w ch rs') as ((l1 & C1) & B1); [split; [constructor | split; reflexivity] | cbn; lia | exact R |].
  assert (l1 = map plain l) as -> by (destruct C1 as (_ & I1 & _); rewrite <- I1, M; reflexivity).
  assert (MC : map coll (map plain l) = map (fun d => fst (fst d)) l).
  { rewrite map_map. apply map_ext. intros [[c i] d]. reflexivity. }
  pose proof (upgrade_run l [] [] [] []) as U. cbn [app] in U.
  assert (C0 : canon (mk_changes [] []) []) by (split; [constructor | split; reflexivity]).
  specialize (U C0 (fun _ => eq_refl) F). cbv zeta in U.
  pose proof C1 as (_ & _ & E1). rewrite <- E1 in U.
  destruct (N.leb_spec (N.of_nat (length (ch_colls ch))) 65536); [|lia].
  destruct U as (ch2 & U & C2). unfold upgrade. rewrite U. f_equal. f_equal. eapply canon_unique; eauto.
Qed.

(* ---------- stored bytes ---------- *)
(* what the model relies on: a version header can be taken off again, pot reads what it wrote *)
Definition lawful_codec (k : codec) : Prop :=
  (forall v d, 1 <= v -> unwrap_version k (header k v ++ d) = (v, d)) /\
  (forall c, from_pot k (pot k c) = PotOk c).

Theorem C86_roundtrip : forall k c, lawful_codec k -> deserialize k (serialize k c) = Done c.
Proof.
  intros k c [H P]. unfold deserialize, serialize. rewrite H by (unfold version_v1; lia). cbn. rewrite P. reflexivity.
Qed.

(* data without a header is of the first version: pot, or else bincode *)
Theorem C86_reads_old : forall k d l, unwrap_version k d = (0, d) ->
  (from_pot_v0 k d = PotOk (LDocuments l) \/ (from_pot_v0 k d = NotAPot /\ from_bincode k d = Some l)) ->
  deserialize k d = upgrade (LDocuments l).
Proof. intros k d l U [P|[P B]]; unfold deserialize; rewrite U; cbn; rewrite P; [|rewrite B]; reflexivity. Qed.
Theorem C86_reads_old_keys : forall k d l, unwrap_version k d = (0, d) -> from_pot_v0 k d = PotOk (LKeys l) ->
  deserialize k d = Done (Keys l).
Proof. intros k d l U P; unfold deserialize; rewrite U; cbn; rewrite P; reflexivity. Qed.
(* data of a later version is refused, never misread *)
Theorem C86_newer_refused : forall k v d, lawful_codec k -> 2 <= v -> deserialize k (header k v ++ d) = Fail UnknownVersion.
Proof.
  intros k v d [H _] V. unfold deserialize. rewrite H by lia. unfold version_legacy, version_v1.
  destruct (N.eqb_spec v 0); [lia|]. destruct (N.eqb_spec v 1); [lia|]. reflexivity.
Qed.

(* list_executed_transactions: of the entries with data, from starting_id, the first
   min(limit or 100, 1000), in order -- if all of those can be decoded, and else an error. *)
Definition wanted {A} (log : list (N * option A)) (start limit : option N) : list (N * A) :=
  firstn (N.to_nat (N.min (match limit with Some l => l | None => 100 end) 1000))
    (flat_map (fun e => match e with (i, Some d) => match start with Some s => if s <=? i then [(i, d)] else [] | None => [(i, d)] end
                                   | (_, None) => [] end) log).

Lemma take_0 : forall l, take_with_data 0 l = [].
Proof. intros [|[i [d|]] r]; reflexivity. Qed.
Lemma take_wanted : forall log start limit,
  take_with_data (N.to_nat (N.min (match limit with Some l => l | None => 100 end) 1000))
    (filter (fun e => match start with Some s => s <=? fst e | None => true end) log) = wanted log start limit.
Proof.
  intros log start limit. unfold wanted. generalize (N.to_nat (N.min (match limit with Some l => l | None => 100 end) 1000)) as n.
  induction log as [|[i [d|]] r IH]; intros n.
  - destruct n; reflexivity.
  - cbn [filter flat_map]. destruct start as [s|].
    + cbn [fst]. destruct (s <=? i); [|apply IH]. destruct n; [reflexivity|]. cbn [take_with_data app firstn]. f_equal. apply IH.
    + destruct n; [reflexivity|]. cbn [take_with_data app firstn]. f_equal. apply IH.
  - cbn [filter flat_map]. destruct start as [s|].
    + cbn [fst]. destruct (s <=? i); [|apply IH]. rewrite <- IH. destruct n; [rewrite !take_0|]; reflexivity.
    + rewrite <- IH. destruct n; [rewrite !take_0|]; reflexivity.
Qed.

Theorem C86_list : forall k log start limit r, 
  list_transactions k log start limit = Done r <->
  Forall2 (fun e x => fst x = fst e /\ deserialize k (snd e) = Done (snd x)) (wanted log start limit) r.
Proof.
  intros k log start limit r. unfold list_transactions. rewrite take_wanted. generalize (wanted log start limit) as l. clear.
  intros l. revert r. induction l as [|[i d] l IH]; intros r; cbn [decode_all].
  - split; [injection 1 as <-; constructor | intros H; inversion H; reflexivity].
  - split.
    + destruct (deserialize k d) as [c| |] eqn:D; try discriminate. destruct (decode_all k l) as [x| |] eqn:A; try discriminate.
      injection 1 as <-. constructor; [split; [reflexivity | exact D]|]. apply IH. reflexivity.
    + intros H. inversion H as [|e x l' r' [E1 E2] T]; subst. cbn in E1, E2. rewrite E2. apply IH in T. rewrite T.
      destruct x as [j c]. cbn in *. subst. reflexivity.
Qed.

(* with what this version writes it never fails, and gives back what was executed *)
Definition stored (k : codec) (log : list (N * option any_changes)) : list (N * option bytes) :=
  map (fun e => (fst e, option_map (serialize k) (snd e))) log.
Theorem C86_list_stored : forall k log start limit, lawful_codec k ->
  list_transactions k (stored k log) start limit = Done (wanted log start limit).
Proof.
  intros k log start limit LK. apply C86_list. unfold wanted, stored.
  generalize (N.to_nat (N.min (match limit with Some l => l | None => 100 end) 1000)) as n.
  assert (G : Forall2 (fun (e : N * bytes) x => fst x = fst e /\ deserialize k (snd e) = Done (snd x))
    (flat_map (fun e => match e with (i, Some d) => match start with Some s => if s <=? i then [(i, d)] else [] | None => [(i, d)] end
                                   | (_, None) => [] end) (map (fun e => (fst e, option_map (serialize k) (snd e))) log))
    (flat_map (fun e => match e with (i, Some d) => match start with Some s => if s <=? i then [(i, d)] else [] | None => [(i, d)] end
                                   | (_, None) => [] end) log)).
  { induction log as [|[i [c|]] r IH]; cbn; [constructor | | exact IH].
    destruct start as [s|]; [destruct (s <=? i)|]; cbn [app]; try exact IH; constructor; try exact IH; cbn; (split; [reflexivity | apply C86_roundtrip; exact LK]). }
  revert G. generalize (flat_map (fun e => match e with (i, Some d) => match start with Some s => if s <=? i then [(i, d)] else [] | None => [(i, d)] end
                                   | (_, None) => [] end) log) as b.
  match goal with |- forall b, Forall2 _ ?a b -> _ => generalize a end.
  intros a b G n. revert n. induction G as [|x y a b H G IH]; intros n; [destruct n; constructor|].
  destruct n; cbn [firstn]; constructor; [exact H | apply IH].
Qed.

(* ---------- walking over the changes ---------- *)
(* A loop over &changes and a loop over changes see the same documents. *)
Theorem C86_loops_agree : forall ch fuel, (len ch < fuel)%nat ->
  iterate (iter_next ch) fuel 0%nat = changes_iter ch /\
  iterate (into_next (ch_colls ch)) fuel (ch_docs ch) = changes_iter ch.
Proof.
  intros [cs ds] fuel L. unfold len in L. cbn in L. unfold changes_iter. cbn [ch_colls ch_docs]. split.
  - enough (G : forall fuel pre post, ds = pre ++ post -> (length post < fuel)%nat ->
      iterate (iter_next (mk_changes cs ds)) fuel (length pre) = iter_changes cs post) by exact (G fuel [] ds eq_refl L).
    clear fuel L. induction fuel as [|f IH]; intros pre post E L; [lia|]. cbn [iterate]. unfold iter_next, get_change. cbn [ch_docs ch_colls].
    destruct post as [|[[n id] del] post].
    + rewrite app_nil_r in E. subst pre. rewrite (proj2 (nth_error_None ds (length ds))) by lia. reflexivity.
    + replace (nth_error ds (length pre)) with (Some (n, id, del)) by (rewrite E, nth_error_app2, Nat.sub_diag by lia; reflexivity).
      cbn [iter_changes]. destruct (nth_error cs (N.to_nat n)); [|reflexivity]. f_equal.
      replace (S (length pre)) with (length (pre ++ [(n, id, del)])) by (rewrite app_length; cbn; lia).
      apply IH; [rewrite E, <- app_assoc; reflexivity | cbn in L; lia].
  - revert ds L. induction fuel as [|f IH]; intros ds L; [lia|]. cbn [iterate].
    destruct ds as [|[[n id] del] r]; [reflexivity|]. cbn [into_next iter_changes].
    destruct (nth_error cs (N.to_nat n)); [|reflexivity]. f_equal. apply IH. cbn in L. lia.
Qed.

(* For what a transaction records: as many as len says, get(i) is the i-th, is_empty iff none. *)
Theorem C86_get : forall E p s ops s' rs t ch, 
  apply_transaction E p s ops = (s', Done rs) -> (db_log s' = db_log s ++ [(t, Some ch)]) ->
  length (changes_iter ch) = len ch /\ (forall i, get_change ch i = nth_error (changes_iter ch) i) /\
  (is_empty ch = true <-> changes_iter ch = []).
Proof.
  intros E p s ops s' rs t ch H L. apply apply_success in H. destruct H as (w & ch' & _ & W & _ & _ & L').
  rewrite L' in L. apply app_inj_tail in L. destruct L as [_ L]. injection L as _ ->.
  assert (G : forall i, get_change ch i = nth_error (changes_iter ch) i /\ length (changes_iter ch) = len ch).
  { unfold get_change, changes_iter, len, changes_wf, change_coll in *. revert W. generalize (ch_colls ch) as cs. clear. intros cs.
    induction (ch_docs ch) as [|[[n id] del] r IH]; intros W i; [destruct i; split; reflexivity|].
    inversion_clear W as [|? ? A B]. cbn in A. destruct (nth_error cs (N.to_nat n)) as [c|] eqn:X; [|contradiction].
    specialize (IH B). cbn [iter_changes]. rewrite X. split; [|cbn [length]; rewrite (proj2 (IH O)); reflexivity].
    destruct i; cbn [nth_error]; [rewrite X; reflexivity | apply IH]. }
  split; [exact (proj2 (G O))|]. split; [intros i; apply G|]. pose proof (proj2 (G O)) as Q. unfold len in Q. unfold is_empty.
  destruct (ch_docs ch); cbn in Q.
  - split; [intros _; apply length_zero_iff_nil; exact Q | reflexivity].
  - split; [discriminate | intros X; rewrite X in Q; discriminate].
Qed.

(* ---------- examples ---------- *)
Definition ex_docs : list legacy_doc :=
  [([97], U64 1, false); ([98], Raw [7; 7], false); ([97], Raw [9], true)].
Example ex_upgrade : Forall id_ok ex_docs /\ firsts (map (fun d => fst (fst d)) ex_docs) = [[97]; [98]] /\
  upgrade (LDocuments ex_docs) = Done (Documents (mk_changes [[97]; [98]]
    [(0, [0;0;0;0;0;0;0;1], false); (1, [7;7], false); (0, [9], true)])).
Proof. split; [repeat constructor; vm_compute; discriminate|]. split; vm_compute; reflexivity. Qed.

(* a small lawful codec: length-prefixed numbers *)
Definition parser (A : Type) := bytes -> option (A * bytes).
Definition reads_back {A} (e : A -> bytes) (d : parser A) : Prop := forall a r, d (e a ++ r) = Some (a, r).
Fixpoint dec_n {A} (d : parser A) (n : nat) (b : bytes) : option (list A * bytes) :=
  match n with
  | O => Some ([], b)
  | S m => match d b with
           | Some (a, r) => match dec_n d m r with Some (l, r') => Some (a :: l, r') | None => None end
           | None => None
           end
  end.
Definition enc_list {A} (e : A -> bytes) (l : list A) : bytes := N.of_nat (length l) :: flat_map e l.
Definition dec_list {A} (d : parser A) : parser (list A) := fun b =>
  match b with [] => None | n :: r => dec_n d (N.to_nat n) r end.
Lemma dec_list_ok : forall A (e : A -> bytes) d, reads_back e d -> reads_back (enc_list e) (dec_list d).
Proof.
  intros A e d H l r. unfold enc_list, dec_list. cbn [app]. rewrite Nat2N.id.
  induction l as [|a l IH]; cbn [length dec_n flat_map app]; [reflexivity|].
  rewrite <- app_assoc, H, IH. reflexivity.
Qed.
Definition enc_1 (n : N) : bytes := [n].
Definition dec_1 : parser N := fun b => match b with n :: r => Some (n, r) | [] => None end.
Definition enc_bytes := enc_list enc_1.
Definition dec_bytes := dec_list dec_1.
Lemma dec_bytes_ok : reads_back enc_bytes dec_bytes.
Proof. apply dec_list_ok. intros a r. reflexivity. Qed.
Definition enc_doc (d : N * bytes * bool) : bytes :=
  match d with (n, id, del) => n :: (if del then 1 else 0) :: enc_bytes id end.
Definition dec_doc : parser (N * bytes * bool) := fun b =>
  match b with
  | n :: x :: r => match dec_bytes r with Some (id, r') => Some ((n, id, x =? 1), r') | None => None end
  | _ => None
  end.
Lemma dec_doc_ok : reads_back enc_doc dec_doc.
Proof. intros [[n id] del] r. cbn [enc_doc dec_doc app]. rewrite dec_bytes_ok. destruct del; reflexivity. Qed.
Definition enc_any (c : any_changes) : bytes :=
  match c with
  | Documents ch => 1 :: enc_list enc_bytes (ch_colls ch) ++ enc_list enc_doc (ch_docs ch)
  | Keys k => 2 :: enc_list enc_bytes k
  end.
Definition dec_any (b : bytes) : potres any_changes :=
  match b with
  | 1 :: r => match dec_list dec_bytes r with
              | Some (cs, r') => match dec_list dec_doc r' with Some (ds, _) => PotOk (Documents (mk_changes cs ds)) | None => PotErr end
              | None => PotErr
              end
  | 2 :: r => match dec_list dec_bytes r with Some (k, _) => PotOk (Keys k) | None => PotErr end
  | _ => NotAPot
  end.
Definition toy : codec :=
  mkCodec (fun v => [255; v]) (fun b => match b with 255 :: v :: r => (v, r) | _ => (0, b) end)
    enc_any dec_any
    (fun b => match b with 3 :: _ => PotOk (LDocuments ex_docs) | 4 :: _ => PotOk (LKeys [[1]; [2]]) | _ => NotAPot end)
    (fun b => match b with [5] => Some ex_docs | _ => None end).
Example ex_lawful : lawful_codec toy.
Proof.
  split; [reflexivity|]. intros [[cs ds]|k]; cbn [toy from_pot TxLog.pot enc_any dec_any ch_colls ch_docs].
  - rewrite (dec_list_ok _ _ _ dec_bytes_ok cs). rewrite <- (app_nil_r (enc_list enc_doc ds)), (dec_list_ok _ _ _ dec_doc_ok ds). reflexivity.
  - rewrite <- (app_nil_r (enc_list enc_bytes k)), (dec_list_ok _ _ _ dec_bytes_ok k). reflexivity.
Qed.
Example ex_old : unwrap_version toy [5] = (0, [5]) /\ from_pot_v0 toy [5] = NotAPot /\ from_bincode toy [5] = Some ex_docs /\
  unwrap_version toy [4; 9] = (0, [4; 9]) /\ from_pot_v0 toy [4; 9] = PotOk (LKeys [[1]; [2]]).
Proof. repeat match goal with |- _ /\ _ => split end; vm_compute; reflexivity. Qed.
Definition ex_log : list (N * option bytes) :=
  [(1, Some [5]); (2, None); (3, Some (serialize toy (Keys [[8]]))); (4, Some [255; 9])].
Example ex_list : list_transactions toy ex_log (Some 2) (Some 1) = Done [(3, Keys [[8]])].
Proof. vm_compute. reflexivity. Qed.

(* what apply_transaction wrote, read as if an earlier version had listed it *)
Example ex_same : apply_transaction PropDocs.ex_env DocsSpec.everyone DocsSpec.empty_db PropDocs.ex_ops1 =
    (PropDocs.ex_s1, snd (apply_transaction PropDocs.ex_env DocsSpec.everyone DocsSpec.empty_db PropDocs.ex_ops1)) /\
  db_log PropDocs.ex_s1 = db_log DocsSpec.empty_db ++ [(1, Some (mk_changes [[1]] [(0, [5], false); (0, [6], false)]))] /\
  map plain [([1], Raw [5], false); ([1], Raw [6], false)] = changes_iter (mk_changes [[1]] [(0, [5], false); (0, [6], false)]) /\
  (exists rs, snd (apply_transaction PropDocs.ex_env DocsSpec.everyone DocsSpec.empty_db PropDocs.ex_ops1) = Done rs).
Proof. split; [unfold PropDocs.ex_s1; destruct (apply_transaction _ _ _ _); reflexivity|]. split; [vm_compute; reflexivity|]. split; [vm_compute; reflexivity|]. eexists. vm_compute. reflexivity. Qed.

(* "An entry that cannot be decoded only costs that entry": false, list_executed_transactions
   fails as a whole, so that nothing from before the entry on can be listed past it. *)
Theorem C86_bad_entry_skipped_refuted : exists k log, lawful_codec k /\
  (exists c, In (3, Some (serialize k c)) log) /\
  (forall limit r, (3 <= limit)%N -> list_transactions k log None (Some limit) <> Done r) /\
  (exists r, list_transactions k log (Some 2) (Some 1) = Done r).
Proof.
  exists toy, ex_log. split; [exact ex_lawful|]. split; [exists (Keys [[8]]); right; right; left; reflexivity|]. split.
  - intros limit r L H. apply C86_list in H.
    assert (W : wanted ex_log None (Some limit) = [(1, [5]); (3, serialize toy (Keys [[8]])); (4, [255; 9])]).
    { unfold wanted. rewrite firstn_all2; [reflexivity|]. cbn. lia. }
    rewrite W in H. inversion H as [|? ? ? ? _ H1]; subst. inversion H1 as [|? ? ? ? _ H2]; subst. inversion H2 as [|? ? ? ? [_ H3] _]; subst.
    vm_compute in H3. discriminate.
  - eexists. vm_compute. reflexivity.
Qed.

(* "Any log of an earlier version can be read": false.  A transaction that changed more than
   65536 collections makes the upgrade panic. *)
Definition many (n : nat) : list legacy_doc := map (fun n => ([N.of_nat n], U64 1, false)) (seq 0 n).
Lemma many_panics : forall n, 65536 < N.of_nat n -> Forall id_ok (many n) /\ upgrade (LDocuments (many n)) = Panic.
Proof.
  intros n L. set (l := many n).
  assert (F : Forall id_ok l) by (apply Forall_forall; intros d D; apply in_map_iff in D; destruct D as (k & <- & _); exact I).
  split; [exact F|]. apply (C86_upgrade_panics l F).
  assert (ND : NoDup (map (fun d : legacy_doc => fst (fst d)) l)).
  { unfold l, many. rewrite map_map. cbn [fst].
    apply FinFun.Injective_map_NoDup; [|apply seq_NoDup]. intros a b E. injection E as E. apply Nat2N.inj. exact E. }
  assert (LN : forall m : list bytes, NoDup m -> length (firsts m) = length m).
  { intros m M. unfold firsts. rewrite rev_length, nodup_fixed_point by (apply NoDup_rev; exact M). apply rev_length. }
  apply N.lt_le_trans with (N.of_nat (length (map (fun d : legacy_doc => fst (fst d)) l))).
  - rewrite map_length. unfold l, many. rewrite map_length, seq_length. exact L.
  - apply N.eq_le_incl. f_equal. symmetry. exact (LN _ ND).
Qed.
Theorem C86_old_log_readable_refuted : exists l, Forall id_ok l /\ upgrade (LDocuments l) = Panic.
Proof. exists (many (N.to_nat 65537)). apply many_panics. rewrite N2Nat.id. reflexivity. Qed.

(* the borrowing iterator is fused whatever is stored: after its first None it
   answers None forever; the consuming one only where every index is valid *)
Theorem C86_fused : forall ch i j, iter_next ch i = (None, j) -> iter_next ch j = (None, j).
Proof. intros ch i j. unfold iter_next. destruct (get_change ch i) eqn:G; [discriminate|]. intros [= <-]. rewrite G. reflexivity. Qed.
Example C86_fused_example : iter_next (mk_changes [[1]%N] [(5%N, [7]%N, false); (0%N, [8]%N, true)]) 0 = (None, 0)%nat.
Proof. vm_compute. reflexivity. Qed.
Theorem C86_into_fused_refuted : exists colls docs docs', into_next colls docs = (None, docs') /\ fst (into_next colls docs') <> None.
Proof. exists [[1]%N], [(5%N, [7]%N, false); (0%N, [8]%N, true)], [(0%N, [8]%N, true)]. vm_compute. split; [reflexivity|discriminate]. Qed.

Print Assumptions C86_fused.
Print Assumptions C86_into_fused_refuted.
Print Assumptions C86_upgrade_exact.
Print Assumptions C86_upgrade_panics.
Print Assumptions C86_upgrade_bad_id.
Print Assumptions C86_same_as_new.
Print Assumptions C86_roundtrip.
Print Assumptions C86_reads_old.
Print Assumptions C86_reads_old_keys.
Print Assumptions C86_newer_refused.
Print Assumptions C86_list.
Print Assumptions C86_list_stored.
Print Assumptions C86_loops_agree.
Print Assumptions C86_get.
Print Assumptions C86_bad_entry_skipped_refuted.
Print Assumptions C86_old_log_readable_refuted.
