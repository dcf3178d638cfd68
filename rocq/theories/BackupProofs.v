(* Lemmas for C51. *)
From Verif Require Import Base Key KeyPrefix DocId DocIdProofs Tree View ViewProofs ViewMap Docs DocsProofs DocsSpec DocsMore Backup.
From Verif Require Kv KvSpec KvProofs KvSim PropKv.
From Coq Require Import Sorting.Permutation.
Local Open Scope N_scope.

Lemma lkey_eqb_spec a b : lkey_eqb a b = true <-> a = b.
Proof.
  destruct a as [a1 a2 a3 a4], b as [b1 b2 b3 b4]. unfold lkey_eqb. cbn [l_schema l_db l_cont l_name].
  rewrite !andb_true_iff, !bytes_eqb_spec. split; [intros [[[-> ->] ->] ->]; reflexivity|intros H; injection H as -> -> -> ->; auto].
Qed.
Lemma lkey_eqb_refl a : lkey_eqb a a = true. Proof. apply lkey_eqb_spec. reflexivity. Qed.
Lemma lkey_eqb_neq a b : lkey_eqb a b = false <-> a <> b.
Proof. rewrite <- not_true_iff_false, lkey_eqb_spec. reflexivity. Qed.
Lemma lkey_dec (a b : lkey) : {a = b} + {a <> b}.
Proof. destruct (lkey_eqb a b) eqn:E; [left; apply lkey_eqb_spec, E|right; apply lkey_eqb_neq, E]. Qed.

Lemma find_filter_other k (k' : lkey) (l : location) : k' <> k ->
  find (fun p => lkey_eqb k' (fst p)) (filter (fun p => negb (lkey_eqb k (fst p))) l) = find (fun p => lkey_eqb k' (fst p)) l.
Proof.
  intros NE. induction l as [|[j o] l IH]; [reflexivity|]. cbn [filter find fst].
  destruct (lkey_eqb k j) eqn:E; cbn [negb].
  - apply lkey_eqb_spec in E. subst j. rewrite IH. replace (lkey_eqb k' k) with false; [reflexivity|].
    symmetry. apply lkey_eqb_neq, NE.
  - cbn [find fst]. rewrite IH. reflexivity.
Qed.
Lemma load_store l k o k' : load (store l k o) k' = if lkey_eqb k' k then Some o else load l k'.
Proof.
  unfold load, store. cbn [find fst]. destruct (lkey_eqb k' k) eqn:E; [reflexivity|].
  apply lkey_eqb_neq in E. rewrite find_filter_other by exact E. reflexivity.
Qed.
Lemma load_In (l : location) k o : load l k = Some o -> In (k, o) l.
Proof.
  unfold load. destruct (find _ l) as [[j p]|] eqn:F; [|discriminate]. cbn [option_map snd]. intros H. injection H as <-.
  apply find_some in F. destruct F as [I E]. cbn [fst] in E. apply lkey_eqb_spec in E. subst j. exact I.
Qed.
Lemma load_some (l : location) k : In k (map fst l) <-> exists o, load l k = Some o.
Proof.
  split.
  - intros H. apply in_map_iff in H. destruct H as ([j p] & <- & I). unfold load. cbn [fst].
    destruct (find (fun q => lkey_eqb j (fst q)) l) as [[a b]|] eqn:F; [eexists; reflexivity|].
    exfalso. apply (List.find_none _ _ F) in I. cbn [fst] in I. rewrite lkey_eqb_refl in I. discriminate.
  - intros [o H]. apply load_In in H. apply in_map_iff. exists (k, o). auto.
Qed.
Definition unique_keys (l : location) : Prop := NoDup (map fst l).
Lemma NoDup_map_filter (f : lkey * object -> bool) (l : location) : NoDup (map fst l) -> NoDup (map fst (filter f l)).
Proof.
  induction l as [|p l IH]; intros H; [constructor|]. inversion_clear H as [|? ? A B]. cbn [filter].
  destruct (f p); [|apply IH, B]. cbn [map]. constructor; [|apply IH, B].
  intros C. apply A. apply in_map_iff in C. destruct C as (x & X & Y). apply filter_In in Y. apply in_map_iff. exists x. tauto.
Qed.
Lemma unique_store l k o : unique_keys l -> unique_keys (store l k o).
Proof.
  intros U. unfold unique_keys, store. cbn [map fst]. constructor; [|apply NoDup_map_filter, U].
  intros C. apply in_map_iff in C. destruct C as (x & X & Y). apply filter_In in Y. destruct Y as [_ Y].
  rewrite X, lkey_eqb_refl in Y. discriminate.
Qed.
Lemma unique_store_all ws : forall l, unique_keys l -> unique_keys (store_all l ws).
Proof. induction ws as [|w ws IH]; intros l U; [exact U|]. apply IH, unique_store, U. Qed.

Lemma load_store_all ws : forall l k, ~ In k (map fst ws) -> load (store_all l ws) k = load l k.
Proof.
  induction ws as [|[j o] ws IH]; intros l k N; [reflexivity|]. cbn [map fst] in N. unfold store_all. cbn [fold_left fst snd].
  change (load (store_all (store l j o) ws) k = load l k). rewrite IH by (intros J; apply N; right; exact J). rewrite load_store.
  replace (lkey_eqb k j) with false; [reflexivity|]. symmetry. apply lkey_eqb_neq. intros ->. apply N. left. reflexivity.
Qed.
Definition functional (ws : list (lkey * object)) : Prop := forall k o o', In (k, o) ws -> In (k, o') ws -> o = o'.
Lemma load_store_all_in ws : forall l k o, functional ws -> In (k, o) ws -> load (store_all l ws) k = Some o.
Proof.
  induction ws as [|[j p] ws IH]; intros l k o F I; [destruct I|].
  unfold store_all. cbn [fold_left fst snd]. change (load (store_all (store l j p) ws) k = Some o).
  destruct (in_dec lkey_dec k (map fst ws)) as [J|J].
  - apply in_map_iff in J. destruct J as ([k' o'] & X & J). cbn [fst] in X. subst k'.
    rewrite (IH (store l j p) k o') ; [|intros a b c A B; apply (F a b c); right; assumption|exact J].
    f_equal. apply (F k o' o); [right; exact J|exact I].
  - rewrite load_store_all by exact J. destruct I as [I|I].
    + injection I as -> ->. rewrite load_store, lkey_eqb_refl. reflexivity.
    + exfalso. apply J. apply in_map_iff. exists (k, o). auto.
Qed.

Lemma list_stored_In l sc db c n : In n (list_stored l sc db c) <-> exists o, load l (mk_lkey sc db c n) = Some o.
Proof.
  rewrite <- load_some. unfold list_stored. rewrite !in_map_iff. split.
  - intros ([[a1 a2 a3 a4] o] & X & Y). apply filter_In in Y. destruct Y as [Y Z]. cbn [fst l_name l_schema l_db l_cont] in *.
    rewrite !andb_true_iff, !bytes_eqb_spec in Z. destruct Z as [[-> ->] ->]. subst a4. eexists. split; [|exact Y]. reflexivity.
  - intros ([k o] & X & Y). cbn [fst] in X. subst k. eexists. split; [|apply filter_In; split; [exact Y|]]; [reflexivity|].
    cbn [fst l_name l_schema l_db l_cont]. rewrite !bytes_eqb_refl. reflexivity.
Qed.
Lemma list_stored_NoDup l sc db c : unique_keys l -> NoDup (list_stored l sc db c).
Proof.
  intros U. unfold list_stored.
  set (f := fun p : lkey * object => bytes_eqb (l_schema (fst p)) sc && bytes_eqb (l_db (fst p)) db && bytes_eqb (l_cont (fst p)) c).
  assert (A : forall p, In p (filter f l) -> fst p = mk_lkey sc db c (l_name (fst p))).
  { intros [[a1 a2 a3 a4] o] I. apply filter_In in I. destruct I as [_ I]. unfold f in I. cbn [fst l_name l_schema l_db l_cont] in *.
    rewrite !andb_true_iff, !bytes_eqb_spec in I. destruct I as [[-> ->] ->]. reflexivity. }
  pose proof (NoDup_map_filter f l U) as B. clearbody f. clear U. revert A B. induction (filter f l) as [|p r IH]; intros A B; [constructor|].
  cbn [map] in *. inversion_clear B as [|? ? B1 B2]. constructor; [|apply IH; [intros q I; apply A; right; exact I|exact B2]].
  intros I. apply B1. apply in_map_iff in I. destruct I as (q & X & J). rewrite (A p (or_introl eq_refl)), <- X, <- (A q (or_intror J)).
  apply in_map, J.
Qed.

(* ---------- names of key-value entries ---------- *)
(* the separator does not occur in the namespace, nor across its end *)
Definition sep_free (ns : bytes) : Prop := forall a b, ns ++ removelast sep <> a ++ sep ++ b.
Lemma split_once_sep ns key : sep_free ns -> split_once sep (ns ++ sep ++ key) = Some (ns, key).
Proof.
  induction ns as [|c ns IH]; intros F.
  - cbn [app]. unfold sep at 2. cbn [app]. change (46 :: 95 :: 107 :: 101 :: 121 :: 46 :: 95 :: key) with (sep ++ key).
    assert (E : split_once sep (sep ++ key) = if starts_with sep (sep ++ key) then Some ([], skipn (length sep) (sep ++ key)) else split_once sep (sep ++ key)).
    { rewrite starts_with_app. cbn [sep app split_once]. change (46 :: 95 :: 107 :: 101 :: 121 :: 46 :: 95 :: key) with (sep ++ key).
      rewrite starts_with_app. reflexivity. }
    rewrite E, starts_with_app. reflexivity.
  - cbn [app split_once]. destruct (starts_with sep (c :: ns ++ sep ++ key)) eqn:S.
    + exfalso. apply starts_with_spec in S. destruct S as [r S].
      assert (L : exists b, c :: ns ++ removelast sep = sep ++ b).
      { assert (Q : firstn 7 (c :: ns ++ removelast sep) = sep).
        { transitivity (firstn 7 ((c :: ns ++ removelast sep) ++ 95 :: key)).
          - rewrite firstn_app. replace (7 - length (c :: ns ++ removelast sep))%nat with 0%nat.
            + cbn [firstn]. rewrite app_nil_r. reflexivity.
            + cbn [length]. rewrite app_length. cbn [removelast sep length]. lia.
          - transitivity (firstn 7 (c :: ns ++ sep ++ key)).
            + f_equal. cbn [app]. f_equal. rewrite <- app_assoc. reflexivity.
            + rewrite S. reflexivity. }
        exists (skipn 7 (c :: ns ++ removelast sep)). symmetry. transitivity (firstn 7 (c :: ns ++ removelast sep) ++ skipn 7 (c :: ns ++ removelast sep)); [rewrite Q; reflexivity|apply firstn_skipn]. }
      destruct L as [b L]. apply (F [] b). exact L.
    + rewrite IH; [reflexivity|]. intros a b E. apply (F (c :: a) b). cbn [app]. rewrite E. reflexivity.
Qed.
Lemma split_nul_full k a b : Kv.split_nul k = Some (a, b) -> a ++ 0 :: b = k.
Proof.
  revert a b. induction k as [|c k IH]; intros a b H; [discriminate|]. cbn [Kv.split_nul] in H. destruct (c =? 0) eqn:E.
  - apply N.eqb_eq in E. subst c. injection H as <- <-. reflexivity.
  - destruct (Kv.split_nul k) as [[x y]|]; [|discriminate]. injection H as <- <-. cbn [app]. rewrite (IH x y eq_refl). reflexivity.
Qed.
Lemma split_key_full k ns key : Kv.split_key k = Some (ns, key) -> Kv.full_key ns key = k.
Proof.
  unfold Kv.split_key. destruct (Kv.split_nul k) as [[a b]|] eqn:S; [|discriminate]. intros H. injection H as <- <-.
  apply split_nul_full in S. unfold Kv.full_key. destruct a; exact S.
Qed.
Lemma split_key_ns k ns key : Kv.split_key k = Some (ns, key) -> match ns_text ns with [] => None | _ => Some (ns_text ns) end = ns.
Proof.
  unfold Kv.split_key. destruct (Kv.split_nul k) as [[a b]|]; [|discriminate]. intros H. injection H as <- <-. destruct a; reflexivity.
Qed.
Lemma split_nul_app (l key : list N) : exists a b, Kv.split_nul (l ++ 0 :: key) = Some (a, b).
Proof.
  induction l as [|c l IH]; cbn [app Kv.split_nul]; [exists [], key; reflexivity|]. destruct (c =? 0); [eauto|].
  destruct IH as (a & b & IH). rewrite IH. eauto.
Qed.
Lemma split_full ns key : exists ns' key', Kv.split_key (Kv.full_key ns key) = Some (ns', key').
Proof.
  unfold Kv.split_key, Kv.full_key. pose proof (split_nul_app (match ns with Some n => n | None => [] end) key) as (a & b & H).
  destruct (Kv.split_nul _) as [[x y]|]; [eauto|discriminate H].
Qed.

(* ---------- what a backup of one database writes ---------- *)
Section Writes.
Context (sc : schema) (name : bytes) (d : dbase).
Hypothesis docs_fine : forall c, docs_ok (w_docs (db_work (b_docs d)) c).
Hypothesis kv_fine : KvProofs.kinv (b_kv d).

Definition nameable (id : bytes) : Prop :=
  bytes_ok id /\ N.of_nat (length id) <= max_length /\ (printable id = true -> ~ In dollar id).
Definition docs_nameable : Prop := forall c id x, In c (sc_colls sc) -> doc_at (b_docs d) c id = Some x -> nameable id.
Definition kv_nameable : Prop :=
  forall ns key k e, Kv.kv_get (b_kv d) k = Some e -> Kv.split_key k = Some (ns, key) -> sep_free (ns_text ns).

Lemma range_all {V} (t : tree V) : t_range Unbounded Unbounded t = t.
Proof. unfold t_range. induction t as [|p t IH]; [reflexivity|]. cbn [filter]. change (in_bounds Unbounded Unbounded (fst p)) with true. cbn iota. f_equal. exact IH. Qed.
Lemma doc_writes_In c k o : In (k, o) (doc_writes sc name d c) <->
  exists id x, doc_at (b_docs d) c id = Some x /\ k = mk_lkey (sc_name sc) name c (display id) /\ o = Contents (d_contents x).
Proof.
  unfold doc_writes. rewrite range_all, in_map_iff. destruct (docs_fine c) as [W H]. split.
  - intros ([id x] & E & I). injection E as <- <-. cbn [snd]. apply get_iff in I; [|exact W]. exists id, x.
    rewrite (H _ _ I). auto.
  - intros (id & x & G & -> & ->). exists (id, x). cbn [snd]. split; [|apply get_In, G]. rewrite (H _ _ G). reflexivity.
Qed.
Lemma kv_writes_In k o : In (k, o) (kv_writes sc name d) <->
  exists fk e ns key, Kv.kv_get (b_kv d) fk = Some e /\ Kv.split_key fk = Some (ns, key) /\
    k = mk_lkey (sc_name sc) name kv_container (kv_name ns key) /\ o = KvEntry e.
Proof.
  unfold kv_writes. rewrite in_flat_map. split.
  - intros ([fk e] & I & J). cbn [fst snd] in J. destruct (Kv.split_key fk) as [[ns key]|] eqn:S; [|destruct J].
    destruct J as [J|[]]. injection J as <- <-. exists fk, e, ns, key.
    rewrite <- (KvProofs.get_all_entries _ _ kv_fine). apply get_iff in I; [|apply KvSim.all_entries_wf, kv_fine]. auto.
  - intros (fk & e & ns & key & G & S & -> & ->). exists (fk, e). cbn [fst snd]. rewrite S.
    rewrite <- (KvProofs.get_all_entries _ _ kv_fine) in G. split; [apply get_In, G|left; reflexivity].
Qed.
Lemma db_writes_In k o : In (k, o) (db_writes sc name d) <->
  exists c, In c (sc_colls sc) /\ (In (k, o) (doc_writes sc name d c) \/ In (k, o) (kv_writes sc name d)).
Proof.
  unfold db_writes. rewrite in_flat_map. split; intros (c & I & J); exists c; (split; [exact I|]).
  - apply in_app_iff, J.
  - apply in_app_iff, J.
Qed.
Lemma db_writes_scope k o : In (k, o) (db_writes sc name d) -> l_schema k = sc_name sc /\ l_db k = name.
Proof.
  rewrite db_writes_In. intros (c & _ & [I|I]).
  - apply doc_writes_In in I. destruct I as (id & x & _ & -> & _). auto.
  - apply kv_writes_In in I. destruct I as (fk & e & ns & key & _ & _ & -> & _). auto.
Qed.
Lemma writes_functional : docs_nameable -> kv_nameable -> ~ In kv_container (sc_colls sc) -> functional (db_writes sc name d).
Proof.
  intros DN KN NK k o o' A B. apply db_writes_In in A, B. destruct A as (c & C & A), B as (c' & C' & B).
  rewrite doc_writes_In, kv_writes_In in A, B.
  destruct A as [(id & x & G & -> & ->)|(fk & e & ns & key & G & S & -> & ->)];
  destruct B as [(id' & x' & G' & E & ->)|(fk' & e' & ns' & key' & G' & S' & E & ->)].
  - injection E as -> E. destruct (DN c' id x C' G) as (A1 & A2 & A3), (DN c' id' x' C' G') as (B1 & B2 & B3).
    pose proof (display_roundtrip id A1 A2 A3) as R1. pose proof (display_roundtrip id' B1 B2 B3) as R2.
    rewrite E in R1. rewrite R1 in R2. injection R2 as ->. rewrite G in G'. injection G' as ->. reflexivity.
  - injection E as -> _. contradiction.
  - injection E as E _. rewrite <- E in C'. contradiction.
  - injection E as E. pose proof (split_once_sep (ns_text ns) key (KN ns key fk e G S)) as R1.
    pose proof (split_once_sep (ns_text ns') key' (KN ns' key' fk' e' G' S')) as R2. unfold kv_name in E. rewrite E in R1.
    rewrite R1 in R2. injection R2 as T ->.
    assert (fk = fk') as <-.
    { rewrite <- (split_key_full _ _ _ S), <- (split_key_full _ _ _ S'), <- (split_key_ns _ _ _ S), <- (split_key_ns _ _ _ S'), T. reflexivity. }
    rewrite G in G'. injection G' as ->. reflexivity.
Qed.

(* what a location holds for this database after the backup *)
Definition nothing_stored (l : location) (n : bytes) : Prop := forall k, l_db k = n -> load l k = None.
Context (l l' : location).
Hypothesis nothing : forall k, l_schema k = sc_name sc -> l_db k = name -> load l k = None.
Hypothesis held : forall k, l_schema k = sc_name sc -> l_db k = name -> load l' k = load (backup_database sc name d l) k.
Hypothesis DN : docs_nameable.
Hypothesis KN : kv_nameable.
Hypothesis NK : ~ In kv_container (sc_colls sc).

Lemma held_spec k o : l_schema k = sc_name sc -> l_db k = name -> (load l' k = Some o <-> In (k, o) (db_writes sc name d)).
Proof.
  intros S D. rewrite held by assumption. unfold backup_database. split.
  - intros H. destruct (in_dec lkey_dec k (map fst (db_writes sc name d))) as [I|I].
    + apply in_map_iff in I. destruct I as ([j p] & X & I). cbn [fst] in X. subst j.
      rewrite (load_store_all_in _ l k p (writes_functional DN KN NK) I) in H. injection H as <-. exact I.
    + rewrite load_store_all, nothing in H by assumption. discriminate.
  - apply load_store_all_in, writes_functional; assumption.
Qed.
Lemma held_doc c n o : In c (sc_colls sc) -> (load l' (mk_lkey (sc_name sc) name c n) = Some o <->
  exists id x, doc_at (b_docs d) c id = Some x /\ n = display id /\ o = Contents (d_contents x)).
Proof.
  intros C. rewrite held_spec by reflexivity. rewrite db_writes_In. split.
  - intros (c' & _ & [I|I]).
    + apply doc_writes_In in I. destruct I as (id & x & G & E & ->). injection E as -> ->. eauto.
    + apply kv_writes_In in I. destruct I as (fk & e & ns & key & _ & _ & E & _). injection E as -> _. contradiction.
  - intros (id & x & G & -> & ->). exists c. split; [exact C|]. left. apply doc_writes_In. eauto.
Qed.
Lemma held_kv n o : sc_colls sc <> [] -> (load l' (mk_lkey (sc_name sc) name kv_container n) = Some o <->
  exists fk e ns key, Kv.kv_get (b_kv d) fk = Some e /\ Kv.split_key fk = Some (ns, key) /\ n = kv_name ns key /\ o = KvEntry e).
Proof.
  intros NE. rewrite held_spec by reflexivity. rewrite db_writes_In. split.
  - intros (c' & C & [I|I]).
    + apply doc_writes_In in I. destruct I as (id & x & G & E & ->). injection E as <- _. contradiction.
    + apply kv_writes_In in I. destruct I as (fk & e & ns & key & G & S & E & ->). injection E as ->. exists fk, e, ns, key. auto.
  - intros (fk & e & ns & key & G & S & -> & ->). destruct (sc_colls sc) as [|c r]; [contradiction|]. exists c. split; [left; reflexivity|].
    right. apply kv_writes_In. exists fk, e, ns, key. auto.
Qed.
End Writes.

(* ---------- the transaction of a restore ---------- *)
Definition any_order (f : list bytes -> list bytes) : Prop := forall l, Permutation (f l) l.
Definition is_restore_insert (o : operation) : Prop := exists id b, op_cmd o = Insert (Some id) b.

Lemma inserts_final H : forall m ops m' rs, does_all H m ops m' rs -> Forall is_restore_insert ops ->
  (forall c id b, In (mk_op c (Insert (Some id) b)) ops -> m' c id = Some (mk_doc (mk_header id (first_rev H b)) b)) /\
  (forall c id, (forall b, ~ In (mk_op c (Insert (Some id) b)) ops) -> m' c id = m c id).
Proof.
  intros m ops m' rs D. induction D as [m m' S|m o m1 m1' r ops m2 rs D S D2 IH]; intros F.
  - split; [intros c id b []|intros c id _; symmetry; apply S].
  - inversion_clear F as [|? ? F1 F2]. destruct (IH F2) as [IH1 IH2]. clear IH. destruct F1 as (id0 & b0 & E).
    destruct o as [c0 cmd]. cbn [op_cmd op_coll] in *. subst cmd.
    inversion D as [oid id contents X Y E1 E2 E3| | | | | | | | ]; subst.
    assert (id = id0) as -> by (destruct X as [X|X]; congruence).
    assert (P : forall c i, m1' c i = if bytes_eqb c c0 && bytes_eqb i id0 then Some (mk_doc (mk_header id0 (first_rev H b0)) b0) else m c i).
    { intros c i. rewrite <- S. reflexivity. }
    split.
    + intros c id b [I|I].
      * injection I as <- <- <-.
        destruct (in_dec (list_eq_dec N.eq_dec) id0 (map (fun o => match op_cmd o with Insert (Some i) _ => i | _ => [] end)
          (filter (fun o => bytes_eqb (op_coll o) c0) ops))) as [J|J].
        -- apply in_map_iff in J. destruct J as (o & J1 & J2). apply filter_In in J2. destruct J2 as [J2 J3]. apply bytes_eqb_spec in J3.
           destruct (proj1 (Forall_forall _ _) F2 o J2) as (i & b' & J4). rewrite J4 in J1. subst i.
           (* the same id twice: the second insert would have been refused *)
           exfalso.
           assert (Q : forall m ops m' rs, does_all H m ops m' rs -> Forall is_restore_insert ops -> forall c i, m c i <> None ->
             forall o, In o ops -> op_coll o = c -> forall b, op_cmd o = Insert (Some i) b -> False).
           { clear. intros m ops m' rs D. induction D as [m m' S|m o m1 m1' r ops m2 rs D S D2 IH]; intros F c i N o' I E b E2; [destruct I|].
             inversion_clear F as [|? ? F1 F2]. destruct I as [->|I].
             - rewrite E2, E in D. inversion D as [oid id contents X Y E1 E3 E4| | | | | | | | ]; subst. apply N. destruct X as [X|X]; congruence.
             - apply (IH F2 c i) with (o := o') (b := b); try assumption. destruct F1 as (i1 & b1 & F1). rewrite F1 in D.
               inversion D as [oid id contents X Y E1 E3 E4| | | | | | | | ]; subst. rewrite <- S. unfold put.
               destruct (_ && _); [discriminate|exact N]. }
           assert (N : m1' c0 id0 <> None) by (rewrite P, !bytes_eqb_refl; discriminate).
           exact (Q _ _ _ _ D2 F2 c0 id0 N o J2 J3 b' J4).
        -- rewrite IH2; [rewrite P, !bytes_eqb_refl; reflexivity|]. intros b I. apply J. apply in_map_iff.
           exists (mk_op c0 (Insert (Some id0) b)). split; [reflexivity|]. apply filter_In. split; [exact I|]. apply bytes_eqb_refl.
      * apply IH1, I.
    + intros c id N. rewrite IH2; [|intros b I; apply (N b); right; exact I]. rewrite P.
      destruct (bytes_eqb c c0 && bytes_eqb id id0) eqn:Q; [|reflexivity]. exfalso. apply andb_true_iff in Q. destruct Q as [Q1 Q2].
      apply bytes_eqb_spec in Q1, Q2. subst. apply (N b0). left. reflexivity.
Qed.

Section RestoreDocs.
Context (ord : list bytes -> list bytes) (adm : bytes) (l : location) (sc name : bytes).
Hypothesis ord_ok : any_order ord.

Lemma restore_ops_spec c (m : bytes -> option bytes) :
  (forall n o, load l (mk_lkey sc name c n) = Some o <-> exists id b, m id = Some b /\ n = display id /\ o = Contents b) ->
  (forall id b, m id = Some b -> from_str (display id) = Done id) -> 
  exists ops, restore_ops ord l sc name c = Done ops /\
    (forall o, In o ops <-> exists id b, m id = Some b /\ o = mk_op c (Insert (Some id) b)) /\
    (unique_keys l -> NoDup ops).
Proof.
  intros L R. unfold restore_ops.
  assert (A : forall n, In n (ord (list_stored l sc name c)) <-> exists id b, m id = Some b /\ n = display id).
  { intros n. rewrite (Permutation_in' (eq_refl n) (ord_ok _)), list_stored_In. split.
    - intros [o H]. apply L in H. destruct H as (id & b & M & N & _). eauto.
    - intros (id & b & M & N). exists (Contents b). apply L. eauto. }
  assert (U : unique_keys l -> NoDup (ord (list_stored l sc name c))).
  { intros U. eapply Permutation_NoDup; [symmetry; apply ord_ok|apply list_stored_NoDup, U]. }
  set (ns := ord (list_stored l sc name c)) in *.
  assert (B : forall xs, (forall n, In n xs -> exists id b, m id = Some b /\ n = display id) -> exists ops,
    fold_right (fun n acc => match acc with Done ops => match from_str n with Done id => match load l (mk_lkey sc name c n) with
       | Some (Contents b) => Done (mk_op c (Insert (Some id) b) :: ops) | _ => Fail RMissing end | _ => Done ops end | e => e end) (Done []) xs = Done ops /\
    (forall o, In o ops <-> exists id b, m id = Some b /\ o = mk_op c (Insert (Some id) b) /\ In (display id) xs) /\ (NoDup xs -> NoDup ops)).
  { induction xs as [|n xs IH]; intros K.
    - exists []. split; [reflexivity|]. split; [|constructor]. intros o. split; [intros []|intros (id & b & _ & _ & [])].
    - destruct IH as (ops & E & S & ND); [intros n' I; apply K; right; exact I|]. cbn [fold_right]. rewrite E.
      destruct (K n (or_introl eq_refl)) as (id & b & M & ->). rewrite (R id b M).
      rewrite (proj2 (L (display id) (Contents b))) by eauto.
      exists (mk_op c (Insert (Some id) b) :: ops). split; [reflexivity|]. split.
      + intros o. cbn [In]. rewrite S. split.
        * intros [<-|(i & b' & X & Y & Z)]; [exists id, b; auto|exists i, b'; auto].
        * intros (i & b' & X & -> & [Z|Z]); [|right; exists i, b'; auto]. left.
          assert (i = id) as -> by (pose proof (R i b' X) as R1; rewrite <- Z, (R id b M) in R1; congruence).
          rewrite M in X. injection X as ->. reflexivity.
      + intros N. inversion_clear N as [|? ? N1 N2]. constructor; [|apply ND, N2]. intros I. apply S in I. destruct I as (i & b' & X & Y & Z).
        injection Y as -> ->. apply N1, Z. }
  destruct (B ns (fun n I => proj1 (A n) I)) as (ops & E & S & ND). exists ops. split; [exact E|]. split; [|intros UK; apply ND, U, UK].
  intros o. rewrite S. split; intros (id & b & M & X); exists id, b.
  - destruct X. auto.
  - split; [exact M|]. split; [exact X|]. apply A. eauto.
Qed.

Lemma restore_tx_spec colls (m : bytes -> bytes -> option bytes) :
  (forall c n o, In c colls -> (load l (mk_lkey sc name c n) = Some o <-> exists id b, m c id = Some b /\ n = display id /\ o = Contents b)) ->
  (forall c id b, In c colls -> m c id = Some b -> from_str (display id) = Done id) ->
  exists ops, restore_tx ord adm l sc name colls = Done ops /\
    (forall o, In o ops <-> exists c id b, In c colls /\ c <> adm /\ m c id = Some b /\ o = mk_op c (Insert (Some id) b)) /\
    (unique_keys l -> NoDup colls -> NoDup ops).
Proof.
  intros L R. unfold restore_tx. induction colls as [|c colls IH].
  - exists []. split; [reflexivity|]. split; [|constructor]. intros o. split; [intros []|intros (c & id & b & [] & _)].
  - destruct IH as (ops & E & S & ND); [intros c' n o I; apply L; right; exact I|intros c' id b I; apply R; right; exact I|].
    cbn [filter]. destruct (bytes_eqb c adm) eqn:B; cbn [negb].
    + apply bytes_eqb_spec in B. subst c. exists ops. split; [exact E|]. split; [|intros U N; inversion_clear N; apply ND; assumption].
      intros o. rewrite S. split; intros (c' & id & b & I & NA & X); exists c', id, b; (split; [|auto]).
      * right. exact I.
      * destruct I as [->|I]; [contradiction|exact I].
    + apply bytes_eqb_neq in B. cbn [fold_right]. rewrite E.
      destruct (restore_ops_spec c (m c)) as (o1 & E1 & S1 & ND1).
      { intros n o. apply L. left. reflexivity. }
      { intros id b. apply R. left. reflexivity. }
      rewrite E1. exists (o1 ++ ops). split; [reflexivity|]. split.
      * intros o. rewrite in_app_iff, S1, S. split.
        -- intros [(id & b & M & ->)|(c' & id & b & I & X)]; [exists c, id, b; cbn [In]; auto|exists c', id, b; cbn [In]; tauto].
        -- intros (c' & id & b & [->|I] & NA & M & ->); [left; eauto|right; exists c', id, b; auto].
      * intros U N. inversion_clear N as [|? ? N1 N2].
        assert (G : forall (l1 l2 : list operation), NoDup l1 -> NoDup l2 -> (forall x, In x l1 -> ~ In x l2) -> NoDup (l1 ++ l2)).
        { clear. induction l1 as [|x l1 IH]; intros l2 A B C; [exact B|]. inversion_clear A as [|? ? A1 A2]. cbn [app]. constructor.
          - rewrite in_app_iff. intros [I|I]; [contradiction|]. exact (C x (or_introl eq_refl) I).
          - apply IH; auto. intros y I. apply C. right. exact I. }
        apply G; [apply ND1, U|apply ND; assumption|]. intros o I J. apply S1 in I. destruct I as (id & b & M & ->).
        apply S in J. destruct J as (c' & id' & b' & K & NA & M' & X). injection X as -> _ _. contradiction.
Qed.
End RestoreDocs.

(* ---------- restoring the key-value entries ---------- *)
Section RestoreKv.
Context (l : location) (sc name : bytes) (clock : nat -> Kv.ts) (t : Kv.ts).
Hypothesis before : forall i, Kv.ts_leb (clock i) t = true.
Import KvSpec.

Lemma purge_purge now m k : Kv.ts_leb now t = true -> purge t (purge now m) k = purge t m k.
Proof.
  intros H. unfold purge. destruct (m k) as [c|]; [|reflexivity]. destruct (expired now c) eqn:E; [|reflexivity].
  replace (expired t c) with true; [reflexivity|]. symmetry. unfold expired in *. destruct (snd c) as [x|]; [|discriminate].
  eapply KvProofs.ts_leb_trans; eassumption.
Qed.
Definition purged (c : option cell) : option cell := match c with Some c => if expired t c then None else Some c | None => None end.

(* entries to restore: their name, full key and entry *)
Definition good_entry (n : bytes) (fk : bytes) (e : Kv.entry) : Prop :=
  load l (mk_lkey sc name kv_container n) = Some (KvEntry e) /\
  (exists ns key, Kv.split_key fk = Some (ns, key) /\ n = kv_name ns key /\ sep_free (ns_text ns)) /\
  val_ok (Kv.e_val e) /\ is_nan (Kv.e_val e) = false.
Lemma good_unique n fk e fk' e' : good_entry n fk e -> good_entry n fk' e' -> fk = fk' /\ e = e'.
Proof.
  intros (L & (ns & key & S & -> & F) & _) (L' & (ns' & key' & S' & E & F') & _). split; [|congruence].
  unfold kv_name in E. pose proof (split_once_sep _ key F) as R1. rewrite E, (split_once_sep _ key' F') in R1. injection R1 as X ->.
  rewrite <- (split_key_full _ _ _ S), <- (split_key_full _ _ _ S'), <- (split_key_ns _ _ _ S), <- (split_key_ns _ _ _ S'), X. reflexivity.
Qed.

Lemma restore_kv_spec names : forall s m, KvSim.rel s m -> (forall n, In n names -> exists fk e, good_entry n fk e) ->
  exists s' m', restore_kv l sc name names clock s = Done s' /\ KvSim.rel s' m' /\
    forall k, (forall n e, In n names -> good_entry n k e -> purge t m' k = purged (Some (cell_of e))) /\
              ((forall n e, In n names -> ~ good_entry n k e) -> purge t m' k = purge t m k).
Proof.
  induction names as [|n r IH]; intros s m R G.
  - exists s, m. split; [reflexivity|]. split; [exact R|]. intros k. split; [intros n e []|reflexivity].
  - destruct (G n (or_introl eq_refl)) as (fk & e & GE). pose proof GE as (L & (ns & key & S & E & F) & V & NN).
    assert (SO : split_once sep n = Some (ns_text ns, key)) by (rewrite E; apply split_once_sep, F).
    cbn [restore_kv]. rewrite SO, L, (split_key_ns _ _ _ S).
    pose proof (KvSim.step_sim s m (Kv.EOp ns key (restore_cmd e) (clock (length r))) R I V) as SS. cbn [Kv.step] in SS.
    destruct (Kv.perform s ns key (restore_cmd e) (clock (length r))) as [[res s1]|] eqn:P; [|destruct SS].
    cbn [spec_event restore_cmd spec_cmd Kv.s_val Kv.s_check Kv.s_keep Kv.s_exp Kv.s_ret] in SS. rewrite NN in SS. cbn [fst snd] in SS.
    rewrite (split_key_full _ _ _ S) in SS. destruct SS as [X R1]. injection X as <-.
    set (m1 := put fk (Some (cell_of e)) (purge (clock (length r)) m)) in *.
    change (put fk (Some (Kv.e_val e, Kv.e_exp e)) (purge (clock (length r)) m)) with m1 in R1.
    destruct (IH s1 m1 R1) as (s' & m' & E' & R' & K); [intros n' I; apply G; right; exact I|].
    exists s', m'. split; [exact E'|]. split; [exact R'|]. intros k. destruct (K k) as [K1 K2].
    assert (P1 : purge t m1 k = if bytes_eqb k fk then purged (Some (cell_of e)) else purge t m k).
    { unfold m1, put, purge at 1. destruct (bytes_eqb k fk); [reflexivity|]. fold (purge t (purge (clock (length r)) m) k).
      apply purge_purge, before. }
    assert (DEC : (exists n' e', In n' r /\ good_entry n' k e') \/ (forall n' e', In n' r -> ~ good_entry n' k e')).
    { clear - G. assert (G' : forall n', In n' r -> exists fk e, good_entry n' fk e) by (intros n' I; apply G; right; exact I). clear G.
      induction r as [|a r IH]; [right; intros n' e' []|]. destruct (G' a (or_introl eq_refl)) as (fk & e & GE).
      destruct (bytes_dec fk k) as [->|NE]; [left; exists a, e; split; [left; reflexivity|exact GE]|].
      destruct IH as [(n' & e' & I & H)|H]; [intros n' I; apply G'; right; exact I|left; exists n', e'; split; [right; exact I|exact H]|].
      right. intros n' e' [<-|I] X; [destruct (good_unique _ _ _ _ _ GE X); contradiction|exact (H n' e' I X)]. }
    split.
    + intros n' e' [<-|I] X.
      * destruct (good_unique _ _ _ _ _ GE X) as [-> ->]. destruct DEC as [(n2 & e2 & I2 & X2)|H].
        -- rewrite (K1 n2 e2 I2 X2).
           (* one key has one name *)
           destruct X as (L1 & (a & b & S1 & N1 & _) & _), X2 as (L2 & (a2 & b2 & S2 & N2 & _) & _).
           rewrite S1 in S2. injection S2 as <- <-. rewrite <- N1 in N2. subst n2. rewrite L1 in L2. injection L2 as ->. reflexivity.
        -- rewrite (K2 H), P1, bytes_eqb_refl. reflexivity.
      * exact (K1 n' e' I X).
    + intros H. rewrite K2 by (intros n' e' I; apply H; right; exact I). rewrite P1.
      destruct (bytes_eqb k fk) eqn:B; [|reflexivity]. apply bytes_eqb_spec in B. subst k. exfalso. exact (H n e (or_introl eq_refl) GE).
Qed.
End RestoreKv.

(* ---------- one database ---------- *)
Definition no_nan (s : Kv.kst) : Prop := forall k e, Kv.kv_get s k = Some e -> KvSpec.is_nan (Kv.e_val e) = false.
Definition kv_empty (s : Kv.kst) : Prop := KvSim.rel s (fun _ => None).
Lemma kv_open_empty p now : kv_empty (Kv.kv_open p now []).
Proof.
  split; [apply KvProofs.kinv_open, wf_nil|]. split; [|split]; intros k; reflexivity || exact I.
Qed.
(* a database that can be backed up without losing anything *)
Record backupable (sc : schema) (d : dbase) : Prop := {
  bk_env : env_ok (sc_env sc);
  bk_reach : reach (sc_env sc) (b_docs d);
  bk_kv : PropKv.reachable_kv (b_kv d);
  bk_nan : no_nan (b_kv d);
  bk_ids : docs_nameable sc d;
  bk_keys : kv_nameable d;
  bk_colls : sc_colls sc <> [];
  bk_reserved : ~ In kv_container (sc_colls sc) }.
Definition contents_at (d : dbase) (c id : bytes) : option bytes := option_map d_contents (doc_at (b_docs d) c id).
Definition kv_at (d : dbase) (t : Kv.ts) (ns : option bytes) (key : bytes) : option KvSpec.cell :=
  KvSpec.purge t (KvSim.abs (b_kv d)) (Kv.full_key ns key).
(* the restored database shows the same: documents, and entries from the time the restore is over *)
Definition same_data (adm : bytes) (sc : schema) (clock : nat -> Kv.ts) (src dst : dbase) : Prop :=
  (forall c id, In c (sc_colls sc) -> c <> adm -> contents_at dst c id = contents_at src c id) /\
  (forall t ns key, (forall i, Kv.ts_leb (clock i) t = true) -> kv_at dst t ns key = kv_at src t ns key).

Section OneDatabase.
Context (ord : list bytes -> list bytes) (adm : bytes) (sc : schema) (name : bytes) (src : dbase) (l l' : location) (clock : nat -> Kv.ts).
Hypothesis ord_ok : any_order ord.
Hypothesis BK : backupable sc src.
Hypothesis nothing : forall k, l_schema k = sc_name sc -> l_db k = name -> load l k = None.
Hypothesis held : forall k, l_schema k = sc_name sc -> l_db k = name -> load l' k = load (backup_database sc name src l) k.

Lemma bk_docs_ok c : docs_ok (w_docs (db_work (b_docs src)) c).
Proof. destruct BK as [EO R _ _ _ _ _ _]. pose proof (reach_ok _ _ EO R) as [D _]. apply D. Qed.
Lemma bk_kv_rel : KvSim.rel (b_kv src) (KvSim.abs (b_kv src)).
Proof. apply PropKv.reachable_rel, BK. Qed.
Lemma bk_kinv : KvProofs.kinv (b_kv src). Proof. apply bk_kv_rel. Qed.

Lemma tx_spec : exists ops, restore_tx ord adm l' (sc_name sc) name (sc_colls sc) = Done ops /\
  (forall o, In o ops <-> exists c id b, In c (sc_colls sc) /\ c <> adm /\ contents_at src c id = Some b /\ o = mk_op c (Insert (Some id) b)) /\
  (unique_keys l' -> NoDup (sc_colls sc) -> NoDup ops).
Proof.
  apply (restore_tx_spec ord adm l' (sc_name sc) name ord_ok (sc_colls sc) (contents_at src)).
  - intros c n o I. rewrite (held_doc sc name src bk_docs_ok bk_kinv l l' nothing held (bk_ids _ _ BK) (bk_keys _ _ BK) (bk_reserved _ _ BK) c n o I).
    unfold contents_at. split.
    + intros (id & x & G & -> & ->). exists id, (d_contents x). rewrite G. auto.
    + intros (id & b & G & -> & ->). destruct (doc_at (b_docs src) c id) as [x|] eqn:E; [|discriminate]. injection G as <-. eauto.
  - intros c id b I G. unfold contents_at in G. destruct (doc_at (b_docs src) c id) as [x|] eqn:E; [|discriminate].
    destruct (bk_ids _ _ BK c id x I E) as (A & B & C). apply display_roundtrip; assumption.
Qed.

Lemma kv_spec (s : Kv.kst) : kv_empty s ->
  exists s', restore_kv l' (sc_name sc) name (ord (list_stored l' (sc_name sc) name kv_container)) clock s = Done s' /\
    forall t ns key, (forall i, Kv.ts_leb (clock i) t = true) ->
      KvSpec.purge t (KvSim.abs s') (Kv.full_key ns key) = kv_at src t ns key.
Proof.
  intros R.
  assert (A : forall n, In n (ord (list_stored l' (sc_name sc) name kv_container)) <->
    exists fk e, good_entry l' (sc_name sc) name n fk e /\ Kv.kv_get (b_kv src) fk = Some e).
  { intros n. rewrite (Permutation_in' (eq_refl n) (ord_ok _)), list_stored_In.
    assert (H : forall o, load l' (mk_lkey (sc_name sc) name kv_container n) = Some o <->
      exists fk e ns key, Kv.kv_get (b_kv src) fk = Some e /\ Kv.split_key fk = Some (ns, key) /\ n = kv_name ns key /\ o = KvEntry e).
    { intros o. apply (held_kv sc name src bk_docs_ok bk_kinv l l' nothing held (bk_ids _ _ BK) (bk_keys _ _ BK) (bk_reserved _ _ BK)), BK. }
    split.
    - intros [o L]. pose proof L as L'. apply H in L. destruct L as (fk & e & ns & key & G & S & -> & ->). exists fk, e. split; [|exact G].
      split; [exact L'|]. split; [exists ns, key; split; [exact S|]; split; [reflexivity|apply (bk_keys _ _ BK _ _ _ _ G S)]|].
      split; [|apply (bk_nan _ _ BK _ _ G)]. destruct bk_kv_rel as (_ & _ & _ & V). specialize (V fk). unfold KvSim.abs in V. rewrite G in V. exact V.
    - intros (fk & e & (L & _) & _). eauto. }
  assert (NB : forall n, In n (ord (list_stored l' (sc_name sc) name kv_container)) -> exists fk e, good_entry l' (sc_name sc) name n fk e).
  { intros n I. apply A in I. destruct I as (fk & e & I & _). eauto. }
  assert (X : forall t, (forall i, Kv.ts_leb (clock i) t = true) -> exists s' m',
    restore_kv l' (sc_name sc) name (ord (list_stored l' (sc_name sc) name kv_container)) clock s = Done s' /\ KvSim.rel s' m' /\
    forall ns key, KvSpec.purge t m' (Kv.full_key ns key) = kv_at src t ns key).
  { intros t B. destruct (restore_kv_spec l' (sc_name sc) name clock t B _ s _ R NB) as (s' & m' & E & R' & K). exists s', m'.
    split; [exact E|]. split; [exact R'|]. intros ns key. unfold kv_at. destruct (K (Kv.full_key ns key)) as [K1 K2].
    destruct (Kv.kv_get (b_kv src) (Kv.full_key ns key)) as [e|] eqn:G.
    - destruct (split_full ns key) as (ns' & key' & S).
      assert (L : load l' (mk_lkey (sc_name sc) name kv_container (kv_name ns' key')) = Some (KvEntry e)).
      { apply (held_kv sc name src bk_docs_ok bk_kinv l l' nothing held (bk_ids _ _ BK) (bk_keys _ _ BK) (bk_reserved _ _ BK)); [apply BK|].
        exists (Kv.full_key ns key), e, ns', key'. auto. }
      assert (I : In (kv_name ns' key') (ord (list_stored l' (sc_name sc) name kv_container))).
      { rewrite (Permutation_in' eq_refl (ord_ok _)), list_stored_In. eauto. }
      pose proof I as I'. apply A in I. destruct I as (fk & e' & GE & G').
      pose proof GE as (L2 & (a & b & S2 & N2 & F2) & _). rewrite L in L2. injection L2 as <-.
      assert (fk = Kv.full_key ns key) as ->.
      { unfold kv_name in N2. pose proof (split_once_sep _ key' (bk_keys _ _ BK _ _ _ _ G S)) as R1. rewrite N2, (split_once_sep _ b F2) in R1.
        injection R1 as T ->. rewrite <- (split_key_full _ _ _ S2), <- (split_key_full _ _ _ S), <- (split_key_ns _ _ _ S2), <- (split_key_ns _ _ _ S), T. reflexivity. }
      rewrite (K1 _ e I' GE). unfold KvSpec.purge, KvSim.abs. rewrite G. reflexivity.
    - rewrite K2.
      + unfold KvSpec.purge, KvSim.abs. rewrite G. reflexivity.
      + intros n e I GE. apply A in I. destruct I as (fk & e' & GE' & G').
        destruct (good_unique _ _ _ _ _ _ _ _ GE GE') as [<- _]. congruence. }
  (* without a bound on the clock the restore still ends *)
  assert (T : exists s', restore_kv l' (sc_name sc) name (ord (list_stored l' (sc_name sc) name kv_container)) clock s = Done s').
  { clear X A. unfold kv_empty in R. revert s R NB. generalize (ord (list_stored l' (sc_name sc) name kv_container)). intros names s R. revert s R. generalize (fun _ : bytes => @None KvSpec.cell).
    induction names as [|n r IH]; intros m s R NB; [eexists; reflexivity|].
    destruct (NB n (or_introl eq_refl)) as (fk & e & L & (ns & key & S & E & F) & V & NN).
    assert (SO : split_once sep n = Some (ns_text ns, key)) by (rewrite E; apply split_once_sep, F).
    cbn [restore_kv]. rewrite SO, L, (split_key_ns _ _ _ S).
    pose proof (KvSim.step_sim s m (Kv.EOp ns key (restore_cmd e) (clock (length r))) R I V) as SS. cbn [Kv.step] in SS.
    destruct (Kv.perform s ns key (restore_cmd e) (clock (length r))) as [[res s1]|] eqn:P; [|destruct SS].
    cbn [KvSpec.spec_event restore_cmd KvSpec.spec_cmd Kv.s_val Kv.s_check Kv.s_keep Kv.s_exp Kv.s_ret] in SS. rewrite NN in SS. cbn [fst snd] in SS.
    destruct SS as [X R1]. injection X as <-. eapply IH; [exact R1|]. intros n' J. apply NB. right. exact J. }
  destruct T as [s' T]. exists s'. split; [exact T|]. intros t ns key B. destruct (X t B) as (s2 & m' & E & R2 & K).
  rewrite T in E. injection E as <-. rewrite <- K. apply KvSim.purge_ext, R2.
Qed.

Lemma restored dst fresh : b_docs fresh = empty_db -> kv_empty (b_kv fresh) ->
  restore_database ord adm sc name l' clock fresh = Done dst -> same_data adm sc clock src dst.
Proof.
  intros FD FK H. unfold restore_database in H. destruct tx_spec as (ops & E & S & _). rewrite E in H. rewrite FD in H.
  destruct (apply_transaction (sc_env sc) (fun _ _ _ => true) empty_db ops) as [docs [rs|e|]] eqn:A; try discriminate.
  destruct (kv_spec (b_kv fresh) FK) as (s' & E' & K). rewrite E' in H. injection H as <-. split.
  - intros c id I NA. unfold contents_at at 1. cbn [b_docs].
    assert (D : does_all (ev_hash (sc_env sc)) (docs_of empty_db) ops (docs_of docs) rs).
    { eapply apply_does; [apply BK| |exact A]. apply empty_ok. }
    destruct (inserts_final _ _ _ _ _ D) as [F1 F2].
    { apply Forall_forall. intros o J. apply S in J. destruct J as (c' & i & b & _ & _ & _ & ->). exists i, b. reflexivity. }
    change (doc_at docs c id) with (docs_of docs c id).
    destruct (contents_at src c id) as [b|] eqn:G.
    + rewrite (F1 c id b); [reflexivity|]. apply S. exists c, id, b. auto.
    + rewrite F2; [reflexivity|]. intros b J. apply S in J. destruct J as (c' & i & b' & _ & _ & G' & X). injection X as -> -> ->. congruence.
  - intros t ns key B. unfold kv_at at 1. cbn [b_kv]. apply K, B.
Qed.

(* with lazy views only, nothing can go wrong *)
Lemma no_eager vs : (forall v, In v vs -> is_eager (vd_policy (vw_def v)) = false) -> forall c id w, update_eager vs c id w = Done w.
Proof.
  intros H c id w. induction vs as [|v vs IH]; [reflexivity|]. cbn [update_eager]. rewrite (H v (or_introl eq_refl)), andb_false_r.
  apply IH. intros u I. apply H. right. exact I.
Qed.
Lemma record_known ch c id del : In c (ch_colls ch) -> exists ch', record_change ch c id del = Done ch' /\ ch_colls ch' = ch_colls ch.
Proof.
  intros I. unfold record_change. assert (A : forall i, exists j, index_of c (ch_colls ch) i = Some j).
  { induction (ch_colls ch) as [|x r IH]; intros i; [destruct I|]. cbn [index_of]. destruct (bytes_eqb c x) eqn:B; [eauto|].
    destruct I as [->|I]; [rewrite bytes_eqb_refl in B; discriminate|apply IH, I]. }
  destruct (A 0) as [j ->]. eexists. split; reflexivity.
Qed.
Lemma run_inserts E (colls : list bytes) : (forall v, In v (ev_views E) -> is_eager (vd_policy (vw_def v)) = false) ->
  N.of_nat (length colls) <= 65536 ->
  forall (ops : list operation) w ch rs, 
  (forall o, In o ops -> exists c id b, o = mk_op c (Insert (Some id) b) /\ In c colls /\ t_get id (w_docs w c) = None) ->
  NoDup (map (fun o => (op_coll o, match op_cmd o with Insert i _ => i | _ => None end)) ops) ->
  incl (ch_colls ch) colls -> NoDup (ch_colls ch) ->
  exists w' ch' rs', run_ops E ops w ch rs = Done (w', ch', rs').
Proof.
  intros NE LE. induction ops as [|o ops IH]; intros w ch rs A ND IC NC; [eexists _, _, _; reflexivity|].
  destruct (A o (or_introl eq_refl)) as (c & id & b & -> & Ic & G). cbn [run_ops exec_op op_cmd op_coll]. unfold exec_insert. rewrite G.
  unfold finish. rewrite (no_eager _ NE). cbn [record_result d_header new_doc h_id].
  cbn [map op_coll op_cmd] in ND. inversion_clear ND as [|? ? N1 N2].
  assert (RC : exists ch', record_change ch c id false = Done ch' /\ incl (ch_colls ch') colls /\ NoDup (ch_colls ch')).
  { destruct (in_dec bytes_dec c (ch_colls ch)) as [I|I].
    - destruct (record_known ch c id false I) as (ch' & E1 & E2). exists ch'. rewrite E2. auto.
    - unfold record_change. assert (X : forall i, index_of c (ch_colls ch) i = None).
      { clear - I. induction (ch_colls ch) as [|x r IH]; intros i; [reflexivity|]. cbn [index_of]. destruct (bytes_eqb c x) eqn:B.
        - apply bytes_eqb_spec in B. exfalso. apply I. left. auto.
        - apply IH. intros J. apply I. right. exact J. }
      rewrite X. assert (L : (length (c :: ch_colls ch) <= length colls)%nat).
      { apply NoDup_incl_length; [constructor; assumption|]. intros x [<-|J]; auto. }
      cbn [length] in L. replace (N.of_nat (length (ch_colls ch)) <? 65536) with true by (symmetry; apply N.ltb_lt; lia).
      eexists. split; [reflexivity|]. cbn [ch_colls]. split.
      + intros x J. apply in_app_iff in J. destruct J as [J|[<-|[]]]; auto.
      + eapply Permutation_NoDup; [apply Permutation_cons_append|]. constructor; assumption. }
  destruct RC as (ch' & -> & IC' & NC'). apply IH; auto. intros o I. destruct (A o (or_intror I)) as (c' & id' & b' & -> & Ic' & G').
  exists c', id', b'. split; [reflexivity|]. split; [exact Ic'|]. cbn [set_docs w_docs]. unfold upd.
  destruct (bytes_eqb c' c) eqn:B; [|exact G']. apply bytes_eqb_spec in B. subst c'. rewrite get_set_other; [exact G'|].
  intros ->. apply N1. apply in_map_iff. exists (mk_op c (Insert (Some id) b')). split; [reflexivity|exact I].
Qed.
Lemma NoDup_map_on {A B} (f : A -> B) (xs : list A) : NoDup xs -> (forall x y, In x xs -> In y xs -> f x = f y -> x = y) -> NoDup (map f xs).
Proof.
  induction xs as [|x xs IH]; intros N H; [constructor|]. inversion_clear N as [|? ? N1 N2]. cbn [map]. constructor.
  - intros I. apply in_map_iff in I. destruct I as (y & E & I). apply N1.
    replace x with y; [exact I|]. apply H; [right; exact I|left; reflexivity|exact E].
  - apply IH; [exact N2|]. intros a b I J. apply H; right; assumption.
Qed.
Lemma restore_succeeds fresh : b_docs fresh = empty_db -> kv_empty (b_kv fresh) ->
  (forall v, In v (ev_views (sc_env sc)) -> is_eager (vd_policy (vw_def v)) = false) ->
  (forall c, In c (sc_colls sc) -> ev_pk (sc_env sc) c <> None) -> N.of_nat (length (sc_colls sc)) <= 65536 -> NoDup (sc_colls sc) ->
  unique_keys l' ->
  exists dst, restore_database ord adm sc name l' clock fresh = Done dst.
Proof.
  intros FD FK NE PK LE NC U. unfold restore_database. destruct tx_spec as (ops & E & S & ND). rewrite E, FD.
  destruct (kv_spec (b_kv fresh) FK) as (s' & E' & _). rewrite E'. unfold apply_transaction.
  replace (forallb (op_allowed (fun _ _ _ => true)) ops) with true.
  2: { symmetry. apply forallb_forall. intros o _. unfold op_allowed. destruct (op_cmd o); reflexivity. }
  unfold apply_to_roots. replace (colls_defined (sc_env sc) ops) with true.
  2: { symmetry. apply forallb_forall. intros o I. apply S in I. destruct I as (c & id & b & Ic & _ & _ & ->). cbn [op_coll].
       pose proof (PK c Ic) as P. destruct (ev_pk (sc_env sc) c); [reflexivity|contradiction]. }
  destruct (run_inserts (sc_env sc) (sc_colls sc) NE LE ops (db_work empty_db) (mk_changes [] []) []) as (w & ch & rs & R).
  - intros o I. apply S in I. destruct I as (c & id & b & Ic & _ & _ & ->). exists c, id, b. auto.
  - apply NoDup_map_on; [apply ND; assumption|]. intros x y I J. apply S in I, J.
    destruct I as (c & id & b & _ & _ & G & ->), J as (c' & id' & b' & _ & _ & G' & ->). cbn [op_coll op_cmd]. intros X. injection X as -> ->.
    rewrite G in G'. injection G' as ->. reflexivity.
  - intros x [].
  - constructor.
  - rewrite R. pose proof R as R'. apply run_ops_spec in R'; [|constructor]. destruct R' as (new & Y & St & W & C).
    assert (IV : exists w', invalidate (sc_env sc) ch w = Done w').
    { clear - W. unfold invalidate. unfold changes_wf in W. revert w. induction (ch_docs ch) as [|x r IH]; intros w; [eexists; reflexivity|].
      cbn [fold_left]. inversion_clear W as [|? ? W1 W2]. unfold inv_step at 2.
      destruct (change_coll ch x) as [c|]; [apply IH, W2|contradiction]. }
    destruct IV as [w' ->]. eexists. reflexivity.
Qed.
End OneDatabase.

(* ---------- the whole storage ---------- *)
Lemma load_store_all_ext ws : forall l1 l2 k, load l1 k = load l2 k -> load (store_all l1 ws) k = load (store_all l2 ws) k.
Proof.
  induction ws as [|[j o] ws IH]; intros l1 l2 k H; [exact H|]. unfold store_all. cbn [fold_left fst snd].
  apply (IH (store l1 j o) (store l2 j o)). rewrite !load_store, H. reflexivity.
Qed.
Definition db_fine (d : dbase) : Prop := (forall c, docs_ok (w_docs (db_work (b_docs d)) c)) /\ KvProofs.kinv (b_kv d).
Lemma backup_database_other sc n d l k : db_fine d -> l_db k <> n -> load (backup_database sc n d l) k = load l k.
Proof.
  intros [A B] NE. unfold backup_database. apply load_store_all. intros I. apply in_map_iff in I. destruct I as ([j o] & X & I).
  cbn [fst] in X. subst j. apply (db_writes_scope sc n d A B) in I. apply NE, I.
Qed.
Lemma backup_other s : forall l k, (forall n x, In (n, x) s -> db_fine (snd x)) -> ~ In (l_db k) (map fst s) -> load (backup s l) k = load l k.
Proof.
  induction s as [|[n [sc d]] s IH]; intros l k F N; [reflexivity|]. unfold backup. cbn [fold_left fst snd].
  change (load (backup s (backup_database sc n d l)) k = load l k). rewrite IH.
  - apply backup_database_other; [apply (F n (sc, d)); left; reflexivity|]. intros X. apply N. left. symmetry. exact X.
  - intros m x I. apply (F m x). right. exact I.
  - intros I. apply N. right. exact I.
Qed.
Lemma backup_load s : forall l k n sc d, (forall n x, In (n, x) s -> db_fine (snd x)) -> NoDup (map fst s) -> In (n, (sc, d)) s -> l_db k = n ->
  load (backup s l) k = load (backup_database sc n d l) k.
Proof.
  induction s as [|[m [sc' d']] s IH]; intros l k n sc d F ND I E; [destruct I|]. cbn [map fst] in ND. inversion_clear ND as [|? ? N1 N2].
  assert (F' : forall n x, In (n, x) s -> db_fine (snd x)) by (intros a x J; apply (F a x); right; exact J).
  unfold backup. cbn [fold_left fst snd]. change (load (backup s (backup_database sc' m d' l)) k = load (backup_database sc n d l) k).
  destruct I as [I|I].
  - injection I as -> -> ->. apply backup_other; [exact F'|]. rewrite E. exact N1.
  - rewrite (IH _ k n sc d F' N2 I E). apply load_store_all_ext. apply backup_database_other; [apply (F m (sc', d')); left; reflexivity|].
    intros X. apply N1. rewrite <- X, E. apply in_map_iff. exists (n, (sc, d)). auto.
Qed.
Lemma unique_backup s : forall l, unique_keys l -> unique_keys (backup s l).
Proof. induction s as [|[m [sc' d']] s IH]; intros l U; [exact U|]. unfold backup. cbn [fold_left]. apply IH, unique_store_all, U. Qed.

Lemma find_set s n x m : find_db (set_db s n x) m = if bytes_eqb m n then Some x else find_db s m.
Proof.
  unfold find_db, set_db. cbn [find fst]. destruct (bytes_eqb m n) eqn:E; [reflexivity|]. apply bytes_eqb_neq in E. f_equal.
  induction s as [|[j y] s IH]; [reflexivity|]. cbn [filter find fst]. destruct (bytes_eqb n j) eqn:B; cbn [negb].
  - apply bytes_eqb_spec in B. subst j. rewrite IH. replace (bytes_eqb m n) with false; [reflexivity|]. symmetry. apply bytes_eqb_neq, E.
  - cbn [find fst]. rewrite IH. reflexivity.
Qed.

Section Whole.
Context (ord : list bytes -> list bytes) (adm : bytes) (registered : bytes -> option schema) (fresh : dbase) (l : location) (clock : bytes -> nat -> Kv.ts).
Hypothesis ord_ok : any_order ord.
Lemma restore_list_In sc n : In (sc, n) (restore_list ord l) <-> exists k o, load l k = Some o /\ l_schema k = sc /\ l_db k = n.
Proof.
  unfold restore_list. rewrite in_flat_map. split.
  - intros (x & A & B). apply in_map_iff in B. destruct B as (y & E & B). injection E as -> ->.
    rewrite (Permutation_in' eq_refl (ord_ok _)) in B. unfold list_databases in B. rewrite nodup_In, in_map_iff in B.
    destruct B as ([k o] & E & B). apply filter_In in B. destruct B as [B C]. cbn [fst] in *. apply bytes_eqb_spec in C.
    assert (J : In k (map fst l)) by (apply in_map_iff; exists (k, o); auto). apply load_some in J. destruct J as [o' J].
    exists k, o'. auto.
  - intros (k & o & L & <- & <-). apply load_In in L. exists (l_schema k). split.
    + rewrite (Permutation_in' eq_refl (ord_ok _)). unfold list_schemas. rewrite nodup_In. apply in_map_iff. exists (k, o). auto.
    + apply in_map. rewrite (Permutation_in' eq_refl (ord_ok _)). unfold list_databases. rewrite nodup_In. apply in_map_iff. exists (k, o).
      split; [reflexivity|]. apply filter_In. split; [exact L|]. apply bytes_eqb_refl.
Qed.
Lemma restore_list_NoDup : NoDup (restore_list ord l).
Proof.
  unfold restore_list.
  assert (A : NoDup (ord (list_schemas l))) by (eapply Permutation_NoDup; [symmetry; apply ord_ok|apply NoDup_nodup]).
  assert (B : forall sc, NoDup (ord (list_databases l sc))) by (intros sc; eapply Permutation_NoDup; [symmetry; apply ord_ok|apply NoDup_nodup]).
  induction (ord (list_schemas l)) as [|sc r IH]; [constructor|]. cbn [flat_map]. inversion_clear A as [|? ? A1 A2].
  assert (G : forall (l1 l2 : list (bytes * bytes)), NoDup l1 -> NoDup l2 -> (forall x, In x l1 -> ~ In x l2) -> NoDup (l1 ++ l2)).
  { clear. induction l1 as [|x l1 IH]; intros l2 A B C; [exact B|]. inversion_clear A as [|? ? A1 A2]. cbn [app]. constructor.
    - rewrite in_app_iff. intros [I|I]; [contradiction|]. exact (C x (or_introl eq_refl) I).
    - apply IH; auto. intros y I. apply C. right. exact I. }
  apply G; [|apply IH, A2|].
  - apply NoDup_map_on; [apply B|]. intros x y _ _ E. congruence.
  - intros [a b] I J. apply in_map_iff in I. destruct I as (y & E & _). injection E as <- <-. apply in_flat_map in J.
    destruct J as (s' & J1 & J2). apply in_map_iff in J2. destruct J2 as (y' & E & _). injection E as -> _. contradiction.
Qed.
Lemma restore_stuck ws : forall o, (forall s, o <> Done s) -> forall s, fold_left (restore_one ord adm registered fresh l clock) ws o <> Done s.
Proof.
  induction ws as [|w ws IH]; intros o H s; [apply H|]. cbn [fold_left]. apply IH. intros s'. unfold restore_one. destruct o as [s1|e|]; [|discriminate|discriminate].
  exfalso. exact (H s1 eq_refl).
Qed.
Lemma restore_loop ws : forall s s', NoDup (map snd ws) -> fold_left (restore_one ord adm registered fresh l clock) ws (Done s) = Done s' ->
  (forall n, ~ In n (map snd ws) -> find_db s' n = find_db s n) /\
  (forall sc n, In (sc, n) ws -> exists x d d', (find_db s n = Some (x, d) \/ (find_db s n = None /\ registered sc = Some x /\ d = fresh)) /\
     restore_database ord adm x n l (clock n) d = Done d' /\ find_db s' n = Some (x, d')).
Proof.
  induction ws as [|[sc n] ws IH]; intros s s' ND H.
  - injection H as <-. split; [reflexivity|]. intros sc n [].
  - cbn [map snd] in ND. inversion_clear ND as [|? ? N1 N2]. cbn [fold_left] in H.
    destruct (restore_one ord adm registered fresh l clock (Done s) (sc, n)) as [s1|e|] eqn:O;
      [|exfalso; revert H; apply restore_stuck; discriminate|exfalso; revert H; apply restore_stuck; discriminate].
    destruct (IH s1 s' N2 H) as [A B].
    assert (O' : exists x d d', (find_db s n = Some (x, d) \/ (find_db s n = None /\ registered sc = Some x /\ d = fresh)) /\
       restore_database ord adm x n l (clock n) d = Done d' /\ forall m, find_db s1 m = if bytes_eqb m n then Some (x, d') else find_db s m).
    { unfold restore_one in O. cbn [fst snd] in O. unfold create_if_needed in O.
      destruct (find_db s n) as [[x d]|] eqn:FD.
      - rewrite FD in O. destruct (restore_database ord adm x n l (clock n) d) as [d'|e|] eqn:R; try discriminate. injection O as <-.
        exists x, d, d'. split; [left; reflexivity|]. split; [exact R|]. intros m. apply find_set.
      - destruct (registered sc) as [x|]; [|discriminate]. rewrite find_set, bytes_eqb_refl in O.
        destruct (restore_database ord adm x n l (clock n) fresh) as [d'|e|] eqn:R; try discriminate. injection O as <-.
        exists x, fresh, d'. split; [right; auto|]. split; [exact R|]. intros m. rewrite find_set, find_set. destruct (bytes_eqb m n); reflexivity. }
    destruct O' as (x & d & d' & C & R & F1). split.
    + intros m N. rewrite A by (intros J; apply N; right; exact J). rewrite F1. replace (bytes_eqb m n) with false; [reflexivity|].
      symmetry. apply bytes_eqb_neq. intros ->. apply N. left. reflexivity.
    + intros sc' m [I|I].
      * injection I as <- <-. exists x, d, d'. split; [exact C|]. split; [exact R|]. rewrite A by exact N1. rewrite F1, bytes_eqb_refl. reflexivity.
      * destruct (B sc' m I) as (x2 & d2 & d2' & C2 & R2 & F2). exists x2, d2, d2'. split; [|auto].
        rewrite F1 in C2. replace (bytes_eqb m n) with false in C2; [exact C2|]. symmetry. apply bytes_eqb_neq. intros ->. apply N1.
        apply in_map_iff. exists (sc', n). auto.
Qed.
End Whole.

Section WholeBackup.
Context (ord : list bytes -> list bytes) (adm : bytes) (registered : bytes -> option schema) (fresh : dbase) (clock : bytes -> nat -> Kv.ts) (src s0 : storage).
Hypothesis ord_ok : any_order ord.
Hypothesis names : NoDup (map fst src).
Hypothesis fine : forall n sc d, In (n, (sc, d)) src -> backupable sc d /\ registered (sc_name sc) = Some sc.
Hypothesis fresh_docs : b_docs fresh = empty_db.
Hypothesis fresh_kv : kv_empty (b_kv fresh).
(* the storage restored into has no data yet, and its databases have the schema they had *)
Hypothesis before : forall n sc d, find_db s0 n = Some (sc, d) -> b_docs d = empty_db /\ kv_empty (b_kv d) /\
  forall sc' d', In (n, (sc', d')) src -> sc = sc'.

Lemma src_fine n x : In (n, x) src -> db_fine (snd x).
Proof.
  destruct x as [sc d]. intros I. destruct (fine n sc d I) as [B _]. split.
  - intros c. apply (bk_docs_ok sc d B).
  - apply (bk_kinv sc d B).
Qed.
Lemma src_unique n x y : In (n, x) src -> In (n, y) src -> x = y.
Proof.
  clear -names. induction src as [|[m z] s IH]; intros A B; [destruct A|]. cbn [map fst] in names. inversion_clear names as [|? ? N1 N2].
  destruct A as [A|A], B as [B|B].
  - congruence.
  - injection A as -> _. exfalso. apply N1. apply in_map_iff. exists (n, y). auto.
  - injection B as -> _. exfalso. apply N1. apply in_map_iff. exists (n, x). auto.
  - apply IH; assumption.
Qed.
Lemma written k o : load (backup src []) k = Some o -> exists sc d, In (l_db k, (sc, d)) src /\ l_schema k = sc_name sc.
Proof.
  intros L. destruct (in_dec bytes_dec (l_db k) (map fst src)) as [I|I].
  - apply in_map_iff in I. destruct I as ([n [sc d]] & E & I). cbn [fst] in E. subst n. exists sc, d. split; [exact I|].
    rewrite (backup_load src [] k (l_db k) sc d src_fine names I eq_refl) in L. unfold backup_database in L.
    destruct (in_dec lkey_dec k (map fst (db_writes sc (l_db k) d))) as [J|J].
    + apply in_map_iff in J. destruct J as ([j p] & X & J). cbn [fst] in X. rewrite X in J. 
      pose proof (src_fine _ _ I) as [A B]. apply (db_writes_scope sc (l_db k) d A B) in J. apply J.
    + rewrite load_store_all in L by exact J. discriminate.
  - rewrite backup_other in L; [discriminate|exact src_fine|exact I].
Qed.
Lemma restore_whole dst : restore ord adm registered fresh (backup src []) clock s0 = Done dst ->
  (forall n sc d, In (n, (sc, d)) src -> db_writes sc n d <> [] ->
     exists d', find_db dst n = Some (sc, d') /\ same_data adm sc (clock n) d d') /\
  (forall n, (forall sc d, In (n, (sc, d)) src -> db_writes sc n d = []) -> find_db dst n = find_db s0 n).
Proof.
  intros H. unfold restore in H. set (l := backup src []) in *.
  assert (ND : NoDup (map snd (restore_list ord l))).
  { apply NoDup_map_on; [apply restore_list_NoDup, ord_ok|]. intros [a n] [b m] I J E. cbn [snd] in E. subst m.
    apply (restore_list_In ord l ord_ok) in I, J. destruct I as (k & o & L & <- & E1), J as (k' & o' & L' & <- & E2).
    destruct (written k o L) as (sc & d & I & ->), (written k' o' L') as (sc' & d' & I' & ->). rewrite E1 in I. rewrite E2 in I'.
    pose proof (src_unique _ _ _ I I') as X. injection X as -> ->. reflexivity. }
  destruct (restore_loop ord adm registered fresh l clock _ s0 dst ND H) as [A B]. split.
  - intros n sc d I W. assert (J : In (sc_name sc, n) (restore_list ord l)).
    { destruct (db_writes sc n d) as [|[k o] r] eqn:WE; [contradiction|]. pose proof (src_fine _ _ I) as [F1 F2].
      assert (J : In (k, o) (db_writes sc n d)) by (rewrite WE; left; reflexivity).
      pose proof (db_writes_scope sc n d F1 F2 k o J) as [S1 S2]. apply (restore_list_In ord l ord_ok). exists k, o. split; [|auto].
      unfold l. rewrite (backup_load src [] k n sc d src_fine names I S2). apply load_store_all_in; [|exact J].
      destruct (fine n sc d I) as [BK _]. apply writes_functional; try assumption; apply BK. }
    destruct (B _ _ J) as (x & d0 & d' & C & R & F). destruct (fine n sc d I) as [BK RG].
    assert (X : x = sc /\ b_docs d0 = empty_db /\ kv_empty (b_kv d0)).
    { destruct C as [C|(C & C2 & ->)].
      - destruct (before n x d0 C) as (Q1 & Q2 & Q3). split; [apply (Q3 sc d I)|auto].
      - rewrite RG in C2. injection C2 as <-. auto. }
    destruct X as (-> & X1 & X2). exists d'. split; [exact F|].
    apply (restored ord adm sc n d [] l (clock n) ord_ok BK) with (fresh := d0); auto.
    intros k S1 S2. unfold l. apply backup_load; auto. exact src_fine.
  - intros n E. apply A. intros I. apply in_map_iff in I. destruct I as ([a m] & X & I). cbn [snd] in X. subst m.
    apply (restore_list_In ord l ord_ok) in I. destruct I as (k & o & L & <- & <-).
    destruct (written k o L) as (sc & d & I & S). unfold l in L. rewrite (backup_load src [] k _ sc d src_fine names I eq_refl) in L.
    unfold backup_database in L. rewrite (E sc d I) in L. discriminate.
Qed.
End WholeBackup.

(* values that a database has stored through its operations are never NaN *)
Definition no_nan_map (m : KvSpec.kmap) : Prop := forall k c, m k = Some c -> KvSpec.is_nan (fst c) = false.
Lemma spec_cmd_no_nan c cur : (forall x, cur = Some x -> KvSpec.is_nan (fst x) = false) ->
  forall x, snd (KvSpec.spec_cmd c cur) = Some x -> KvSpec.is_nan (fst x) = false.
Proof.
  intros H x. destruct c as [sc|[]| |a sat|a sat]; cbn [KvSpec.spec_cmd snd]; try discriminate; auto.
  - destruct (KvSpec.is_nan (Kv.s_val sc)) eqn:E; [apply H|]. destruct (match Kv.s_check sc with Some Kv.OnlyIfPresent => _ | Some Kv.OnlyIfVacant => _ | None => false end); [apply H|].
    cbn [snd]. intros X. injection X as <-. exact E.
  - unfold KvSpec.spec_arith. destruct (fst _); [apply H|]. destruct (KvSpec.is_nan _) eqn:E; [apply H|]. cbn [snd]. intros X. injection X as <-. exact E.
  - unfold KvSpec.spec_arith. destruct (fst _); [apply H|]. destruct (KvSpec.is_nan _) eqn:E; [apply H|]. cbn [snd]. intros X. injection X as <-. exact E.
Qed.
Lemma purge_no_nan t m : no_nan_map m -> no_nan_map (KvSpec.purge t m).
Proof. intros H k c. unfold KvSpec.purge. destruct (m k) eqn:E; [|discriminate]. destruct (KvSpec.expired t _); [discriminate|]. intros X. injection X as <-. apply (H _ _ E). Qed.
Lemma spec_run_no_nan es : forall m, no_nan_map m -> no_nan_map (snd (KvSpec.spec_run m es)).
Proof.
  induction es as [|e es IH]; intros m H; [exact H|]. cbn [KvSpec.spec_run]. destruct (KvSpec.spec_event m e) as [o m1] eqn:E.
  assert (H1 : no_nan_map m1).
  { destruct e as [ns key c now|now| | | |now|lch|]; cbn [KvSpec.spec_event] in E; try (injection E as _ <-; exact H).
    - destruct (KvSpec.spec_cmd c (KvSpec.purge now m (Kv.full_key ns key))) as [r cell] eqn:C. injection E as _ <-. intros k x. unfold KvSpec.put.
      destruct (bytes_eqb k (Kv.full_key ns key)); [|apply purge_no_nan, H]. intros X. apply (spec_cmd_no_nan c (KvSpec.purge now m (Kv.full_key ns key))).
      + intros y. apply purge_no_nan, H.
      + rewrite C. exact X.
    - injection E as _ <-. apply purge_no_nan, H. }
  specialize (IH m1 H1). destruct (KvSpec.spec_run m1 es). exact IH.
Qed.
Lemma fresh_no_nan p now es rs s : Forall KvSpec.no_loader es -> Forall KvSpec.event_ok es ->
  Kv.run (Kv.kv_open p now []) es = Some (rs, s) -> PropKv.reachable_kv s /\ no_nan s.
Proof.
  intros NL OK R. split.
  - exists p, now, now, [], es, (Kv.kv_open p now []), rs. split; [|auto]. split; [split; [exact wf_nil|discriminate]|discriminate].
  - destruct (KvSim.run_sim _ _ es (kv_open_empty p now) NL OK) as (rs' & s' & R' & _ & RL). rewrite R in R'. injection R' as <- <-.
    intros k e G. assert (X : snd (KvSpec.spec_run (fun _ => None) es) k = Some (KvSpec.cell_of e)).
    { destruct RL as (_ & _ & A & _). rewrite <- A. unfold KvSim.abs. rewrite G. reflexivity. }
    apply spec_run_no_nan in X; [exact X|]. intros j c Y. discriminate.
Qed.
