(* Property theorems C51: restoring a backup.
   [backupable sc d] (BackupProofs.v): d is a database some history of operations
   leads to; document ids survive their textual form; no key-value namespace contains
   "._key._" (also not together with the separator that follows it); the schema has a
   collection. [same_data] (BackupProofs.v): the same contents for every collection
   (except the list of databases) and id, and from the end of the restore on the
   same key-value entries, with their expirations.
   any_order ord: a location may list names in any order. *)
From Verif Require Import Base Key KeyPrefix DocId Tree View ViewProofs ViewMap Docs DocsProofs DocsSpec DocsMore Databases DatabasesProofs Backup BackupProofs BackupPath.
From Verif Require Kv KvSpec KvSim PropKv.
From Coq Require Import Sorting.Permutation.
Local Open Scope N_scope.

(* One database, in a location that holds nothing of that database yet. *)
Theorem C51_database : forall ord adm sc name src l clock fresh dst,
  any_order ord -> backupable sc src ->
  (forall k, l_schema k = sc_name sc -> l_db k = name -> load l k = None) ->
  b_docs fresh = empty_db -> kv_empty (b_kv fresh) ->
  restore_database ord adm sc name (backup_database sc name src l) clock fresh = Done dst ->
  same_data adm sc clock src dst.
Proof. intros. eapply restored; eauto. Qed.
(* Restoring into an empty database cannot fail unless an eager view refuses a document. *)
Theorem C51_succeeds : forall ord adm sc name src l clock fresh,
  any_order ord -> backupable sc src -> unique_keys l ->
  (forall k, l_schema k = sc_name sc -> l_db k = name -> load l k = None) ->
  b_docs fresh = empty_db -> kv_empty (b_kv fresh) ->
  (forall v, In v (ev_views (sc_env sc)) -> is_eager (vd_policy (vw_def v)) = false) ->
  (forall c, In c (sc_colls sc) -> ev_pk (sc_env sc) c <> None) -> N.of_nat (length (sc_colls sc)) <= 65536 -> NoDup (sc_colls sc) ->
  exists dst, restore_database ord adm sc name (backup_database sc name src l) clock fresh = Done dst.
Proof. intros. eapply restore_succeeds; eauto. apply unique_store_all. assumption. Qed.
(* The whole storage: every database for which anything was stored is there again with
   its schema and data; no other database changes or appears. *)
Theorem C51_storage : forall ord adm registered fresh clock src s0 dst,
  any_order ord -> NoDup (map fst src) ->
  (forall n sc d, In (n, (sc, d)) src -> backupable sc d /\ registered (sc_name sc) = Some sc) ->
  b_docs fresh = empty_db -> kv_empty (b_kv fresh) ->
  (forall n sc d, find_db s0 n = Some (sc, d) -> b_docs d = empty_db /\ kv_empty (b_kv d) /\
     forall sc' d', In (n, (sc', d')) src -> sc = sc') ->
  restore ord adm registered fresh (backup src []) clock s0 = Done dst ->
  (forall n sc d, In (n, (sc, d)) src -> db_writes sc n d <> [] ->
     exists d', find_db dst n = Some (sc, d') /\ same_data adm sc (clock n) d d') /\
  (forall n, (forall sc d, In (n, (sc, d)) src -> db_writes sc n d = []) -> find_db dst n = find_db s0 n).
Proof. intros. eapply restore_whole; eauto. Qed.
(* A folder keeps the contract of a location for names that can be file names: storing
   succeeds, and afterwards everything is listed and loaded as stored. *)
Theorem C51_folder : forall base ws, Forall (fun w => safe (fst w)) ws ->
  (forall w, In w ws -> canonical (l_schema (fst w))) ->
  let l := store_all [] ws in
  exists f, store_all_fs base (mk_fs [] []) ws = Some f /\
    (forall k, safe k -> load_fs base f k = load l k) /\
    (forall sc db c, file_name sc -> file_name db -> file_name c -> Permutation (list_stored_fs base f sc db c) (list_stored l sc db c)) /\
    (forall sc, file_name sc -> ~ In kv_container (list_databases l sc) -> Permutation (list_databases_fs base f sc) (list_databases l sc)) /\
    Permutation (list_schemas_fs base f) (list_schemas l) /\
    (forall p o, In (p, o) (f_files f) -> under base p = true).
Proof.
  intros base ws F C l. destruct (mirrors_all base ws [] _ (mirrors_empty base) F) as (f & E & M). exists f. split; [exact E|].
  assert (U : unique_keys l) by (apply unique_store_all; constructor).
  split; [intros k; apply mirrors_load, M|]. split; [|split; [|split]].
  - intros sc db c A B D. destruct (mirrors_list base l f sc db c M A B D) as [N1 N2].
    apply NoDup_Permutation; [exact N1|apply list_stored_NoDup, U|exact N2].
  - intros sc A N. destruct (mirrors_dbs base l f sc M A) as [N1 N2]. apply NoDup_Permutation; [exact N1|apply NoDup_nodup|].
    intros n. rewrite N2. split; [tauto|]. intros I. split; [exact I|]. intros ->. contradiction.
  - destruct (mirrors_schemas base l f M) as [N1 N2]; [|apply NoDup_Permutation; [exact N1|apply NoDup_nodup|exact N2]].
    intros k o L. destruct (in_dec lkey_dec k (map fst ws)) as [I|I].
    + apply in_map_iff in I. destruct I as (w & <- & I). apply C, I.
    + unfold l in L. rewrite load_store_all in L by exact I. discriminate.
  - destruct M as (_ & M2 & _). intros p o I. destruct (M2 p o I) as (k & _ & ->). apply under_spec. exists [l_schema k; l_db k; l_cont k; l_name k]. reflexivity.
Qed.

(* ---------- an example ---------- *)
Definition ex_hash (b : bytes) : bytes := 9 :: b.
Definition ex_env : env := mk_env ex_hash (fun c => if bytes_eqb c [97; 46; 99] then Some (TU 1) else None) [].
Definition ex_schema : schema := mk_schema [97; 46; 98] [[97; 46; 99]] ex_env. (* "a.b", collection "a.c" *)
Definition ex_docs (ops : list operation) : dbstate := fst (apply_transaction ex_env everyone empty_db ops).
Definition at_time (s : N) : Kv.ts := Kv.Ts s 0.
Definition ex_set (ns : option bytes) (key v : bytes) (x : option Kv.ts) : Kv.event :=
  Kv.EOp ns key (Kv.CSet (Kv.SetCmd (Kv.VBytes v) x false None false)) (at_time 5).
Definition ex_fresh_kv : Kv.kst := Kv.kv_open Kv.PImmediate (at_time 1) [].
Definition ex_kv (es : list Kv.event) : Kv.kst := match Kv.run ex_fresh_kv es with Some (_, s) => s | None => ex_fresh_kv end.
Definition ex_fresh : dbase := mk_dbase empty_db ex_fresh_kv.
Definition ex_src : dbase :=
  mk_dbase (ex_docs [mk_op [97; 46; 99] (Insert (Some [17]) [1; 2]); mk_op [97; 46; 99] (Insert (Some [104; 105]) [3])])
           (ex_kv [ex_set None [107] [7] None; ex_set (Some [110]) [107] [8] (Some (at_time 100))]).
Definition ex_id (l : list bytes) : list bytes := l.
Definition ex_clock (_ : nat) : Kv.ts := at_time 50.
Definition ex_adm : bytes := [1].
Lemma ex_order : any_order ex_id. Proof. intros l. apply Permutation_refl. Qed.
Lemma ex_kv_ok es : Forall KvSpec.no_loader es -> Forall KvSpec.event_ok es -> PropKv.reachable_kv (ex_kv es) /\ no_nan (ex_kv es).
Proof.
  intros A B. unfold ex_kv, ex_fresh_kv. destruct (Kv.run (Kv.kv_open Kv.PImmediate (at_time 1) []) es) as [[rs s]|] eqn:E.
  - eapply fresh_no_nan; eassumption.
  - apply (fresh_no_nan Kv.PImmediate (at_time 1) [] [] _); [constructor|constructor|reflexivity].
Qed.
Lemma sep_free_dec ns : split_once sep (ns ++ removelast sep) = None -> sep_free ns.
Proof.
  unfold sep_free. generalize (ns ++ removelast sep). intros s H a b E. revert s H E. induction a as [|c a IH]; intros s H E.
  - cbn [app] in E. assert (S : starts_with sep s = true) by (apply starts_with_spec; exists b; exact E).
    destruct s; cbn [split_once] in H; rewrite S in H; discriminate.
  - destruct s as [|x s]; [discriminate|]. cbn [app] in E. injection E as -> E. cbn [split_once] in H.
    destruct (starts_with sep (c :: s)); [discriminate|]. destruct (split_once sep s) as [[u v]|] eqn:S; [discriminate|]. exact (IH s S E).
Qed.
Lemma ex_backupable : backupable ex_schema ex_src.
Proof.
  assert (K : PropKv.reachable_kv (b_kv ex_src) /\ no_nan (b_kv ex_src)).
  { apply ex_kv_ok; repeat constructor. }
  constructor.
  - constructor.
  - apply reach_tx, reach_init.
  - apply K.
  - apply K.
  - intros c id x [<-|[]] G. unfold doc_at in G. apply get_In in G.
    assert (V : w_docs (db_work (b_docs ex_src)) [97; 46; 99] =
      [([17], mk_doc (mk_header [17] (mk_rev 0 [9; 1; 2])) [1; 2]); ([104; 105], mk_doc (mk_header [104; 105] (mk_rev 0 [9; 3])) [3])]) by (vm_compute; reflexivity).
    rewrite V in G. destruct G as [G|[G|[]]]; injection G as <- _; (split; [repeat constructor|split; [vm_compute; discriminate|]]); intros _ I; vm_compute in I; intuition discriminate.
  - intros ns key k e G S. assert (I : In (k, e) (Kv.all_entries (b_kv ex_src))).
    { apply get_In. rewrite KvProofs.get_all_entries; [exact G|]. apply PropKv.reachable_rel, K. }
    assert (V : map fst (Kv.all_entries (b_kv ex_src)) = [[0; 107]; [110; 0; 107]]) by (vm_compute; reflexivity).
    apply (in_map fst) in I. rewrite V in I. destruct I as [I|[I|[]]]; cbn [fst] in I; subst k; vm_compute in S; injection S as <- <-;
      apply sep_free_dec; vm_compute; reflexivity.
  - discriminate.
  - intros [I|[]]. discriminate.
Qed.
Definition got {A E} (o : outcome A E) (x : A) : A := match o with Done a => a | _ => x end.
Definition ex_dst : dbase := match restore_database ex_id ex_adm ex_schema [100] (backup_database ex_schema [100] ex_src []) ex_clock ex_fresh with Done d => d | _ => ex_fresh end.
Example C51_database_example :
  restore_database ex_id ex_adm ex_schema [100] (backup_database ex_schema [100] ex_src []) ex_clock ex_fresh = Done ex_dst /\
  contents_at ex_dst [97; 46; 99] [17] = Some [1; 2] /\ contents_at ex_dst [97; 46; 99] [104; 105] = Some [3] /\
  kv_at ex_dst (at_time 60) (Some [110]) [107] = Some (Kv.VBytes [8], Some (at_time 100)) /\
  kv_at ex_dst (at_time 100) (Some [110]) [107] = None /\
  length (backup_database ex_schema [100] ex_src []) = 4%nat.
Proof. vm_compute. repeat split. Qed.
Example C51_succeeds_example : backupable ex_schema ex_src /\ unique_keys [] /\ NoDup (sc_colls ex_schema) /\
  (forall c, In c (sc_colls ex_schema) -> ev_pk (sc_env ex_schema) c <> None).
Proof. split; [exact ex_backupable|]. split; [constructor|]. split; [repeat constructor; intros []|]. intros c [<-|[]]. discriminate. Qed.
Definition ex_storage : Backup.storage := [([100], (ex_schema, ex_src)); ([101], (ex_schema, ex_src))].
Definition ex_registered (n : bytes) : option schema := if bytes_eqb n [97; 46; 98] then Some ex_schema else None.
Example C51_storage_example : exists dst,
  restore ex_id ex_adm ex_registered ex_fresh (backup ex_storage []) (fun _ => ex_clock) [] = Done dst /\
  map fst dst = [[100]; [101]] /\ NoDup (map fst ex_storage).
Proof.
  assert (H : match restore ex_id ex_adm ex_registered ex_fresh (backup ex_storage []) (fun _ => ex_clock) [] with Done d => map fst d | _ => [] end = [[100]; [101]]) by (vm_compute; reflexivity).
  destruct (restore ex_id ex_adm ex_registered ex_fresh (backup ex_storage []) (fun _ => ex_clock) []) as [dst|e|]; [|discriminate|discriminate].
  exists dst. split; [reflexivity|]. split; [exact H|]. repeat constructor; cbn; intuition discriminate. Qed.
Example C51_folder_example : exists f, store_all_fs [[116]] (mk_fs [] []) (db_writes ex_schema [100] ex_src) = Some f /\
  list_stored_fs [[116]] f [97; 46; 98] [100] [97; 46; 99] = [[104; 105]; [36; 49; 49]] /\
  list_databases_fs [[116]] f [97; 46; 98] = [[100]] /\ list_schemas_fs [[116]] f = [[97; 46; 98]].
Proof.
  exists (match store_all_fs [[116]] (mk_fs [] []) (db_writes ex_schema [100] ex_src) with Some f => f | None => mk_fs [] [] end).
  split; [vm_compute; reflexivity|]. vm_compute. repeat split. Qed.

(* ---------- where it goes wrong ---------- *)
(* The key-value entries of a database whose schema has no collections are not backed up. *)
Theorem C51_no_collections_refuted : exists sc src, sc_colls sc = [] /\ PropKv.reachable_kv (b_kv src) /\
  (exists e, Kv.kv_get (b_kv src) (Kv.full_key None [107]) = Some e) /\
  forall name l, backup_database sc name src l = l.
Proof.
  exists (mk_schema [97; 46; 98] [] ex_env), ex_src. split; [reflexivity|]. split; [apply ex_backupable|].
  split; [|reflexivity]. exists (Kv.Entry (Kv.VBytes [7]) None (at_time 5)). vm_compute. reflexivity.
Qed.
(* The ids [17] and "$11" have the same textual form: one of the documents is lost. *)
Definition ex_src_dollar : dbase :=
  mk_dbase (ex_docs [mk_op [97; 46; 99] (Insert (Some [17]) [1]); mk_op [97; 46; 99] (Insert (Some [36; 49; 49]) [2])]) ex_fresh_kv.
Theorem C51_dollar_refuted : exists dst,
  contents_at ex_src_dollar [97; 46; 99] [17] = Some [1] /\ contents_at ex_src_dollar [97; 46; 99] [36; 49; 49] = Some [2] /\
  restore_database ex_id ex_adm ex_schema [100] (backup_database ex_schema [100] ex_src_dollar []) ex_clock ex_fresh = Done dst /\
  contents_at dst [97; 46; 99] [17] = Some [2] /\ contents_at dst [97; 46; 99] [36; 49; 49] = None.
Proof.
  exists (got (restore_database ex_id ex_adm ex_schema [100] (backup_database ex_schema [100] ex_src_dollar []) ex_clock ex_fresh) ex_fresh).
  vm_compute. repeat split. Qed.
(* Key "k" of namespace "a._key" comes back as key "key._k" of namespace "a". *)
Definition ex_ns : bytes := [97; 46; 95; 107; 101; 121].
Definition ex_src_ns : dbase := mk_dbase empty_db (ex_kv [ex_set (Some ex_ns) [107] [7] None]).
Theorem C51_separator_refuted : exists dst,
  kv_at ex_src_ns (at_time 60) (Some ex_ns) [107] = Some (Kv.VBytes [7], None) /\
  restore_database ex_id ex_adm ex_schema [100] (backup_database ex_schema [100] ex_src_ns []) ex_clock ex_fresh = Done dst /\
  kv_at dst (at_time 60) (Some ex_ns) [107] = None /\
  kv_at dst (at_time 60) (Some [97]) [107; 101; 121; 46; 95; 107] = Some (Kv.VBytes [7], None).
Proof.
  exists (got (restore_database ex_id ex_adm ex_schema [100] (backup_database ex_schema [100] ex_src_ns []) ex_clock ex_fresh) ex_fresh).
  vm_compute. repeat split. Qed.
(* A database without documents and entries is not created again. *)
Theorem C51_empty_refuted : restore ex_id ex_adm ex_registered ex_fresh (backup [([100], (ex_schema, ex_fresh))] []) (fun _ => ex_clock) [] = Done [].
Proof. vm_compute. reflexivity. Qed.
(* Backing up again to the same location does not remove what was deleted in between:
   the document comes back. *)
Theorem C51_stale_refuted : exists dst,
  let l := backup_database ex_schema [100] ex_fresh (backup_database ex_schema [100] ex_src []) in
  contents_at ex_fresh [97; 46; 99] [17] = None /\
  restore_database ex_id ex_adm ex_schema [100] l ex_clock ex_fresh = Done dst /\ contents_at dst [97; 46; 99] [17] = Some [1; 2].
Proof.
  exists (got (restore_database ex_id ex_adm ex_schema [100] (backup_database ex_schema [100] ex_fresh (backup_database ex_schema [100] ex_src [])) ex_clock ex_fresh) ex_fresh).
  cbv zeta. split; [reflexivity|]. split; vm_compute; reflexivity. Qed.
(* In a folder: a key with a '/' cannot be stored, so the backup fails; a namespace
   beginning with '/' is written outside of the folder; so is a document whose id is
   "/x"; a database named "_kv" is not listed. *)
Definition ex_base : path := [[116]].
Definition ex_stored (k : lkey) : fs := match store_fs ex_base (mk_fs [] []) k (Contents []) with Some f => f | None => mk_fs [] [] end.
Theorem C51_folder_names_refuted :
  store_fs ex_base (mk_fs [] []) (mk_lkey [97; 46; 98] [100] kv_container (kv_name None [97; 47; 98])) (Contents []) = None /\
  (exists f, store_fs ex_base (mk_fs [] []) (mk_lkey [97; 46; 98] [100] kv_container (kv_name (Some [47; 120]) [107])) (Contents []) = Some f /\
     exists p, In (p, Contents []) (f_files f) /\ under ex_base p = false) /\
  (exists f, store_fs ex_base (mk_fs [] []) (mk_lkey [97; 46; 98] [100] [97; 46; 99] (display [47; 120])) (Contents []) = Some f /\
     exists p, In (p, Contents []) (f_files f) /\ under ex_base p = false) /\
  (exists f, store_fs ex_base (mk_fs [] []) (mk_lkey [97; 46; 98] kv_container [97; 46; 99] [120]) (Contents []) = Some f /\
     list_databases_fs ex_base f [97; 46; 98] = [] /\ validate_name kv_container = true).
Proof.
  split; [vm_compute; reflexivity|]. split; [|split].
  - exists (ex_stored (mk_lkey [97; 46; 98] [100] kv_container (kv_name (Some [47; 120]) [107]))). split; [vm_compute; reflexivity|].
    exists [kv_name (Some [120]) [107]]. split; [left; vm_compute; reflexivity|]. vm_compute. reflexivity.
  - exists (ex_stored (mk_lkey [97; 46; 98] [100] [97; 46; 99] (display [47; 120]))). split; [vm_compute; reflexivity|].
    exists [[120]]. split; [left; vm_compute; reflexivity|]. vm_compute. reflexivity.
  - exists (ex_stored (mk_lkey [97; 46; 98] kv_container [97; 46; 99] [120])). split; [vm_compute; reflexivity|]. split; vm_compute; reflexivity.
Qed.

Print Assumptions C51_database.
Print Assumptions C51_succeeds.
Print Assumptions C51_storage.
Print Assumptions C51_folder.
Print Assumptions C51_no_collections_refuted.
Print Assumptions C51_dollar_refuted.
Print Assumptions C51_separator_refuted.
Print Assumptions C51_empty_refuted.
Print Assumptions C51_stale_refuted.
Print Assumptions C51_folder_names_refuted.
