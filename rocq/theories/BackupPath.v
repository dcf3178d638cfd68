(* Model of the BackupLocation for a folder, backup.rs:252-446, and the proof that
   it keeps the contract of Backup.v for names that can be file names. *)
From Verif Require Import Base Tree Databases DatabasesProofs Backup BackupProofs.
From Verif Require Names.
Local Open Scope N_scope.

(* files and directories of a file system, by absolute path *)
Record fs := mk_fs { f_files : list (path * object); f_dirs : list path }.
Definition get_file (f : fs) (p : path) : option object := option_map snd (find (fun e => path_eqb p (fst e)) (f_files f)).
Definition is_dir (f : fs) (p : path) : bool := existsb (path_eqb p) (f_dirs f) || path_eqb p [].
Fixpoint prefixes (p : path) : list path := match p with [] => [[]] | c :: r => [] :: map (cons c) (prefixes r) end.

(* std::fs::create_dir_all *)
Definition create_dir_all (f : fs) (p : path) : option fs :=
  if existsb (fun q => match get_file f q with Some _ => true | None => false end) (prefixes p) then None
  else Some (mk_fs (f_files f) (prefixes p ++ f_dirs f)).
(* looking up dir.join(name): every component but the last must be a directory *)
Fixpoint walk (f : fs) (cur : path) (comps : list name) : option path :=
  match comps with
  | [] => Some cur
  | [c] => Some (step_component cur c)
  | c :: r => if is_dir f (step_component cur c) then walk f (step_component cur c) r else None
  end.
Definition resolve (f : fs) (dir : path) (n : name) : option path :=
  if existsb (N.eqb 0) n then None
  else walk f (match n with 47 :: _ => [] | _ => dir end) (split_slash [] n).
(* std::fs::write: creates or replaces; fails for a directory *)
Definition write_fs (f : fs) (p : path) (o : object) : option fs :=
  if is_dir f p then None
  else Some (mk_fs ((p, o) :: filter (fun e => negb (path_eqb p (fst e))) (f_files f)) (f_dirs f)).

(* schema_folder, database_folder, container_folder: backup.rs:424-445 *)
Definition schema_folder (base : path) (sc : bytes) : option path := join base sc.
Definition database_folder (base : path) (sc db : bytes) : option path :=
  match schema_folder base sc with Some p => join p db | None => None end.
Definition container_folder (base : path) (sc db c : bytes) : option path :=
  match database_folder base sc db with Some p => join p c | None => None end.
(* store, backup.rs:255-270 *)
Definition store_fs (base : path) (f : fs) (k : lkey) (o : object) : option fs :=
  match container_folder base (l_schema k) (l_db k) (l_cont k) with
  | None => None
  | Some dir =>
      match create_dir_all f dir with
      | None => None
      | Some f1 => match resolve f1 dir (l_name k) with Some p => write_fs f1 p o | None => None end
      end
  end.
(* load, backup.rs:320-328 *)
Definition load_fs (base : path) (f : fs) (k : lkey) : option object :=
  match container_folder base (l_schema k) (l_db k) (l_cont k) with
  | None => None
  | Some dir => match resolve f dir (l_name k) with Some p => get_file f p | None => None end
  end.
(* the entries of a directory: read_dir, backup.rs:379-401 *)
Definition child (dir p : path) : option name :=
  match rev p with n :: r => if path_eqb (rev r) dir then Some n else None | [] => None end.
Definition sub_files (f : fs) (dir : path) : list name :=
  flat_map (fun e => match child dir (fst e) with Some n => [n] | None => [] end) (f_files f).
Definition sub_dirs (f : fs) (dir : path) : list name :=
  nodup (list_eq_dec N.eq_dec) (flat_map (fun p => match child dir p with Some n => [n] | None => [] end) (f_dirs f)).
(* list_stored 303-318, list_databases 294-301, list_schemas 272-281: a folder that
   does not exist has no entries; names that are not UTF-8 are not considered *)
Definition list_stored_fs (base : path) (f : fs) (sc db c : bytes) : list bytes :=
  match container_folder base sc db c with Some dir => sub_files f dir | None => [] end.
Definition list_databases_fs (base : path) (f : fs) (sc : bytes) : list bytes :=
  match schema_folder base sc with
  | Some dir => filter (fun n => negb (bytes_eqb n kv_container)) (sub_dirs f dir)
  | None => []
  end.
Definition list_schemas_fs (base : path) (f : fs) : list bytes :=
  flat_map (fun n => match Names.q_parse n with Some q => [Names.q_encoded q] | None => [] end) (sub_dirs f base).

Fixpoint store_all_fs (base : path) (f : fs) (ws : list (lkey * object)) : option fs :=
  match ws with
  | [] => Some f
  | w :: r => match store_fs base f (fst w) (snd w) with Some f' => store_all_fs base f' r | None => None end
  end.

(* ---------- what it does for names that can be file names ---------- *)
Definition file_name (n : name) : Prop := n <> [] /\ n <> [46] /\ n <> [46; 46] /\ ~ In 47 n /\ ~ In 0 n.
Definition safe (k : lkey) : Prop := file_name (l_schema k) /\ file_name (l_db k) /\ file_name (l_cont k) /\ file_name (l_name k).
Definition path_of (base : path) (k : lkey) : path := base ++ [l_schema k; l_db k; l_cont k; l_name k].

Lemma split_slash_plain n : forall acc, ~ In 47 n -> split_slash acc n = [rev acc ++ n].
Proof.
  induction n as [|c n IH]; intros acc H; cbn [split_slash]; [rewrite app_nil_r; reflexivity|].
  destruct (c =? 47) eqn:E; [apply N.eqb_eq in E; exfalso; apply H; left; exact E|].
  rewrite IH by (intros I; apply H; right; exact I). cbn [rev]. rewrite <- app_assoc. reflexivity.
Qed.
Lemma no_nul n : ~ In 0 n -> existsb (N.eqb 0) n = false.
Proof.
  intros H. apply not_true_iff_false. intros E. apply existsb_exists in E. destruct E as (x & I & X). apply N.eqb_eq in X. subst x. contradiction.
Qed.
Lemma step_plain cur n : file_name n -> step_component cur n = cur ++ [n].
Proof.
  intros (A & B & C & _). unfold step_component. rewrite !name_eqb_neq by assumption. reflexivity.
Qed.
Lemma not_absolute (n : name) (base : path) : ~ In 47 n -> match n with 47 :: _ => [] | _ => base end = base.
Proof.
  intros H. destruct n as [|c n]; [reflexivity|]. destruct (N.eq_dec c 47) as [->|NE]; [exfalso; apply H; left; reflexivity|].
  destruct c as [|p]; [reflexivity|]. repeat (destruct p as [p|p|]; try reflexivity). exfalso. apply NE. reflexivity.
Qed.
Lemma join_plain base n : file_name n -> join base n = Some (base ++ [n]).
Proof.
  intros F. pose proof F as (_ & _ & _ & S & Z). unfold join. rewrite (no_nul n Z), (not_absolute n base S), (split_slash_plain n [] S).
  cbn [rev app fold_left]. rewrite step_plain by exact F. reflexivity.
Qed.
Lemma resolve_plain f dir n : file_name n -> resolve f dir n = Some (dir ++ [n]).
Proof.
  intros F. pose proof F as (_ & _ & _ & S & Z). unfold resolve. rewrite (no_nul n Z), (not_absolute n dir S), (split_slash_plain n [] S).
  cbn [rev app walk]. rewrite step_plain by exact F. reflexivity.
Qed.
Lemma folder_plain base sc db c : file_name sc -> file_name db -> file_name c -> container_folder base sc db c = Some (base ++ [sc; db; c]).
Proof.
  intros A B C. unfold container_folder, database_folder, schema_folder. rewrite !join_plain by assumption. rewrite <- !app_assoc. reflexivity.
Qed.
Lemma path_of_inj base k k' : path_of base k = path_of base k' -> k = k'.
Proof.
  unfold path_of. intros H. apply app_inv_head in H. destruct k, k'. cbn in H. injection H as -> -> -> ->. reflexivity.
Qed.
Lemma prefixes_spec p q : In q (prefixes p) <-> exists r, p = q ++ r.
Proof.
  revert q. induction p as [|c p IH]; intros q; cbn [prefixes].
  - split.
    + intros [<-|[]]. exists []. reflexivity.
    + intros [r H]. symmetry in H. apply app_eq_nil in H. destruct H as [-> _]. left. reflexivity.
  - cbn [In]. rewrite in_map_iff. split.
    + intros [<-|(x & <- & I)]; [exists (c :: p); reflexivity|]. apply IH in I. destruct I as [r ->]. exists r. reflexivity.
    + intros [r H]. destruct q as [|d q]; [left; reflexivity|]. right. cbn [app] in H. injection H as <- H. exists q. split; [reflexivity|].
      apply IH. exists r. exact H.
Qed.
Lemma get_file_In f p o : get_file f p = Some o -> In (p, o) (f_files f).
Proof.
  unfold get_file. destruct find as [[q x]|] eqn:F; [|discriminate]. cbn. intros H. injection H as <-. apply find_some in F. destruct F as [I E].
  apply path_eqb_spec in E. cbn [fst] in E. subst q. exact I.
Qed.
Lemma get_write f p o q : find (fun e : path * object => path_eqb q (fst e)) ((p, o) :: filter (fun e => negb (path_eqb p (fst e))) f) =
  if path_eqb q p then Some (p, o) else find (fun e => path_eqb q (fst e)) f.
Proof.
  cbn [find fst]. destruct (path_eqb q p) eqn:E; [reflexivity|]. induction f as [|[j x] f IH]; [reflexivity|]. cbn [filter find fst].
  destruct (path_eqb p j) eqn:B; cbn [negb].
  - apply path_eqb_spec in B. subst j. rewrite IH, E. reflexivity.
  - cbn [find fst]. rewrite IH. reflexivity.
Qed.

(* the folder mirrors a location *)
Definition mirrors (base : path) (l : location) (f : fs) : Prop :=
  (forall k, safe k -> get_file f (path_of base k) = load l k) /\
  (forall p o, In (p, o) (f_files f) -> exists k, safe k /\ p = path_of base k) /\
  (forall p, In p (f_dirs f) -> exists k o r, load l k = Some o /\ base ++ [l_schema k; l_db k; l_cont k] = p ++ r) /\
  (forall k o r p, load l k = Some o -> base ++ [l_schema k; l_db k; l_cont k] = p ++ r -> In p (f_dirs f)) /\
  (forall k o, load l k = Some o -> safe k) /\
  NoDup (map fst (f_files f)).
Lemma mirrors_empty base : mirrors base [] (mk_fs [] []).
Proof.
  repeat split; cbn; try discriminate; try contradiction. constructor.
Qed.
Lemma mirrors_store base l f k o : mirrors base l f -> safe k -> exists f', store_fs base f k o = Some f' /\ mirrors base (store l k o) f'.
Proof.
  intros (M1 & M2 & M3 & M4 & M5 & M6) S. pose proof S as (S1 & S2 & S3 & S4). unfold store_fs.
  set (dir := base ++ [l_schema k; l_db k; l_cont k]).
  assert (FP : container_folder base (l_schema k) (l_db k) (l_cont k) = Some dir) by (apply folder_plain; assumption). rewrite FP.
  assert (PK : dir ++ [l_name k] = path_of base k) by (unfold dir, path_of; rewrite <- app_assoc; reflexivity).
  assert (C : create_dir_all f dir = Some (mk_fs (f_files f) (prefixes dir ++ f_dirs f))).
  { unfold create_dir_all. replace (existsb _ (prefixes dir)) with false; [reflexivity|]. symmetry. apply not_true_iff_false. intros E.
    apply existsb_exists in E. destruct E as (q & I & E). destruct (get_file f q) as [x|] eqn:G; [|discriminate].
    apply get_file_In, M2 in G. destruct G as (k' & _ & ->). apply prefixes_spec in I. destruct I as [r H]. unfold dir, path_of in H.
    apply (f_equal (@length _)) in H. rewrite !app_length in H. cbn [length] in H. lia. }
  rewrite C.
  assert (RP : resolve (mk_fs (f_files f) (prefixes dir ++ f_dirs f)) dir (l_name k) = Some (path_of base k)) by (rewrite resolve_plain by assumption; f_equal; exact PK).
  rewrite RP. unfold write_fs.
  assert (ND : is_dir (mk_fs (f_files f) (prefixes dir ++ f_dirs f)) (path_of base k) = false).
  { unfold is_dir. cbn [f_dirs]. apply not_true_iff_false. rewrite orb_true_iff. intros [E|E].
    - apply existsb_exists in E. destruct E as (p & I & E). apply path_eqb_spec in E. subst p. apply in_app_iff in I.
      assert (X : exists k' r, base ++ [l_schema k'; l_db k'; l_cont k'] = path_of base k ++ r).
      { destruct I as [I|I].
        - apply prefixes_spec in I. destruct I as [r I]. exists k, r. exact I.
        - apply M3 in I. destruct I as (k' & x & r & _ & I). exists k', r. exact I. }
      destruct X as (k' & r & X). apply (f_equal (@length _)) in X. unfold path_of in X. rewrite !app_length in X. cbn [length] in X. lia.
    - apply path_eqb_spec in E. unfold path_of in E. destruct base; discriminate. }
  rewrite ND. eexists. split; [reflexivity|]. cbn [f_files f_dirs]. unfold mirrors. cbn [f_files f_dirs]. refine (conj _ (conj _ (conj _ (conj _ (conj _ _))))).
  - intros k' S'. unfold get_file. cbn [f_files]. rewrite get_write, load_store.
    destruct (lkey_eqb k' k) eqn:E.
    + apply lkey_eqb_spec in E. subst k'. replace (path_eqb (path_of base k) (path_of base k)) with true; [reflexivity|]. symmetry. apply path_eqb_spec. reflexivity.
    + apply lkey_eqb_neq in E. replace (path_eqb (path_of base k') (path_of base k)) with false; [apply (M1 k' S')|].
      symmetry. apply not_true_iff_false. intros X. apply path_eqb_spec, path_of_inj in X. contradiction.
  - intros p x [I|I].
    + injection I as <- <-. exists k. auto.
    + apply filter_In in I. destruct I as [I _]. apply (M2 p x I).
  - intros p I. apply in_app_iff in I. destruct I as [I|I].
    + apply prefixes_spec in I. destruct I as [r I]. exists k, o, r. split; [|exact I]. rewrite load_store, lkey_eqb_refl. reflexivity.
    + apply M3 in I. destruct I as (k' & x & r & L & I). destruct (lkey_dec k' k) as [->|NE].
      * exists k, o, r. split; [|exact I]. rewrite load_store, lkey_eqb_refl. reflexivity.
      * exists k', x, r. split; [|exact I]. rewrite load_store. apply lkey_eqb_neq in NE. rewrite NE. exact L.
  - intros k' x r p L E. rewrite load_store in L. apply in_app_iff. destruct (lkey_eqb k' k) eqn:B.
    + apply lkey_eqb_spec in B. subst k'. left. apply prefixes_spec. exists r. exact E.
    + right. eapply M4; eassumption.
  - intros k0 x H. rewrite load_store in H. destruct (lkey_eqb k0 k) eqn:B; [apply lkey_eqb_spec in B; subst; exact S|eapply M5; eassumption].
  - cbn [map fst]. constructor.
    + intros I. apply in_map_iff in I. destruct I as (x & E & I). apply filter_In in I. destruct I as [_ I]. rewrite E in I.
      replace (path_eqb (path_of base k) (path_of base k)) with true in I; [discriminate|]. symmetry. apply path_eqb_spec. reflexivity.
    + clear - M6. induction (f_files f) as [|x r IH]; [constructor|]. cbn [map] in M6. inversion_clear M6 as [|? ? A B]. cbn [filter].
      destruct (negb _); [|apply IH, B]. cbn [map]. constructor; [|apply IH, B]. intros I. apply A. apply in_map_iff in I.
      destruct I as (y & E & I). apply filter_In in I. apply in_map_iff. exists y. tauto.
Qed.
Lemma mirrors_all base ws : forall l f, mirrors base l f -> Forall (fun w => safe (fst w)) ws ->
  exists f', store_all_fs base f ws = Some f' /\ mirrors base (store_all l ws) f'.
Proof.
  induction ws as [|[k o] ws IH]; intros l f M F; [exists f; auto|]. inversion_clear F as [|? ? F1 F2]. cbn [store_all_fs fst snd].
  destruct (mirrors_store base l f k o M F1) as (f1 & -> & M1). apply (IH (store l k o) f1 M1 F2).
Qed.
Lemma mirrors_load base l f k : mirrors base l f -> safe k -> load_fs base f k = load l k.
Proof.
  intros (M1 & _) S. pose proof S as (S1 & S2 & S3 & S4). unfold load_fs. rewrite folder_plain, resolve_plain by assumption.
  rewrite <- (M1 k S). unfold path_of. rewrite <- app_assoc. reflexivity.
Qed.
Lemma child_spec dir p n : child dir p = Some n <-> p = dir ++ [n].
Proof.
  unfold child. split.
  - intros H. destruct (rev p) as [|c r] eqn:R; [discriminate|]. destruct (path_eqb (rev r) dir) eqn:E; [|discriminate]. injection H as <-.
    apply path_eqb_spec in E. rewrite <- (rev_involutive p), R, <- E. reflexivity.
  - intros ->. rewrite rev_app_distr. cbn [rev app]. rewrite rev_involutive. replace (path_eqb dir dir) with true; [reflexivity|].
    symmetry. apply path_eqb_spec. reflexivity.
Qed.
Lemma mirrors_list base l f sc db c : mirrors base l f -> file_name sc -> file_name db -> file_name c ->
  NoDup (list_stored_fs base f sc db c) /\ forall n, In n (list_stored_fs base f sc db c) <-> In n (list_stored l sc db c).
Proof.
  intros (M1 & M2 & _ & _ & M5 & M6) A B C. unfold list_stored_fs. rewrite folder_plain by assumption. unfold sub_files. split.
  - clear - M6. induction (f_files f) as [|[p x] r IH]; [constructor|]. cbn [map fst] in M6. inversion_clear M6 as [|? ? N1 N2]. cbn [flat_map fst].
    destruct (child (base ++ [sc; db; c]) p) as [n|] eqn:E; [|apply IH, N2]. cbn [app]. constructor; [|apply IH, N2].
    intros I. apply in_flat_map in I. destruct I as ([q y] & I & J). cbn [fst] in J.
    destruct (child (base ++ [sc; db; c]) q) as [m|] eqn:E2; [|destruct J]. destruct J as [->|[]]. apply child_spec in E, E2. subst p q.
    apply N1. apply in_map_iff. exists (((base ++ [sc; db; c]) ++ [n]), y). auto.
  - intros n. rewrite list_stored_In, in_flat_map. split.
    + intros ([p o] & I & J). cbn [fst] in J. destruct (child (base ++ [sc; db; c]) p) as [m|] eqn:E; [|destruct J]. destruct J as [->|[]].
      apply child_spec in E. destruct (M2 p o I) as (k & S & ->). exists (match get_file f (path_of base k) with Some o => o | None => o end).
      assert (K : k = mk_lkey sc db c n).
      { apply (path_of_inj base). rewrite E. unfold path_of. cbn [l_schema l_db l_cont l_name]. rewrite <- app_assoc. reflexivity. }
      subst k. rewrite <- (M1 _ S).
      destruct (get_file f (path_of base (mk_lkey sc db c n))) as [o'|] eqn:G; [reflexivity|]. exfalso. unfold get_file in G.
      destruct find eqn:FF; [discriminate|]. apply (List.find_none _ _ FF) in I. cbn [fst] in I.
      apply not_true_iff_false in I. apply I, path_eqb_spec. reflexivity.
    + intros [o L]. pose proof (M5 _ _ L) as S. rewrite <- (M1 _ S) in L. apply get_file_In in L. eexists. split; [exact L|].
      cbn [fst]. replace (child (base ++ [sc; db; c]) (path_of base (mk_lkey sc db c n))) with (Some n); [left; reflexivity|].
      symmetry. apply child_spec. unfold path_of. cbn [l_schema l_db l_cont l_name]. rewrite <- app_assoc. reflexivity.
Qed.
Lemma sub_dirs_In f dir n : In n (sub_dirs f dir) <-> In (dir ++ [n]) (f_dirs f).
Proof.
  unfold sub_dirs. rewrite nodup_In, in_flat_map. split.
  - intros (p & I & J). destruct (child dir p) as [m|] eqn:E; [|destruct J]. destruct J as [->|[]]. apply child_spec in E. subst p. exact I.
  - intros I. exists (dir ++ [n]). split; [exact I|]. replace (child dir (dir ++ [n])) with (Some n); [left; reflexivity|]. symmetry. apply child_spec. reflexivity.
Qed.
Lemma mirrors_dbs base l f sc : mirrors base l f -> file_name sc ->
  NoDup (list_databases_fs base f sc) /\ forall n, In n (list_databases_fs base f sc) <-> In n (list_databases l sc) /\ n <> kv_container.
Proof.
  intros (_ & _ & M3 & M4 & _) A. unfold list_databases_fs, schema_folder. rewrite join_plain by exact A. split.
  - apply NoDup_filter, NoDup_nodup.
  - intros n. rewrite filter_In, negb_true_iff, bytes_eqb_neq, sub_dirs_In. unfold list_databases. rewrite nodup_In, in_map_iff.
    split; intros [H NE]; (split; [|exact NE]).
    + apply M3 in H. destruct H as (k & o & r & L & H). rewrite <- !app_assoc in H. cbn [app] in H. apply app_inv_head in H. injection H as H1 H2 _.
      apply load_In in L. exists (k, o). split; [exact H2|]. apply filter_In. split; [exact L|]. apply bytes_eqb_spec, H1.
    + destruct H as ([k o] & E & I). apply filter_In in I. destruct I as [I S]. cbn [fst] in *. apply bytes_eqb_spec in S. subst.
      assert (J : In k (map fst l)) by (apply in_map_iff; exists (k, o); auto). apply load_some in J. destruct J as [o' J].
      apply (M4 k o' [l_cont k]); [exact J|]. rewrite <- !app_assoc. reflexivity.
Qed.
Definition canonical (sc : bytes) : Prop := exists q, Names.q_parse sc = Some q /\ Names.q_encoded q = sc.
Lemma mirrors_schemas base l f : mirrors base l f -> (forall k o, load l k = Some o -> canonical (l_schema k)) ->
  NoDup (list_schemas_fs base f) /\ forall n, In n (list_schemas_fs base f) <-> In n (list_schemas l).
Proof.
  intros (_ & _ & M3 & M4 & _) CA. unfold list_schemas_fs.
  assert (D : forall n, In n (sub_dirs f base) <-> In n (list_schemas l)).
  { intros n. rewrite sub_dirs_In. unfold list_schemas. rewrite nodup_In, in_map_iff. split.
    - intros H. apply M3 in H. destruct H as (k & o & r & L & H). rewrite <- app_assoc in H. apply app_inv_head in H. injection H as H1 _.
      apply load_In in L. exists (k, o). auto.
    - intros ([k o] & E & I). cbn [fst] in E. subst n. assert (J : In k (map fst l)) by (apply in_map_iff; exists (k, o); auto). apply load_some in J.
      destruct J as [o' J]. apply (M4 k o' [l_db k; l_cont k]); [exact J|]. rewrite <- app_assoc. reflexivity. }
  assert (C : forall n, In n (sub_dirs f base) -> canonical n).
  { intros n I. apply D in I. unfold list_schemas in I. rewrite nodup_In, in_map_iff in I. destruct I as ([k o] & E & I). cbn [fst] in E. subst n.
    assert (J : In k (map fst l)) by (apply in_map_iff; exists (k, o); auto). apply load_some in J. destruct J as [o' J]. apply (CA k o' J). }
  assert (E : flat_map (fun n => match Names.q_parse n with Some q => [Names.q_encoded q] | None => [] end) (sub_dirs f base) = sub_dirs f base).
  { clear D. induction (sub_dirs f base) as [|n r IH]; [reflexivity|]. cbn [flat_map]. destruct (C n (or_introl eq_refl)) as (q & -> & ->).
    rewrite IH by (intros m I; apply C; right; exact I). reflexivity. }
  rewrite E. split; [apply NoDup_nodup|exact D].
Qed.
