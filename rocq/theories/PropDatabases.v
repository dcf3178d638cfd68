(* C54: databases are created once, listed and deleted by name without touching
   others. *)
From Verif Require Import Base Databases DatabasesProofs.
From Coq Require Import ZifyBool.
From Coq Require String Ascii.
Import String.StringSyntax.
Local Open Scope N_scope.

Definition spec_list (T : spec) : list (name * schema) := map (fun e => (fst e, fst (snd e))) T.
Definition spec_files (n : name) (T : spec) : list (path * list N) :=
  match sget n T with Some (_, f) => f | None => [] end.

(* ---------- refinement ---------- *)
Record Rel (own : list (path * list N)) (s : st) (X : spec * list schema) : Prop := {
  r_inv : Inv s;
  r_admin : has_admin s;
  r_avail : avail s = map snd (records s);
  r_list : avail s = spec_list (fst X);
  r_reg : schemas s = snd X;
  r_files : forall n sc f, In (n, (sc, f)) (fst X) -> files_below (fs s) (root s ++ [n]) = f;
  r_own : forall n, In n reserved_names -> files_below (fs s) (root s ++ [n]) = files_below own (root s ++ [n])
}.

Lemma sget_none n T : sget n T = None <-> ~ In n (map fst (spec_list T)).
Proof.
  unfold sget, spec_list. induction T as [|e T IH]; cbn [find map fst]; [split; [intros _ []|reflexivity]|].
  destruct list_eq_dec as [E|D]; cbn [option_map].
  - split; [discriminate|]. intro H. exfalso. apply H. left. symmetry. exact E.
  - rewrite IH. split; [intros H [K|K]; [apply D; symmetry; exact K|exact (H K)]|]. intros H K. apply H. right. exact K.
Qed.
Lemma sget_some n T x : sget n T = Some x -> In (n, x) T.
Proof.
  unfold sget. destruct find as [e|] eqn:E; [|discriminate]. cbn [option_map].
  apply find_some in E. destruct E as [H E]. destruct list_eq_dec as [E'|]; [|discriminate].
  intro K. injection K as <-. rewrite E'. destruct e; exact H.
Qed.
Lemma sget_in n T x : NoDup (map fst (spec_list T)) -> In (n, x) T -> sget n T = Some x.
Proof.
  unfold sget, spec_list. induction T as [|e T IH]; intros H K; [destruct K|]. cbn [map fst find] in *.
  inversion H as [|? ? H1 H2]; subst. destruct list_eq_dec as [->|D].
  - destruct K as [->|K]; [reflexivity|]. exfalso. apply H1. rewrite map_map. apply in_map_iff.
    exists (fst e, x). split; [reflexivity|exact K].
  - destruct K as [->|K]; [cbn [fst] in D; congruence|]. apply IH; assumption.
Qed.
Lemma mem_sget n T : mem n (spec_list T) = match sget n T with Some _ => true | None => false end.
Proof.
  destruct (sget n T) eqn:E.
  - apply mem_spec. destruct (mem n (spec_list T)) eqn:M; [apply mem_spec; exact M|].
    apply mem_false in M. apply sget_none in M. congruence.
  - apply mem_false. apply sget_none. exact E.
Qed.
Lemma lookup_sget n T : lookup n (spec_list T) = option_map fst (sget n T).
Proof.
  unfold lookup, sget, spec_list. induction T as [|e T IH]; [reflexivity|]. cbn [map find fst].
  unfold name_eqb. destruct list_eq_dec; [reflexivity|]. exact IH.
Qed.
Lemma spec_list_remove n T : spec_list (sremove n T) = without n (spec_list T).
Proof.
  unfold spec_list, sremove, without. induction T as [|e T IH]; [reflexivity|]. cbn [map filter fst].
  unfold name_eqb. destruct list_eq_dec; cbn [negb map]; [exact IH|]. f_equal. exact IH.
Qed.
Lemma spec_list_write n p d T : spec_list (swrite n p d T) = spec_list T.
Proof.
  unfold spec_list, swrite. rewrite map_map. apply map_ext. intro e. destruct list_eq_dec; reflexivity.
Qed.
Lemma remove_record_without n l : map snd (remove_record n l) = without n (map snd l).
Proof.
  unfold remove_record, without. induction l as [|r l IH]; [reflexivity|]. cbn [map filter].
  destruct (name_eqb n (fst (snd r))); cbn [negb map]; [exact IH|]. f_equal. exact IH.
Qed.

Lemma unrecorded_empty s n : Inv s -> proper n -> ~ In n (map fst (map snd (records s))) ->
  files_below (fs s) (root s ++ [n]) = [].
Proof.
  intros I [P1 P2] N. apply files_below_none. intros q x H. destruct (i_files s I _ _ H) as (m & q' & E & K).
  rewrite <- app_assoc in E. apply app_inv_head in E. injection E as <- <-. tauto.
Qed.

Lemma step_refines own s X o : Rel own s X -> op_ok o -> calm o ->
  snd (step s o) = snd (spec_step X o) /\ Rel own (fst (step s o)) (fst (spec_step X o)).
Proof.
  intros R O C. pose proof (step_inv s o (r_inv _ _ _ R) (r_admin _ _ _ R) O) as (I' & A' & Rt).
  destruct X as [T reg]. pose proof R as [I A AV L G F W]. cbn [fst snd] in *.
  assert (ND : NoDup (map fst (spec_list T))) by (rewrite <- L; exact (i_anames s I)).
  destruct o as [n sc b|n io|n sc|n p d|c|n sv c]; cbn [step spec_step op_ok calm] in *.
  - revert I' A' Rt. unfold create_database. destruct (validate_name n) eqn:V; cbn [negb]; [|intros; split; [reflexivity|exact R]].
    rewrite G. destruct (existsb (N.eqb sc) reg) eqn:E; cbn [negb]; [|intros; split; [reflexivity|exact R]].
    rewrite L, mem_sget. destruct (sget n T) as [x|] eqn:S; cbn [negb].
    { intros. destruct b; split; (reflexivity || exact R). }
    unfold push_record. rewrite <- AV, L, mem_sget, S. cbn [root fs records avail schemas fst snd].
    intros I' A' Rt. split; [reflexivity|]. constructor; cbn [root fs records avail schemas fst snd].
    + exact I'.
    + exact A'.
    + rewrite map_app, <- AV. cbn [map snd]. congruence.
    + unfold spec_list. rewrite map_app. fold (spec_list T). cbn [map fst snd]. congruence.
    + congruence.
    + intros m sc' f H. apply in_app_iff in H. destruct H as [H|[H|[]]]; [eapply F, H|].
      injection H as <- <- <-. apply unrecorded_empty; [exact I|exact O|]. rewrite <- AV, L. apply sget_none, S.
    + exact W.
  - destruct O as (V & P & D). destruct io as [?|]; [contradiction|].
    destruct (delete_cases s n None I V P) as [D1 _]. rewrite D1 in * by (left; reflexivity). cbn [fst snd] in *.
    assert (MM : mem n (map snd (records s)) = match sget n T with Some _ => true | None => false end) by (rewrite <- AV, L; apply mem_sget).
    rewrite MM. destruct (sget n T) as [x|] eqn:S.
    + split; [reflexivity|]. cbn [fst]. constructor; cbn [root fs records avail schemas fst snd].
      * exact I'.
      * exact A'.
      * rewrite remove_record_without. congruence.
      * rewrite spec_list_remove. congruence.
      * exact G.
      * intros m sc f H. apply filter_In in H. destruct H as [H K]. cbn [fst] in K.
        destruct list_eq_dec as [|K']; [discriminate|].
        rewrite files_below_deleted_other by exact K'. eapply F, H.
      * intros m H. rewrite files_below_deleted_other; [apply W, H|]. intros ->. apply P. exact H.
    + split; [reflexivity|]. cbn [fst].
      assert (NR : ~ In n (map fst (map snd (records s)))) by (rewrite <- AV, L; apply sget_none, S).
      constructor; cbn [root fs records avail schemas fst snd].
      * exact I'.
      * exact A'.
      * rewrite remove_record_without. congruence.
      * rewrite L. apply sget_none in S. clear - S. revert S. unfold without. generalize (spec_list T). intros l.
        induction l as [|e l IH]; intro H; [reflexivity|]. cbn [map filter fst] in *.
        rewrite name_eqb_neq by (intro K; apply H; left; congruence). cbn [negb]. f_equal. apply IH.
        intro K. apply H. right. exact K.
      * exact G.
      * intros m sc f H. rewrite files_below_deleted_other; [eapply F, H|]. intros ->.
        rewrite (sget_in _ _ _ ND H) in S. discriminate.
      * intros m H. rewrite files_below_deleted_other; [apply W, H|]. intros ->. apply P. exact H.
  - split; [|exact R]. unfold open_database. rewrite L, lookup_sget, G.
    destruct (sget n T) as [[sc' f]|]; [|reflexivity]. cbn [option_map fst].
    destruct (N.eqb_spec sc' sc) as [->|]; reflexivity.
  - revert I' A' Rt. unfold write_in_database. rewrite L, mem_sget. destruct (sget n T) as [x|] eqn:S; [|intros; split; [reflexivity|exact R]].
    assert (M : exists sc, In (n, sc) (map snd (records s))).
    { apply sget_some in S. exists (fst x). rewrite <- AV, L. unfold spec_list. apply in_map_iff. exists (n, x). split; [reflexivity|exact S]. }
    destruct M as [sc M]. destruct (i_valid s I _ _ M) as [V P]. rewrite folder_valid by (exact V || apply P).
    intros I' A' Rt. cbn [fst snd] in *. split; [reflexivity|]. rewrite L in *. constructor; cbn [root fs records avail schemas fst snd].
    + exact I'.
    + exact A'.
    + congruence.
    + rewrite spec_list_write. reflexivity.
    + exact G.
    + intros m sc' f H. unfold swrite in H. apply in_map_iff in H. destruct H as ((m' & sc'' & f') & E & H).
      cbn [fst snd] in E. destruct list_eq_dec as [<-|K].
      * injection E as <- <- <-. rewrite files_below_write. f_equal. eapply F, H.
      * injection E as <- <- <-. rewrite files_below_write_other by exact K. eapply F, H.
    + intros m H. rewrite files_below_write_other; [apply W, H|]. intros ->. apply P. exact H.
  - rewrite (restart_done s c I A O) in *. cbn [fst snd] in *. split; [reflexivity|].
    constructor; cbn [root fs records avail schemas fst snd]; auto. congruence.
  - contradiction.
Qed.

Lemma run_refines own l : forall s X, Rel own s X -> Forall op_ok l -> Forall calm l ->
  snd (run s l) = snd (spec_run X l) /\ Rel own (fst (run s l)) (fst (spec_run X l)).
Proof.
  induction l as [|o l IH]; intros s X R O C; [split; [reflexivity|exact R]|].
  inversion O as [|? ? O1 O2]; inversion C as [|? ? C1 C2]; subst.
  destruct (step_refines own s X o R O1 C1) as [E R']. cbn [run spec_run].
  destruct (step s o) as [s1 r]. destruct (spec_step X o) as [X1 r']. cbn [fst snd] in *.
  destruct (IH s1 X1 R' O2 C2) as [E2 R2]. destruct (run s1 l), (spec_run X1 l). cbn [fst snd] in *.
  split; [congruence|exact R2].
Qed.

Definition spec_new (c : list schema) : spec * list schema := ([(admin_name, (admin_schema, []))], admin_schema :: c).

Lemma new_rel r own c : own_files_ok r own -> 
  Rel own (mk r own [(0, (admin_name, admin_schema))] [(admin_name, admin_schema)] (admin_schema :: c)) (spec_new c).
Proof.
  intro O. destruct (new_inv r own (admin_schema :: c) O) as [I A].
  constructor; cbn [root fs records avail schemas fst snd spec_new map spec_list]; auto.
  intros n sc f [H|[]]. injection H as <- <- <-. apply files_below_none. intros q x H. 
  destruct (O _ _ H) as (m & q' & K & E). rewrite <- app_assoc in E. apply app_inv_head in E. injection E as <- <-.
  cbn in K. intuition discriminate.
Qed.

(* Every history of calls and restarts behaves like a plain list of databases:
   same results, same listing, each database has exactly the files written to
   it since it was created, the storage's own files are never touched. *)
Theorem C54_databases_refine : forall r own c s0 l,
  own_files_ok r own -> ~ In admin_schema c ->
  open_storage (new_storage r own) c = Done s0 ->
  Forall op_ok l -> Forall calm l ->
  let '(s, results) := run s0 l in
  let '((T, _), expected) := spec_run (spec_new c) l in
  results = expected /\
  list_databases s = spec_list T /\
  NoDup (map fst (list_databases s)) /\
  (forall n, proper n -> files_below (fs s) (r ++ [n]) = spec_files n T) /\
  (forall n, In n reserved_names -> files_below (fs s) (r ++ [n]) = files_below own (r ++ [n])).
Proof.
  intros r own c s0 l O C E H K. rewrite (open_new r own c O C) in E. injection E as <-.
  pose proof (new_rel r own c O) as R. 
  pose proof (run_refines own l _ _ R H K) as [E' R'].
  destruct (new_inv r own (admin_schema :: c) O) as [I0 A0].
  pose proof (run_inv l _ I0 A0 H) as (_ & _ & Rt).
  destruct (run _ l) as [s rs]. destruct (spec_run _ l) as [[T reg] es]. cbn [fst snd root] in *.
  destruct R' as [I A AV L G F W]. cbn [fst snd] in *. unfold list_databases. rewrite Rt in *.
  split; [exact E'|]. split; [exact L|]. split; [exact (i_anames s I)|]. split; [|exact W].
  intros n P. unfold spec_files. destruct (sget n T) as [[sc f]|] eqn:S.
  - apply sget_some in S. exact (F n sc f S).
  - rewrite <- Rt. apply unrecorded_empty; [exact I|exact P|]. rewrite <- AV, L. apply sget_none, S.
Qed.

(* an example history *)
Definition nm_a : name := [97].
Definition nm_b : name := [98; 46; 49].
Definition ex_root : path := [[115; 114; 118]].
Definition ex_own : list (path * list N) := [(ex_root ++ [nth 1 reserved_names []], [49; 50])].
Example C54_refine_example :
  own_files_ok ex_root ex_own /\
  exists s0, open_storage (new_storage ex_root ex_own) [7; 8] = Done s0 /\
  let l := [OCreate nm_a 7 false; OCreate nm_b 8 false; OWrite nm_a [[120]] [1]; OWrite nm_b [[120]] [2];
            OCreate nm_a 8 false; ODelete nm_a None; OCreate nm_a 8 true; ORestart [7; 8]; OOpen nm_b 8; OOpen nm_b 7;
            OCreate [47] 7 true; OCreate nm_a 7 true] in
  Forall op_ok l /\ Forall calm l /\
  snd (run s0 l) = [Done tt; Done tt; Done tt; Done tt; Fail ENameTaken; Done tt; Done tt; Done tt; Done tt; Fail EMismatch;
                    Fail EInvalidName; Done tt] /\
  list_databases (fst (run s0 l)) = [(admin_name, 0); (nm_b, 8); (nm_a, 8)].
Proof.
  split. { intros p d [H|[]]. injection H as <- <-. exists (nth 1 reserved_names []), []. split; [right; left; reflexivity|reflexivity]. }
  eexists. split; [reflexivity|]. split.
  { repeat constructor; try (cbn; intuition discriminate). }
  split; [repeat constructor|]. split; reflexivity.
Qed.

(* ---------- names ---------- *)
(* Exactly which names are accepted, and that they are safe. *)
Theorem C54_accepted_names : forall n, validate_name n = true <->
  forall i c, nth_error n i = Some c ->
    (97 <= c <= 122 \/ 65 <= c <= 90 \/ 48 <= c <= 57) \/ (i = O /\ c = 95) \/ ((i > 0)%nat /\ (c = 46 \/ c = 45)).
Proof.
  assert (A : forall l b, all_from b l = true <-> forall i c, nth_error l i = Some c ->
    name_char (b && match i with O => true | _ => false end) c = true).
  { induction l as [|x l IH]; intro b; cbn [all_from].
    - split; [|reflexivity]. intros _ [|i] c H; discriminate.
    - rewrite andb_true_iff, IH. split.
      + intros [H1 H2] [|i] c K; cbn [nth_error] in K.
        * injection K as <-. rewrite andb_true_r. exact H1.
        * rewrite andb_false_r. specialize (H2 i c K). destruct i; exact H2.
      + intro H. split.
        * specialize (H O x eq_refl). rewrite andb_true_r in H. exact H.
        * intros i c K. specialize (H (Datatypes.S i) c K). rewrite andb_false_r in H. exact H. }
  intro n. unfold validate_name. rewrite A. split; intros H i c K; specialize (H i c K).
  - unfold name_char, alnum in H. destruct i; cbn [andb negb] in H; lia.
  - unfold name_char, alnum. destruct i; cbn [andb negb]; lia.
Qed.

Theorem C54_accepted_names_safe : forall n, validate_name n = true -> n <> [] ->
  single_component n /\ forall base, join base n = Some (base ++ [n]).
Proof.
  intros n V H. pose proof (validate_component n V H) as K. split; [exact K|]. intro base. apply join_component, K.
Qed.
Example C54_accepted_names_example :
  validate_name admin_name = true /\ validate_name nm_b = true /\ validate_name [46; 46] = false /\
  validate_name [97; 95] = false /\ validate_name [97; 47; 98] = false /\ validate_name [233] = false.
Proof. repeat split. Qed.

(* ---------- failing deletions and crashes ---------- *)
(* A state after any history, including failed deletions and a process dying in
   the middle of one. *)
Definition reachable (r : path) (own : list (path * list N)) (s : st) : Prop :=
  exists c s0 l, own_files_ok r own /\ ~ In admin_schema c /\
    open_storage (new_storage r own) c = Done s0 /\ Forall op_ok l /\ s = fst (run s0 l).

Lemma reachable_inv r own s : reachable r own s -> Inv s /\ has_admin s /\ root s = r.
Proof.
  intros (c & s0 & l & O & C & E & F & ->). rewrite (open_new r own c O C) in E. injection E as <-.
  destruct (new_inv r own (admin_schema :: c) O) as [I0 A0]. apply (run_inv l _ I0 A0 F).
Qed.

Definition named (o : op) (n : name) : Prop :=
  match o with
  | OCreate m _ _ | ODelete m _ | OWrite m _ _ | OCrashDelete m _ _ => m = n
  | OOpen _ _ | ORestart _ => False
  end.

(* No call, failed call or crash changes the files of a database it does not
   name, nor the storage's own files, nor whether it exists. *)
Theorem C54_others_untouched : forall r own s o n,
  reachable r own s -> op_ok o -> ~ named o n ->
  let s' := fst (step s o) in
  files_below (fs s') (r ++ [n]) = files_below (fs s) (r ++ [n]) /\
  (forall sc, In (n, sc) (map snd (records s')) <-> In (n, sc) (map snd (records s))) /\
  (forall sc, In (n, sc) (list_databases s) -> In (n, sc) (list_databases s')).
Proof.
  intros r own s o n R O N s'. destruct (reachable_inv r own s R) as (I & A & <-).
  assert (DEL : forall m io, validate_name m = true -> proper m -> m <> n ->
     let t := fst (delete_database s m io) in
     files_below (fs t) (root s ++ [n]) = files_below (fs s) (root s ++ [n]) /\
     (forall sc, In (n, sc) (map snd (records t)) <-> In (n, sc) (map snd (records s))) /\
     (forall sc, In (n, sc) (avail s) -> In (n, sc) (avail t))).
  { intros m io V P D t. subst t. split; [apply delete_files_other; congruence|].
    destruct (delete_cases s m io I V P) as [D1 D2].
    assert (C : (io = None \/ exists_path (fs s) (root s ++ [m]) = false) \/
              (exists_path (fs s) (root s ++ [m]) = true /\ exists sv, io = Some sv)).
    { destruct io; [|tauto]. destruct (exists_path _ _); eauto. }
    destruct C as [C | [C [sv ->]]]; [rewrite (D1 C) | rewrite (D2 C sv eq_refl)]; cbn [fst records avail].
    - split; intro sc; [rewrite remove_record_in; intuition congruence|]. intro H. apply without_in. split; [exact H|congruence].
    - split; intro sc; [reflexivity|]. intro H. apply without_in. split; [exact H|congruence]. }
  unfold list_databases. subst s'.
  destruct o as [m sc b|m io|m sc|m p d|c|m sv c]; cbn [step op_ok named] in *.
  - unfold create_database, push_record. destruct (validate_name m); cbn [negb fst]; [|tauto].
    destruct (existsb (N.eqb sc) (schemas s)); cbn [negb fst]; [|tauto].
    destruct (mem m (avail s)); cbn [negb fst]; [destruct b; cbn [fst]; tauto|].
    destruct (mem m (map snd (records s))); cbn [fst]; [tauto|]. cbn [fs records avail].
    split; [reflexivity|]. split; intro sc'; [rewrite map_app|]; rewrite in_app_iff; cbn [map snd In]; [|tauto].
    split; [|tauto]. intros [H|[H|[]]]; [exact H|]. exfalso. apply N. congruence.
  - destruct O as (V & P & _). apply DEL; assumption.
  - tauto.
  - unfold write_in_database. destruct (mem m (avail s)) eqn:M; cbn [fst]; [|tauto].
    apply mem_spec in M. apply in_map_iff in M. destruct M as ((m' & sc) & E & M). cbn [fst] in E. subst m'.
    apply (i_avail s I) in M. destruct (i_valid s I _ _ M) as [V [P1 P2]].
    rewrite folder_valid by assumption. cbn [fst fs records avail]. split; [|tauto].
    apply files_below_write_other. exact N.
  - rewrite (restart_done s c I A O). cbn [fst fs records avail]. split; [reflexivity|]. split; [tauto|].
    intros sc. apply (i_avail s I).
  - destruct O as (V & P & D & C).
    pose proof (delete_inv s m (Some sv) I V P) as I'.
    assert (A' : has_admin (fst (delete_database s m (Some sv)))) by (apply delete_has; auto).
    rewrite (restart_done _ c I' A' C). cbn [fst fs records avail].
    destruct (DEL m (Some sv) V P N) as (D1 & D2 & D3). split; [exact D1|]. split; [exact D2|].
    intros sc H. apply (i_avail _ I'), D3, H.
Qed.

(* A database that was just created holds no files, whatever happened to an
   earlier database of that name; it is listed exactly once and opens with its
   schema, now and after a restart. *)
Theorem C54_created_empty : forall r own s n sc only,
  reachable r own s -> proper n -> ~ In n (map fst (list_databases s)) ->
  snd (create_database s n sc only) = Done tt ->
  let s' := fst (create_database s n sc only) in
  list_databases s' = list_databases s ++ [(n, sc)] /\
  files_below (fs s) (r ++ [n]) = [] /\ fs s' = fs s /\
  open_database s' n sc = Done tt /\
  forall c, ~ In admin_schema c -> In sc c ->
    open_database (fst (restart s' c)) n sc = Done tt.
Proof.
  intros r own s n sc only R P N. unfold list_databases in N. destruct (reachable_inv r own s R) as (I & A & <-).
  pose proof (create_inv s n sc only I P) as I'. revert I'.
  assert (A' : has_admin (fst (create_database s n sc only))) by (apply create_has, A). revert A'.
  unfold create_database. destruct (validate_name n) eqn:V; cbn [negb snd]; [|discriminate].
  destruct (existsb (N.eqb sc) (schemas s)) eqn:E; cbn [negb snd]; [|discriminate].
  rewrite (proj2 (mem_false n (avail s)) N). cbn [negb]. unfold push_record.
  destruct (mem n (map snd (records s))) eqn:M; cbn [snd]; [discriminate|]. apply mem_false in M.
  cbn [fst root fs records avail schemas list_databases]. intros A' I' _. 
  split; [reflexivity|]. split; [apply unrecorded_empty; assumption|]. split; [reflexivity|].
  split.
  - unfold open_database. cbn [avail schemas].
    rewrite (proj2 (lookup_spec n (avail s ++ [(n, sc)]) (i_anames _ I') sc)) by (apply in_app_iff; right; left; reflexivity).
    rewrite N.eqb_refl, E. reflexivity.
  - intros c C D. rewrite (restart_done _ c I' A' C). cbn [fst records]. unfold open_database. cbn [avail schemas].
    pose proof (i_names _ I') as NN. cbn [records] in NN. rewrite (proj2 (lookup_spec n _ NN sc)).
    + rewrite N.eqb_refl. cbn [negb]. replace (existsb (N.eqb sc) (admin_schema :: c)) with true; [reflexivity|].
      symmetry. apply existsb_exists. exists sc. split; [right; exact D|apply N.eqb_refl].
    + cbn [records]. rewrite map_app. apply in_app_iff. right. left. reflexivity.
Qed.

(* Deleting: on success exactly that database is gone, now and after a restart.
   A deletion that fails or is cut short leaves the database listed after the
   next start, and deleting it again then succeeds. *)
Theorem C54_delete : forall r own s n io,
  reachable r own s -> op_ok (ODelete n io) ->
  let '(s', res) := delete_database s n io in
  match res with
  | Done _ =>
      In n (map fst (map snd (records s))) /\
      list_databases s' = without n (list_databases s) /\
      files_below (fs s') (r ++ [n]) = [] /\
      (forall c, ~ In admin_schema c -> ~ In n (map fst (list_databases (fst (restart s' c)))))
  | _ =>
      In n (map fst (map snd (records s))) -> forall c, ~ In admin_schema c ->
        let t := fst (restart s' c) in
        In n (map fst (list_databases t)) /\ snd (delete_database t n None) = Done tt
  end.
Proof.
  intros r own s n io R (V & P & D). destruct (reachable_inv r own s R) as (I & A & <-).
  pose proof (delete_inv s n io I V P) as I'.
  assert (A' : has_admin (fst (delete_database s n io))) by (apply delete_has; auto).
  destruct (delete_cases s n io I V P) as [D1 D2].
  assert (C : (io = None \/ exists_path (fs s) (root s ++ [n]) = false) \/
              (exists_path (fs s) (root s ++ [n]) = true /\ exists sv, io = Some sv)).
  { destruct io; [|tauto]. destruct (exists_path _ _); eauto. }
  destruct C as [C | [C [sv ->]]]; [rewrite (D1 C) in * | rewrite (D2 C sv eq_refl) in * ]; cbn [fst] in *.
  - destruct (mem n (map snd (records s))) eqn:M.
    + apply mem_spec in M. split; [exact M|]. split; [reflexivity|]. split; [apply files_below_deleted|].
      intros c Hc. rewrite (restart_done _ c I' A' Hc). cbn [fst list_databases avail records].
      rewrite remove_record_without. intro K. apply in_map_iff in K. destruct K as ((m & sc) & E & K). cbn [fst] in E. subst m.
      apply without_in in K. tauto.
    + apply mem_false in M. contradiction.
  - intros M c Hc. pose proof (restart_inv _ I' (admin_schema :: c)) as IT.
    rewrite (restart_done _ c I' A' Hc). cbn [fst list_databases avail records] in *. split; [exact M|].
    destruct (delete_cases _ n None IT V P) as [E1 _]. rewrite E1 by (left; reflexivity). cbn [snd records].
    rewrite (proj2 (mem_spec n _) M). reflexivity.
Qed.

(* Names stay unique through every history. *)
Theorem C54_unique_names : forall r own s, reachable r own s ->
  NoDup (map fst (list_databases s)) /\ NoDup (map fst (map snd (records s))) /\
  (forall n, ~ In n (map fst (map snd (records s))) -> proper n -> files_below (fs s) (r ++ [n]) = []).
Proof.
  intros r own s R. destruct (reachable_inv r own s R) as (I & A & <-).
  split; [exact (i_anames s I)|]. split; [exact (i_names s I)|]. intros n H K. apply unrecorded_empty; assumption.
Qed.

(* a deletion dying half way, then a restart *)
Example C54_crash_example : exists s0,
  open_storage (new_storage ex_root ex_own) [7] = Done s0 /\
  let l := [OCreate nm_a 7 false; OWrite nm_a [[120]] [1]; OWrite nm_a [[121]] [2];
            OCrashDelete nm_a (fun p => path_eqb p (ex_root ++ [nm_a; [120]])) [7]] in
  Forall op_ok l /\ reachable ex_root ex_own (fst (run s0 l)) /\
  list_databases (fst (run s0 l)) = [(admin_name, 0); (nm_a, 7)] /\
  files_below (fs (fst (run s0 l))) (ex_root ++ [nm_a]) = [([[120]], [1])] /\
  op_ok (ODelete nm_a None) /\ snd (delete_database (fst (run s0 l)) nm_a None) = Done tt /\
  proper nm_b /\ snd (create_database (fst (run s0 l)) nm_b 7 false) = Done tt.
Proof.
  eexists. split; [reflexivity|]. set (s0 := mk _ _ _ _ _). intro l.
  assert (F : Forall op_ok l). { repeat constructor; try (cbn; intuition discriminate). }
  split; [exact F|]. split.
  { exists [7], s0, l. split; [exact (proj1 C54_refine_example)|]. split; [cbn; intuition discriminate|].
    split; [reflexivity|]. split; [exact F|reflexivity]. }
  split; [reflexivity|]. split; [reflexivity|]. split; [repeat split; try discriminate; cbn; intuition discriminate|].
  split; [reflexivity|]. split; [|reflexivity]. split; [discriminate|cbn; intuition discriminate].
Qed.

(* ---------- what does not hold ---------- *)
(* The empty name is accepted; deleting it erases the whole storage directory,
   even when no such database exists and the call reports DatabaseNotFound. *)
Theorem C54_empty_name_refuted :
  validate_name [] = true /\
  exists s0, open_storage (new_storage ex_root ex_own) [7] = Done s0 /\
  let s := fst (run s0 [OCreate nm_a 7 false; OWrite nm_a [[120]] [1]]) in
  fs s <> [] /\ snd (delete_database s [] None) = Fail ENotFound /\ fs (fst (delete_database s [] None)) = [].
Proof. split; [reflexivity|]. eexists. split; [reflexivity|]. cbv zeta. split; [discriminate|]. split; reflexivity. Qed.

(* delete_database does not validate its argument: "../x" and absolute paths
   erase directories outside the storage, "a/b" erases part of database a. *)
Theorem C54_delete_escapes_refuted :
  exists s0, open_storage (new_storage ex_root (ex_own ++ [([[104; 111]; [109; 101]], [5])])) [7] = Done s0 /\
  let s := fst (run s0 [OCreate nm_a 7 false; OWrite nm_a [nm_b; [120]] [1]]) in
  let up := [46; 46; 47; 104; 111] (* "../ho" *) in
  let abs := [47; 104; 111] (* "/ho" *) in
  let inner := nm_a ++ 47 :: nm_b in
  is_file (fs s) [[104; 111]; [109; 101]] = true /\
  is_file (fs (fst (delete_database s up None))) [[104; 111]; [109; 101]] = false /\
  is_file (fs (fst (delete_database s abs None))) [[104; 111]; [109; 101]] = false /\
  files_below (fs s) (ex_root ++ [nm_a]) <> [] /\
  files_below (fs (fst (delete_database s inner None))) (ex_root ++ [nm_a]) = [].
Proof. eexists. split; [reflexivity|]. cbv zeta. repeat split; try reflexivity. discriminate. Qed.

(* The names the storage keeps for itself, as they are written in its source. *)
Definition letters (s : String.string) : name := map (fun c => N.of_nat (Ascii.nat_of_ascii c)) (String.list_ascii_of_string s).
Section Names.
Local Open Scope string_scope.
Example C54_reserved_names : reserved_names = map letters ["server-id"; "storage-id"; "vault-keys"; "master-keys"]%list.
Proof. reflexivity. Qed.
End Names.

(* A database may be named like the storage's own directories, and deleting it
   erases them (here: the encryption keys). *)
Theorem C54_reserved_refuted :
  let keys := nth 2 reserved_names [] in
  let own := [(ex_root ++ [keys; [49]], [42])] in
  validate_name keys = true /\ own_files_ok ex_root own /\
  exists s0, open_storage (new_storage ex_root own) [7] = Done s0 /\
  snd (create_database s0 keys 7 false) = Done tt /\
  fs s0 = own /\ fs (fst (delete_database (fst (create_database s0 keys 7 false)) keys None)) = [].
Proof.
  cbv zeta. split; [reflexivity|]. split.
  { intros p d [H|[]]. injection H as <- <-. eexists _, _. split; [|reflexivity]. right; right; left; reflexivity. }
  eexists. split; [reflexivity|]. repeat split; reflexivity.
Qed.

(* create with only_if_needed reports success for a database that exists with
   another schema; opening it with the requested schema then fails. *)
Theorem C54_only_if_needed_refuted :
  exists s0, open_storage (new_storage ex_root ex_own) [7; 8] = Done s0 /\
  let s := fst (create_database s0 nm_a 7 false) in
  snd (create_database s nm_a 8 true) = Done tt /\
  open_database (fst (create_database s nm_a 8 true)) nm_a 8 = Fail EMismatch.
Proof. eexists. split; [reflexivity|]. split; reflexivity. Qed.

(* The storage's own "_admin" database is deleted like any other: its files go. *)
Theorem C54_admin_deletable_refuted :
  exists s0, open_storage (new_storage ex_root ex_own) [7] = Done s0 /\
  let s := fst (write_in_database s0 admin_name [[120]] [1]) in
  files_below (fs s) (ex_root ++ [admin_name]) <> [] /\
  files_below (fs (fst (delete_database s admin_name None))) (ex_root ++ [admin_name]) = [].
Proof. eexists. split; [reflexivity|]. cbv zeta. split; [discriminate|reflexivity]. Qed.

(* FINDING: a deletion that fails leaves the name unusable until the storage is opened
   again: the database is not listed and cannot be opened, and creating it fails with
   the unique key violation of the internal view. *)
Theorem C54_failed_delete_refuted : forall r own s n io,
  reachable r own s -> op_ok (ODelete n io) -> In n (map fst (map snd (records s))) ->
  let s' := fst (delete_database s n io) in
  snd (delete_database s n io) <> Done tt ->
  snd (delete_database s n io) = Fail EIo /\
  ~ In n (map fst (list_databases s')) /\
  (forall sc, open_database s' n sc = Fail ENotFound) /\
  (forall sc only, In sc (schemas s') -> create_database s' n sc only = (s', Fail EUnique)).
Proof.
  intros r own s n io R (V & P & D) M s' F. destruct (reachable_inv r own s R) as (I & A & <-).
  destruct (delete_cases s n io I V P) as [D1 D2].
  assert (C : (io = None \/ exists_path (fs s) (root s ++ [n]) = false) \/
              (exists_path (fs s) (root s ++ [n]) = true /\ exists sv, io = Some sv)).
  { destruct io; [|tauto]. destruct (exists_path _ _); eauto. }
  destruct C as [C | [C [sv ->]]].
  - rewrite (D1 C) in F. cbn [snd] in F. rewrite (proj2 (mem_spec _ _) M) in F. congruence.
  - unfold s'. rewrite (D2 C sv eq_refl). cbn [fst snd]. split; [reflexivity|].
    assert (NA : ~ In n (map fst (without n (avail s)))).
    { intros K. apply in_map_iff in K. destruct K as ((m & sc) & E & K). cbn [fst] in E. subst m. apply without_in in K. tauto. }
    split; [exact NA|]. split.
    + intros sc. unfold open_database, lookup. cbn [avail].
      destruct (find (fun e => name_eqb n (fst e)) (without n (avail s))) as [e|] eqn:Q; [|reflexivity]. exfalso.
      assert (X : mem n (without n (avail s)) = true) by (apply find_some in Q; destruct Q as [Q1 Q2]; unfold mem; apply existsb_exists; eauto).
      apply mem_spec in X. contradiction.
    + intros sc only H. unfold create_database. cbn [schemas avail records root fs] in *. rewrite V. cbn [negb].
      assert (X : existsb (N.eqb sc) (schemas s) = true) by (apply existsb_exists; exists sc; split; [exact H|apply N.eqb_refl]).
      rewrite X. cbn [negb]. rewrite (proj2 (mem_false _ _) NA). cbn [negb]. unfold push_record. cbn [records].
      rewrite (proj2 (mem_spec _ _) M). reflexivity.
Qed.
Example C54_failed_delete_example : exists s0, open_storage (new_storage ex_root ex_own) [7] = Done s0 /\
  let s := fst (run s0 [OCreate nm_a 7 false; OWrite nm_a [[120]] [1]]) in
  let s' := fst (delete_database s nm_a (Some (fun _ => true))) in
  snd (delete_database s nm_a (Some (fun _ => true))) = Fail EIo /\ snd (create_database s' nm_a 7 true) = Fail EUnique.
Proof. eexists. split; [reflexivity|]. split; reflexivity. Qed.

Print Assumptions C54_databases_refine.
Print Assumptions C54_accepted_names.
Print Assumptions C54_accepted_names_safe.
Print Assumptions C54_others_untouched.
Print Assumptions C54_created_empty.
Print Assumptions C54_delete.
Print Assumptions C54_unique_names.
Print Assumptions C54_empty_name_refuted.
Print Assumptions C54_delete_escapes_refuted.
Print Assumptions C54_reserved_refuted.
Print Assumptions C54_only_if_needed_refuted.
Print Assumptions C54_admin_deletable_refuted.
Print Assumptions C54_failed_delete_refuted.
