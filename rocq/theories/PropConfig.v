(* Property theorems C110: what a storage and a server are opened with. *)
From Verif Require Import Base Config.
From Coq Require Import Lia.
From Coq Require String Ascii.
Import String.StringSyntax.
Local Open Scope string_scope.
Local Open Scope N_scope.

(* the last of the settings [f] picks, if there is one *)
Fixpoint latest {O A} (f : O -> option A) (l : list O) : option A :=
  match l with [] => None | o :: r => match latest f r with Some x => Some x | None => f o end end.
Definition or_default {A} (o : option A) (d : A) : A := match o with Some x => x | None => d end.
Definition or_else {A} (a b : option A) : option A := match a with Some x => Some x | None => b end.
Definition a_path o := match o with Path p => Some p | _ => None end.
Definition a_memory o := match o with MemoryOnly => Some true | _ => None end.
Definition an_id o := match o with UniqueId i => Some i | _ => None end.
Definition a_vault o := match o with VaultKeyStorage v => Some v | _ => None end.
Definition a_key o := match o with EncryptionKey k => Some k | _ => None end.
Definition a_workers o := match o with WorkerCount n => Some n | _ => None end.
Definition a_parallel o := match o with Parallelization n => Some n | _ => None end.
Definition a_check o := match o with CheckOnOpen b => Some b | _ => None end.
Definition a_persist o := match o with Persistence p => Some p | _ => None end.
Definition a_compression o := match o with DefaultCompression z => Some z | _ => None end.
Definition a_permissions o := match o with AuthenticatedPermissions l => Some l | _ => None end.
Definition an_argon o := match o with Argon g => Some g | _ => None end.
Definition a_schema n o := match o with WithSchema m u => if bytes_eqb m n then u else None | _ => None end.
(* what the server keeps to itself *)
Definition a_name o := match o with ServerName n => Some n | _ => None end.
Definition a_limit o := match o with RequestLimit n => Some n | _ => None end.
Definition a_requests o := match o with RequestWorkers n => Some n | _ => None end.
Definition a_default o := match o with DefaultPermissions p => Some p | _ => None end.
Definition an_email o := match o with AcmeEmail e => Some e | _ => None end.
Definition a_directory o := match o with AcmeDirectory d => Some d | _ => None end.
Definition an_api n o := match o with WithApi m h => if bytes_eqb m n then Some h else None | _ => None end.
(* the calls that are for the storage *)
Fixpoint for_storage (l : list server_setting) : list setting :=
  match l with [] => [] | OfStorage o :: r => o :: for_storage r | _ :: r => for_storage r end.

(* every setting of [c] is that of [d], unless [l] has a call for it: then the last of those *)
Definition as_set (d c : storage_config) (l : list setting) : Prop :=
  c_path c = or_else (latest a_path l) (c_path d) /\ c_memory c = or_default (latest a_memory l) (c_memory d) /\
  c_id c = or_else (latest an_id l) (c_id d) /\ c_vault c = or_else (latest a_vault l) (c_vault d) /\ c_key c = or_else (latest a_key l) (c_key d) /\
  c_workers c = or_default (latest a_workers l) (c_workers d) /\ c_parallel c = or_default (latest a_parallel l) (c_parallel d) /\
  c_check c = or_default (latest a_check l) (c_check d) /\ c_persist c = or_default (latest a_persist l) (c_persist d) /\
  c_compression c = or_else (latest a_compression l) (c_compression d) /\ c_permissions c = or_default (latest a_permissions l) (c_permissions d) /\
  c_argon c = or_else (latest an_argon l) (c_argon d) /\ forall n, lookup n (c_schemas c) = or_else (latest (a_schema n) l) (lookup n (c_schemas d)).

Lemma lookup_insert {V} n m (v : V) l : lookup n (insert m v l) = if bytes_eqb m n then Some v else lookup n l.
Proof.
  unfold lookup, insert. cbn [find fst]. destruct (bytes_eqb m n) eqn:E; [reflexivity|]. f_equal.
  induction l as [|[k w] r IH]; [reflexivity|]. cbn [filter fst]. destruct (bytes_eqb k m) eqn:K; cbn [negb find fst].
  - rewrite IH. apply bytes_eqb_spec in K. subst k. rewrite E. reflexivity.
  - rewrite IH. reflexivity.
Qed.
Lemma set_same c o : set_builder c o = set c o.
Proof. destruct c, o; try reflexivity. Qed.
Lemma or_default_or {A} (a b : option A) d : or_default (or_else a b) d = or_default a (or_default b d).
Proof. destruct a; reflexivity. Qed.
Lemma or_else_or {A} (a b c : option A) : or_else (or_else a b) c = or_else a (or_else b c).
Proof. destruct a; reflexivity. Qed.
Lemma latest_cons {O A} (f : O -> option A) o r : latest f (o :: r) = or_else (latest f r) (f o).
Proof. reflexivity. Qed.
Lemma set_one c d o : set c o = Some d -> as_set c d [o].
Proof.
  unfold as_set. destruct c. destruct o as [n [u|]| | | | | | | | | | | | ]; cbn [set]; intros H; inversion H; clear H; subst; cbn -[insert lookup bytes_eqb];
    repeat match goal with |- _ /\ _ => split end; try reflexivity; intros m; try reflexivity.
  rewrite lookup_insert. destruct (bytes_eqb n m); reflexivity.
Qed.

(* C110 *)
Theorem C110_storage : forall d l c, configure d l = Some c -> as_set d c l.
Proof.
  intros d l. revert d. induction l as [|o r IH]; intros d c; cbn [configure].
  - intros X. injection X as <-. unfold as_set. cbn. repeat match goal with |- _ /\ _ => split end; reflexivity.
  - destruct (set d o) as [e|] eqn:E; [|discriminate]. intros X. specialize (IH e c X). pose proof (set_one _ _ _ E) as K. unfold as_set in *.
    destruct IH as (A1&A2&A3&A4&A5&A6&A7&A8&A9&A10&A11&A12&A13). destruct K as (B1&B2&B3&B4&B5&B6&B7&B8&B9&B10&B11&B12&B13).
    rewrite A1,A2,A3,A4,A5,A6,A7,A8,A9,A10,A11,A12. cbn [latest] in B1,B2,B3,B4,B5,B6,B7,B8,B9,B10,B11,B12,B13. rewrite !latest_cons, B1,B2,B3,B4,B5,B6,B7,B8,B9,B10,B11,B12.
    repeat match goal with |- _ /\ _ => split end; try (rewrite or_else_or; reflexivity); try (rewrite or_default_or; reflexivity).
    intros n. rewrite A13, B13, latest_cons. rewrite or_else_or. reflexivity.
Qed.
(* only a schema that cannot be described is refused *)
Theorem C110_refused : forall d l, configure d l = None <-> exists n, In (WithSchema n None) l.
Proof.
  intros d l. revert d. induction l as [|o r IH]; intros d; cbn [configure].
  - split; [discriminate|intros [n []]].
  - destruct (set d o) as [e|] eqn:E.
    + rewrite IH. split; intros [n H]; exists n; [right; exact H|]. destruct H as [->|H]; [|exact H]. destruct d; discriminate.
    + split; [|reflexivity]. intros _. destruct d, o as [n [u|]| | | | | | | | | | | | ]; try discriminate. exists n. left. reflexivity.
Qed.
Lemma server_calls l : forall c c', configure_server c l = Some c' ->
  configure (s_storage c) (for_storage l) = Some (s_storage c') /\
  s_name c' = or_default (latest a_name l) (s_name c) /\ s_limit c' = or_default (latest a_limit l) (s_limit c) /\
  s_requests c' = or_default (latest a_requests l) (s_requests c) /\ s_permissions c' = or_default (latest a_default l) (s_permissions c) /\
  s_email c' = or_else (latest an_email l) (s_email c) /\ s_directory c' = or_default (latest a_directory l) (s_directory c) /\
  forall n, lookup n (s_apis c') = or_else (latest (an_api n) l) (lookup n (s_apis c)).
Proof.
  induction l as [|o r IH]; intros c c'; cbn [configure_server].
  - intros X. injection X as <-. cbn. repeat match goal with |- _ /\ _ => split end; reflexivity.
  - destruct (set_server c o) as [e|] eqn:E; [|discriminate]. intros X. destruct (IH e c' X) as (A & B1 & B2 & B3 & B4 & B5 & B6 & B7). rewrite B1, B2, B3, B4, B5, B6.
    destruct c as [d nm li rq pe em di ap]. destruct o; cbn [set_server] in E; rewrite ?set_same in E;
      [destruct (set d o) as [d'|] eqn:D; [|discriminate]; cbn [option_map] in E|..]; injection E as <-; cbn [for_storage configure s_storage s_name s_limit s_requests s_permissions s_email s_directory s_apis] in *;
      rewrite ?D; (split; [assumption|]); rewrite !latest_cons; cbn [a_name a_limit a_requests a_default an_email a_directory];
      repeat match goal with |- _ /\ _ => split end;
      try (match goal with |- context [latest ?f r] => destruct (latest f r); reflexivity end);
      intros m; rewrite B7, latest_cons; cbn [an_api]; rewrite ?lookup_insert; try (destruct (bytes_eqb n m)); destruct (latest (an_api m) r); reflexivity.
Qed.
(* a server's storage is configured exactly as a storage would be by the same calls, in the same
   order; and of the server's own settings too the last call counts *)
Theorem C110_server : forall d l c, configure_server (default_server d) l = Some c ->
  configure d (for_storage l) = Some (s_storage c) /\
  s_name c = or_default (latest a_name l) s_bonsaidb /\ s_limit c = or_default (latest a_limit l) 16 /\ s_requests c = or_default (latest a_requests l) 16 /\
  s_permissions c = or_default (latest a_default l) (Only []) /\ s_email c = latest an_email l /\ s_directory c = or_default (latest a_directory l) s_letsencrypt /\
  forall n, lookup n (s_apis c) = latest (an_api n) l.
Proof.
  intros d l c H. destruct (server_calls _ _ _ H) as (A & B1 & B2 & B3 & B4 & B5 & B6 & B7). cbn in A, B1, B2, B3, B4, B5, B6.
  repeat match goal with |- _ /\ _ => split end; try assumption.
  - rewrite B5. destruct (latest an_email l); reflexivity.
  - intros n. rewrite B7. cbn. destruct (latest (an_api n) l); reflexivity.
Qed.
Theorem C110_server_refused : forall d l, configure_server (default_server d) l = None <-> exists n, In (OfStorage (WithSchema n None)) l.
Proof.
  intros d l. generalize (default_server d). clear d. induction l as [|o r IH]; intros c; cbn [configure_server].
  - split; [discriminate|intros [n []]].
  - destruct (set_server c o) as [e|] eqn:E.
    + rewrite IH. split; intros [n H]; exists n; [right; exact H|]. destruct H as [->|H]; [|exact H]. destruct c; discriminate.
    + split; [|reflexivity]. intros _. destruct c as [d nm li rq pe em di ap]. destruct o; try discriminate. cbn [set_server] in E. rewrite set_same in E.
      destruct d, o as [n [u|]| | | | | | | | | | | | ]; try discriminate. exists n. left. reflexivity.
Qed.
(* without settings: twice as many workers as processors and as many threads, whatever the system
   says about itself *)
Theorem C110_workers : forall y immediate,
  let c := default_storage immediate y in
  c_workers c = 2 * c_parallel c /\ 1 <= c_parallel c /\ 2 <= c_workers c /\ logical y <= c_parallel c /\ (forall n, physical y = Some n -> n <= c_parallel c) /\
  (c_parallel c = 1 \/ c_parallel c = logical y \/ physical y = Some (c_parallel c)).
Proof.
  intros [p l] i. cbn [default_storage c_workers c_parallel logical physical]. unfold num_cpus. cbn [logical physical].
  repeat match goal with |- _ /\ _ => split end; try lia; [intros n ->; lia|]. destruct p as [p|]; [|lia].
  destruct (N.max_spec (N.max p l) 1) as [[_ ->]|[_ ->]]; [auto|]. destruct (N.max_spec p l) as [[_ ->]|[_ ->]]; auto.
Qed.
(* the storage opened is the one asked for; its schemas are those registered, each as it was
   registered last, and Admin, whose name nobody else can have *)
Theorem C110_opened : forall an a old immediate y l c, configure (default_storage immediate y) l = Some c ->
  (latest (a_schema an) l <> None -> open an a old c = None) /\
  (latest (a_schema an) l = None -> exists o, open an a old c = Some o /\
     o_path o = or_default (latest a_path l) s_db /\ (o_disk o = false <-> In MemoryOnly l) /\ o_vault o = latest a_vault l /\
     o_workers o = or_default (latest a_workers l) (num_cpus y * 2) /\ o_parallel o = or_default (latest a_parallel l) (num_cpus y) /\ o_check o = or_default (latest a_check l) false /\
     lookup an (o_schemas o) = Some a /\ forall n, n <> an -> lookup n (o_schemas o) = latest (a_schema n) l).
Proof.
  intros an a old im y l c H. destruct (C110_storage _ _ _ H) as (A1&A2&A3&A4&A5&A6&A7&A8&A9&A10&A11&A12&A13). unfold open.
  assert (LK : forall n, lookup n (c_schemas c) = latest (a_schema n) l) by (intros n; rewrite A13; cbn; destruct (latest (a_schema n) l); reflexivity).
  rewrite LK. destruct (latest (a_schema an) l) as [u|]; (split; [intros X|intros X]); try reflexivity; try discriminate; [exfalso; exact (X eq_refl)|].
  eexists. split; [reflexivity|]. cbn [o_path o_disk o_vault o_workers o_parallel o_check o_schemas]. rewrite A1, A2, A4, A6, A7, A8. cbn [default_storage c_path c_memory c_vault c_workers c_parallel c_check].
  repeat match goal with |- _ /\ _ => split end; try reflexivity.
  - destruct (latest a_path l); reflexivity.
  - clear. assert (K : latest a_memory l = Some true /\ In MemoryOnly l \/ latest a_memory l = None /\ ~ In MemoryOnly l).
    { induction l as [|o r [[E I]|[E I]]]; [right; split; [reflexivity|intros []]|left; cbn; rewrite E; auto|]. cbn. rewrite E.
      destruct o; try (right; split; [reflexivity|intros [Q|Q]; [discriminate|exact (I Q)]]). left. auto. }
    destruct K as [[-> I]|[-> I]]; cbn; split; intros X; try assumption; try reflexivity; try discriminate. exfalso. exact (I X).
  - destruct (latest a_vault l); reflexivity.
  - rewrite lookup_insert, bytes_eqb_refl. reflexivity.
  - intros n NE. rewrite lookup_insert, LK. replace (bytes_eqb an n) with false; [reflexivity|]. symmetry. apply not_true_is_false. intros Q. apply bytes_eqb_spec in Q. exact (NE (eq_sym Q)).
Qed.
(* a server opens its storage like that, with its own schema for the certificates; clients that
   have not logged in may do what default_permissions says, which is nothing unless it was called *)
Theorem C110_open_server : forall an a hn h old immediate y l c, an <> hn -> configure_server (default_server (default_storage immediate y)) l = Some c ->
  match open_server an a hn h old c with
  | None => latest (a_schema an) (for_storage l) <> None
  | Some r =>
      configure (default_storage immediate y) (for_storage l ++ [WithSchema hn (Some h)]) <> None /\
      (forall d, configure (default_storage immediate y) (for_storage l ++ [WithSchema hn (Some h)]) = Some d -> open an a old d = Some (r_storage r)) /\
      lookup hn (o_schemas (r_storage r)) = Some h /\
      r_unauthenticated r = match latest a_default l with Some AllowAll => None | Some (Only p) => Some p | None => Some [] end /\
      r_limit r = or_default (latest a_limit l) 16 /\ r_domain r = or_default (latest a_name l) s_bonsaidb
  end.
Proof.
  intros an a hn h old im y l c NE H. destruct (C110_server _ _ _ H) as (A & B1 & B2 & _ & B4 & _). unfold open_server. rewrite set_same.
  assert (CONF : forall d0 l0 d1, configure d0 l0 = Some d1 -> configure d0 (l0 ++ [WithSchema hn (Some h)]) = set d1 (WithSchema hn (Some h))).
  { clear. intros d0 l0. revert d0. induction l0 as [|o r IH]; intros d0 d1; cbn [configure app]; [intros X; injection X as ->; destruct (set d1 _); reflexivity|]. destruct (set d0 o); [apply IH|discriminate]. }
  destruct (set (s_storage c) (WithSchema hn (Some h))) as [d|] eqn:D; [|exfalso; revert D; destruct (s_storage c); discriminate].
  pose proof (CONF _ _ _ A) as Q. rewrite D in Q. destruct (C110_opened an a old _ _ _ _ Q) as [O1 O2].
  assert (LA : forall n, latest (a_schema n) (for_storage l ++ [WithSchema hn (Some h)]) = if bytes_eqb hn n then Some h else latest (a_schema n) (for_storage l)).
  { clear. intros n. induction (for_storage l) as [|o r IH]; cbn [app latest]; [cbn; destruct (bytes_eqb hn n); reflexivity|]. rewrite IH. destruct (bytes_eqb hn n); reflexivity. }
  pose proof (LA an) as LAN. replace (bytes_eqb hn an) with false in LAN by (symmetry; apply not_true_is_false; intros X; apply bytes_eqb_spec in X; exact (NE (eq_sym X))).
  destruct (latest (a_schema an) (for_storage l ++ _)) as [u|].
  - rewrite O1 by discriminate. rewrite <- LAN. discriminate.
  - destruct (O2 eq_refl) as (o & E & _ & _ & _ & _ & _ & _ & _ & LK). rewrite E. cbn [r_storage r_unauthenticated r_limit r_domain]. rewrite B1, B2, B4, Q.
    repeat match goal with |- _ /\ _ => split end; try reflexivity; [discriminate|intros d' X; injection X as <-; exact E|rewrite (LK hn (fun X => NE (eq_sym X))), LA, bytes_eqb_refl; reflexivity|].
    destruct (latest a_default l) as [[]|]; reflexivity.
Qed.
(* and these are the files it makes or uses besides the databases': one with its identity, called
   server-id if there is one of that name, the master keys, and the key for those, unless another
   place was given for it *)
Theorem C110_files : forall an a old c o, open an a old c = Some o -> forall f,
  In f (o_files o) <-> f = [o_path o] \/ (old = true /\ f = [o_path o; text "server-id"]) \/ (old = false /\ f = [o_path o; text "storage-id"]) \/
    f = [o_path o; text "master-keys"] \/ (o_vault o = None /\ f = [o_path o; text "vault-keys"]).
Proof.
  intros an a old c o. unfold open. destruct (lookup an (c_schemas c)); [discriminate|]. intros X. injection X as <-. intros f. cbn [o_files o_path o_vault].
  change (text "server-id") with s_server_id. change (text "storage-id") with s_storage_id. change (text "master-keys") with s_master_keys. change (text "vault-keys") with s_vault_keys.
  destruct old, (c_vault c); cbn [In]; split; intros X; repeat match goal with H : _ \/ _ |- _ => destruct H as [H|H] | H : _ /\ _ |- _ => destruct H end; subst; auto 10; try discriminate; contradiction.
Qed.
(* "memory_only prevents storing data on the disk": the folder, the identity and the keys that
   decrypt everything are on the disk all the same *)
Theorem C110_memory_refuted : forall an a old immediate y l c o, configure (default_storage immediate y) (MemoryOnly :: l) = Some c -> open an a old c = Some o ->
  o_disk o = false /\ In [o_path o] (o_files o) /\ In [o_path o; s_master_keys] (o_files o) /\ (latest a_vault l = None -> In [o_path o; s_vault_keys] (o_files o)).
Proof.
  intros an a old im y l c o H E. destruct (C110_opened an a old _ _ _ _ H) as [O1 O2].
  destruct (latest (a_schema an) (MemoryOnly :: l)); [rewrite O1 in E by discriminate; discriminate|]. destruct (O2 eq_refl) as (o' & E' & P & M & V & _). rewrite E in E'. injection E' as <-.
  split; [apply M; left; reflexivity|]. revert E V. unfold open. destruct (lookup an (c_schemas c)); [discriminate|]. intros X. injection X as <-. cbn [o_path o_files o_vault].
  intros V. cbn [latest a_vault] in V. repeat match goal with |- _ /\ _ => split end; [left; reflexivity|right; right; left; reflexivity|]. intros N. rewrite N in V. rewrite V. right; right; right; left. reflexivity.
Qed.
(* registering two schemas with one name keeps the last, silently *)
Theorem C110_schema_replaced_refuted : forall d n u v, u <> v ->
  exists c, configure d [WithSchema n (Some u); WithSchema n (Some v)] = Some c /\ lookup n (c_schemas c) = Some v.
Proof. intros d n u v _. destruct d as [p m i y k w x b s z a g h]. eexists. split; [reflexivity|]. cbn [c_schemas]. rewrite lookup_insert, bytes_eqb_refl. reflexivity. Qed.
(* serve binds what it is told to, and the standard ports of every interface otherwise *)
Theorem C110_serve : forall bindable f down a,
  In a (fst (serve bindable f down)) <-> bindable a = true /\
    (a = or_default (f_http f) (mk_address Unspecified 80) \/ a = or_default (f_https f) (mk_address Unspecified 443) \/ a = or_default (f_listen f) (mk_address Unspecified 5645)).
Proof.
  intros b f down a. unfold serve, sockets, or_default. cbn [fst]. rewrite filter_In. cbn [In]. split; [intros [H E]; split; [exact E|]|intros [E H]; split; [|exact E]];
    repeat match goal with H : _ \/ _ |- _ => destruct H as [H|H] end; auto; contradiction.
Qed.
(* "--listen-on defaults to a localhost address": it is every interface's *)
Theorem C110_localhost_refuted : exists f, f_listen f = None /\ forall bindable down, bindable (mk_address Unspecified 5645) = true -> In (mk_address Unspecified 5645) (fst (serve bindable f down)).
Proof. exists (mk_flags None None None None). split; [reflexivity|]. intros b down H. apply C110_serve. split; [exact H|]. right; right. reflexivity. Qed.
(* a server none of whose sockets could be bound serves nobody and does not report it *)
Theorem C110_serve_refuted : forall f, exists bindable, fst (serve bindable f true) = [] /\ snd (serve bindable f true) = true.
Proof. intros f. exists (fun _ => false). split; reflexivity. Qed.

Example C110_ex :
  let admin := [1] in let hosted := [2] in
  let l := [OfStorage (Path [7]); ServerName [8]; OfStorage (WithSchema [3] (Some 5)); OfStorage (WorkerCount 3); OfStorage (Path [9]); OfStorage (WithSchema [3] (Some 6)); WithApi [4] 1;
            OfStorage (WithSchema [2] (Some 7)); DefaultPermissions AllowAll; OfStorage MemoryOnly; RequestLimit 4; DefaultPermissions (Only [5])] in
  exists c r, configure_server (default_server (default_storage 0 (mk_system (Some 4) 8))) l = Some c /\ open_server admin 100 hosted 200 false c = Some r /\
  o_path (r_storage r) = [9] /\ o_disk (r_storage r) = false /\ o_workers (r_storage r) = 3 /\ o_parallel (r_storage r) = 8 /\ lookup [3] (o_schemas (r_storage r)) = Some 6 /\
  lookup hosted (o_schemas (r_storage r)) = Some 200 /\ lookup admin (o_schemas (r_storage r)) = Some 100 /\ r_unauthenticated r = Some [5] /\ r_limit r = 4 /\ r_domain r = [8] /\
  o_files (r_storage r) = [[[9]]; [[9]; s_storage_id]; [[9]; s_master_keys]; [[9]; s_vault_keys]] /\
  s_db = [100; 98; 46; 98; 111; 110; 115; 97; 105; 100; 98] /\ s_bonsaidb = [98; 111; 110; 115; 97; 105; 100; 98].
Proof. eexists _, _. split; [vm_compute; reflexivity|]. split; [vm_compute; reflexivity|]. vm_compute. repeat match goal with |- _ /\ _ => split end; reflexivity. Qed.
Example C110_ex_serve :
  let f := mk_flags (Some (mk_address (Host [1]) 99)) (Some true) None None in
  serve (fun a => negb (a_port a =? 80)) f true = ([mk_address Unspecified 443; mk_address (Host [1]) 99], true) /\ reuses f = true.
Proof. vm_compute. auto. Qed.
Print Assumptions C110_storage.
Print Assumptions C110_refused.
Print Assumptions C110_server.
Print Assumptions C110_server_refused.
Print Assumptions C110_workers.
Print Assumptions C110_opened.
Print Assumptions C110_open_server.
Print Assumptions C110_memory_refuted.
Print Assumptions C110_schema_replaced_refuted.
Print Assumptions C110_serve.
Print Assumptions C110_localhost_refuted.
Print Assumptions C110_serve_refuted.
Print Assumptions C110_files.
