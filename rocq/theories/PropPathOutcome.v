(* C49, the answers: when creating, moving and renaming succeed and which error they give. *)
From Verif Require Import Base Utf8 Key KeySpec KeyProofs KeyPrefix KeyPrefixProofs Files FilePath FilesProofs PropFiles PropPath PropList.
From Coq Require Import Sorted ZifyBool Lia.
Local Open Scope N_scope.

(* some file, not i, is at the path *)
Definition taken_by_other (st : fstate) (i : N) (path : str) : Prop := exists j g, j <> i /\ In (j, g) st /\ file_path g = path.
Definition taken (st : fstate) (path : str) : Prop := exists j g, In (j, g) st /\ file_path g = path.
(* a path that can be stored: no NUL, at most 65535 bytes *)
Definition storable (path : str) : Prop := str_ok path /\ nul_free path /\ blen path <= 65535.

Lemma storable_key f : contains_slash (f_name f) = false -> ends_with_slash (path_of f) = true -> storable (path_of f ++ f_name f) ->
  (exists k, key_of f = Done k) /\ good_file f.
Proof.
  intros Cn E (O & Nf & B). apply str_ok_app in O as (O1 & O2). rewrite blen_app in B.
  assert (N1 : nul_free (path_of f)) by (intros X; apply Nf, in_app_iff; left; exact X).
  assert (N2 : nul_free (f_name f)) by (intros X; apply Nf, in_app_iff; right; exact X).
  assert (K : exists k, key_of f = Done k).
  { eexists. unfold key_of. apply full_key_form. rewrite !esc_id by (apply utf8_nul; assumption). unfold blen in B. split; [lia|]. split; [lia|reflexivity]. }
  split; [exact K|]. constructor; auto.
Qed.
Lemma same_path f g : good_file f -> good_file g -> file_path f = file_path g <-> key_of f = key_of g.
Proof.
  intros Gf Gg. split.
  - intros E. rewrite !file_path_good in E by assumption. rewrite (ends_inv _ (g_path _ Gf)), (ends_inv _ (g_path _ Gg)), <- !app_assoc in E. cbn [app] in E.
    destruct (split_unique _ _ _ _ E (g_name _ Gf) (g_name _ Gg)) as (E1 & E2).
    unfold key_of. rewrite (ends_inv _ (g_path _ Gf)), (ends_inv _ (g_path _ Gg)), E1, E2. reflexivity.
  - intros E. destruct (g_key _ Gf) as (k & K). rewrite K in E. symmetry in E. unfold key_of in *. destruct (full_key_inj _ _ _ _ _ (proj1 (g_ok _ Gf)) (proj2 (g_ok _ Gf)) (proj1 (g_ok _ Gg)) (proj2 (g_ok _ Gg)) K E) as (E1 & E2).
    rewrite !file_path_good by assumption. congruence.
Qed.
Lemma inv_good st i f : inv st -> In (i, f) st -> good_file f.
Proof. intros V I. pose proof (v_files _ V) as F. rewrite Forall_forall in F. exact (F _ I). Qed.
Lemma str_eqb_refl s : str_eqb s s = true.
Proof. apply bytes_eqb_eq. reflexivity. Qed.
Lemma update_answer st i f f' : inv st -> In (i, f) st -> (exists k, key_of f' = Done k) -> good_file f' ->
  match update_file i f f' st with
  | Done st' => ~ taken_by_other st i (file_path f')
  | Fail AlreadyExists => taken_by_other st i (file_path f')
  | _ => False
  end.
Proof.
  intros V I (k & K) G. unfold update_file. rewrite (proj2 (lookup_in _ _ _ (v_sorted _ V)) I) || rewrite (lookup_in _ _ _ (v_sorted _ V) I).
  replace (match f_path f with Some _ => _ | None => _ end && _) with true by (rewrite str_eqb_refl, andb_true_r; destruct (f_path f); [rewrite str_eqb_refl|]; reflexivity).
  rewrite K. destruct (existsb _ st) eqn:X.
  - apply existsb_exists in X as ([j g] & J & H). cbn [fst snd] in H. apply andb_true_iff in H as (H1 & H2). apply has_key_iff in H2. exists j, g. split; [lia|]. split; [exact J|].
    apply same_path; [eapply inv_good; eassumption|exact G|congruence].
  - intros (j & g & Nj & J & E). rewrite <- not_true_iff_false, existsb_exists in X. apply X. exists (j, g). split; [exact J|]. cbn [fst snd]. apply andb_true_iff. split; [lia|]. apply has_key_iff. rewrite <- K. apply same_path; [eapply inv_good; eassumption|exact G|exact E].
Qed.

(* Moving. With a current handle and a destination that can be stored: it succeeds exactly if
   the path given is absolute and no other file is at the destination. *)
Theorem C49_move_answer st i f np : reachable st -> In (i, f) st -> storable (destination f np) -> (ends_with_slash np = false -> good_path np) ->
  match move_to i f np st with
  | Done _ => starts_with_slash np = true /\ ~ taken_by_other st i (destination f np)
  | Fail InvalidPath => starts_with_slash np = false
  | Fail AlreadyExists => starts_with_slash np = true /\ taken_by_other st i (destination f np)
  | _ => False
  end.
Proof.
  intros R I St G. pose proof (reachable_inv _ R) as V. pose proof (inv_good _ _ _ V I) as Gf. unfold move_to. destruct (starts_with_slash np) eqn:Sn; [|reflexivity].
  assert (M : exists f2, moved f np = Some f2 /\ path_of f2 ++ f_name f2 = destination f np /\ contains_slash (f_name f2) = false /\ ends_with_slash (path_of f2) = true).
  { unfold moved, destination in *. destruct (ends_with_slash np) eqn:E.
    - eexists. split; [reflexivity|]. cbn [path_of f_path f_name]. destruct (1 <? length np)%nat eqn:L; cbn; [split; [reflexivity|split; [apply Gf|exact E]]|].
      destruct np as [|c [|d np]]; [discriminate| |cbn in L; discriminate]. cbn in Sn. apply N.eqb_eq in Sn. subst c. split; [reflexivity|split; [apply Gf|reflexivity]].
    - pose proof (rsplit_spec np) as S. destruct (rsplit_once np) as [[p n]|].
      + destruct S as (S1 & S2). eexists. split; [reflexivity|]. cbn [path_of f_path f_name]. specialize (G eq_refl p n). unfold trimmed in G. rewrite E in G. specialize (G S1 S2). rewrite S1.
        destruct p as [|c p]; cbn [option_map]; [split; [reflexivity|split; [exact S2|reflexivity]]|]. unfold force_slash, path_of. cbn [f_path]. rewrite G, <- app_assoc. split; [reflexivity|split; [exact S2|]]. apply ends_app.
      + exfalso. destruct np as [|c np]; [discriminate|]. cbn in Sn, S. apply N.eqb_eq in Sn. subst c. discriminate. }
  destruct M as (f2 & -> & D & C & E). rewrite <- D in St. destruct (storable_key f2 C E St) as (K & G2). pose proof (update_answer st i f f2 V I K G2) as U. rewrite (file_path_good _ G2), D in U.
  destruct (update_file i f f2 st) as [|[]|]; try contradiction; split; auto.
Qed.

(* Renaming. *)
Theorem C49_rename_answer st i f nn : reachable st -> In (i, f) st -> storable (path_of f ++ nn) ->
  match rename i f nn st with
  | Done (st', f') => ~ In slash nn /\ ~ taken_by_other st i (path_of f ++ nn) /\ In (i, f') st' /\ file_path f' = path_of f ++ nn /\
      (forall j g, j <> i -> In (j, g) st' <-> In (j, g) st)
  | Fail InvalidName => In slash nn
  | Fail AlreadyExists => ~ In slash nn /\ taken_by_other st i (path_of f ++ nn)
  | _ => False
  end.
Proof.
  intros R I St. pose proof (reachable_inv _ R) as V. pose proof (inv_good _ _ _ V I) as Gf. unfold rename. destruct (contains_slash nn) eqn:C.
  { unfold contains_slash in C. apply existsb_exists in C as (x & J & E). apply N.eqb_eq in E. subst x. exact J. }
  assert (NI : ~ In slash nn). { intros J. rewrite <- not_true_iff_false in C. apply C. apply existsb_exists. exists slash. split; [exact J|apply N.eqb_refl]. }
  destruct (storable_key (File (f_path f) nn) C (g_path _ Gf) St) as (K & G2). pose proof (update_answer st i f _ V I K G2) as U. rewrite (file_path_good _ G2) in U. change (path_of (File (f_path f) nn)) with (path_of f) in U. cbn [f_name] in U.
  destruct (update_file i f (File (f_path f) nn) st) as [st'|[]|] eqn:Up; try contradiction.
  - destruct (update_inv _ _ _ _ _ V (g_path _ G2) C (g_ok _ G2) Up) as (_ & I' & _ & Ot). split; [exact NI|]. split; [exact U|]. split; [exact I'|]. split; [apply (file_path_good _ G2)|exact Ot].
  - split; [exact NI|exact U].
Qed.

(* A handle that is not current (the file was deleted, or its path or name changed since):
   nothing is moved or renamed. *)
Theorem C49_stale_handle st i f np nn : reachable st -> ~ In (i, f) st ->
  (forall r, move_to i f np st <> Done r) /\ (forall r, rename i f nn st <> Done r).
Proof.
  intros R NI. assert (X : forall f' st', update_file i f f' st <> Done st').
  { intros f' st'. unfold update_file. destruct (lookup i st) as [cur|] eqn:L; [|discriminate]. apply lookup_In in L.
    destruct (_ && _) eqn:E; [|discriminate]. exfalso. apply NI. apply andb_true_iff in E as (E1 & E2). apply bytes_eqb_eq in E2.
    replace f with cur; [exact L|]. destruct cur as [p n], f as [p' n']. cbn in *. subst n'. f_equal. destruct p, p'; try discriminate; [|reflexivity]. f_equal. apply bytes_eqb_eq, E1. }
  split; intros r.
  - unfold move_to. destruct (starts_with_slash np); [|discriminate]. destruct (moved f np) as [f2|]; [|discriminate]. specialize (X f2). destruct (update_file i f f2 st) as [st'| |]; [|discriminate..]. intros _. exact (X _ eq_refl).
  - unfold rename. destruct (contains_slash nn); [discriminate|]. cbv zeta. specialize (X (File (f_path f) nn)). destruct (update_file i f (File (f_path f) nn) st) as [st'| |]; [|discriminate..]. intros _. exact (X _ eq_refl).
Qed.

Lemma reachable_id st i f : reachable st -> In (i, f) st -> i <= 4294967295.
Proof.
  intros R. revert i f. induction R as [|st o st' R IH O S]; [intros i f []|]. intros i f I.
  assert (U : forall id old f' st2, update_file id old f' st = Done st2 -> In (i, f) st2 -> i <= 4294967295).
  { intros id old f' st2. unfold update_file. destruct (lookup id st) as [cur|] eqn:L; [|discriminate]. apply lookup_In in L. destruct (_ && _); [|discriminate]. destruct (key_of f') as [kk| |]; try discriminate. destruct (existsb _ _); [discriminate|]. intros [= <-] J.
    apply in_map_iff in J as ([a b] & E & J). cbn in E. destruct (N.eqb_spec a id) as [->|]; [injection E as <- _; eapply IH; exact L|injection E as -> ->; eapply IH; exact J]. }
  destruct S as [st p n st' id C|st id g np st' f' L M|st id g nn st' f' L M|st id].
  - unfold create_file in C. destruct (_ || _); [discriminate|]. unfold insert_file in C. destruct (key_of _); try discriminate. destruct (existsb _ _); [discriminate|]. destruct (next_id _ _) as [i0|] eqn:Nx; [|discriminate]. injection C as <- <-.
    apply in_app_iff in I as [I|[[= <- _]|[]]]; [eapply IH; exact I|]. unfold next_id in Nx. destruct (last_id st); [|injection Nx as <-; lia]. destruct (N.ltb_spec (n0 + 1) u32_mod) as [L|]; [|discriminate]. injection Nx as <-. unfold u32_mod in L. lia.
  - unfold move_to in M. destruct (starts_with_slash np); [|discriminate]. destruct (moved g np) as [f2|]; [|discriminate]. destruct (update_file id g f2 st) as [st2| |] eqn:Up; try discriminate. injection M as <- <-. eapply U; eassumption.
  - unfold rename in M. destruct (contains_slash nn); [discriminate|]. cbv zeta in M. destruct (update_file id g (File (f_path g) nn) st) as [st2| |] eqn:Up; try discriminate. injection M as <- <-. eapply U; eassumption.
  - apply filter_In in I as (I & _). eapply IH; exact I.
Qed.
(* Creating at a path. The name is what follows the last slash of the path (one trailing slash
   not counted); it may not be empty. A path that does not start with a slash is a name. *)
Theorem C49_create_answer st s p n : reachable st -> builder_new s = (p, n) -> good_path s -> storable (absolute s) ->
  match create_file p n st with
  | Done (st', id) => ~ taken st (absolute s) /\ (forall f, ~ In (id, f) st) /\ exists f, st' = st ++ [(id, f)] /\ file_path f = absolute s
  | Fail AlreadyExists => taken st (absolute s)
  | Fail InvalidName => ends_with_slash (absolute s) = true \/ (starts_with_slash s = false /\ contains_slash s = true)
  | Fail IdOverflow => ~ taken st (absolute s) /\ exists f, In (4294967295, f) st
  | _ => False
  end.
Proof.
  intros R B G St. pose proof (reachable_inv _ R) as V. unfold create_file.
  destruct (contains_slash n) eqn:Cn.
  { cbn [orb]. unfold builder_new in B. destruct (starts_with_slash s) eqn:Sn; [|injection B as _ <-; right; auto]. exfalso. destruct (if ends_with_slash s && (1 <? length s)%nat then removelast s else s) as [|c s'] eqn:Es.
    - cbn in B. injection B as _ <-. discriminate.
    - pose proof (rsplit_spec (c :: s')) as S. destruct (rsplit_once (c :: s')) as [[p0 n0]|]; [|injection B as _ <-; congruence]. injection B as _ <-. destruct S. congruence. }
  destruct n as [|c0 n0] eqn:En.
  { cbn [orb]. left. unfold builder_new in B. destruct (starts_with_slash s) eqn:Sn.
    - destruct (ends_with_slash s) eqn:E.
      + unfold absolute, trimmed. rewrite E. cbn [andb] in B. destruct (1 <? length s)%nat eqn:L.
        * pose proof (rsplit_spec (removelast s)) as S. destruct (rsplit_once (removelast s)) as [[p0 n0]|].
          -- destruct S as (S1 & S2). injection B as _ ->. destruct (contains_slash (removelast s)) eqn:C; [rewrite S1; apply ends_app|]. rewrite S1 in C. unfold contains_slash in C. rewrite existsb_app in C. cbn in C. rewrite orb_true_r in C. discriminate.
          -- injection B as _ Z. destruct s as [|c s]; [discriminate|]. cbn in Sn. apply N.eqb_eq in Sn. subst c. destruct s; [cbn in L; discriminate|]. cbn [removelast] in Z. discriminate.
        * destruct s as [|c [|d s]]; [discriminate| |cbn in L; discriminate]. cbn in Sn. apply N.eqb_eq in Sn. subst c. reflexivity.
      + cbn [andb] in B. pose proof (rsplit_spec s) as S. destruct (rsplit_once s) as [[p0 n0]|]; [|injection B as _ ->; discriminate]. destruct S as (S1 & _). injection B as _ ->. rewrite S1, ends_app in E. discriminate.
    - injection B as _ ->. reflexivity. }
  rewrite <- En in *. cbn [orb]. destruct (builder_key _ _ _ B Cn ltac:(subst n; discriminate) G) as (Ns & FK).
  assert (PG : ends_with_slash (path_of (new_file p n)) = true) by (destruct p; cbn; [apply ends_force|reflexivity]).
  assert (D : path_of (new_file p n) ++ f_name (new_file p n) = absolute s) by (rewrite <- find_key_absolute, FK; reflexivity).
  rewrite <- D in St. destruct (storable_key (new_file p n) Cn PG St) as ((k & K) & G2).
  assert (T : existsb (fun q => has_key k (snd q)) st = true <-> taken st (absolute s)).
  { rewrite existsb_exists, <- D, <- (file_path_good _ G2). split.
    - intros ([j g] & J & H). apply has_key_iff in H. cbn [snd] in H. exists j, g. split; [exact J|]. apply same_path; [eapply inv_good; eassumption|exact G2|rewrite H, K; reflexivity].
    - intros (j & g & J & E). exists (j, g). split; [exact J|]. apply has_key_iff. cbn [snd]. rewrite <- K. apply same_path; [eapply inv_good; eassumption|exact G2|exact E]. }
  unfold insert_file. rewrite K. destruct (existsb _ st) eqn:X; [apply T; reflexivity|]. assert (NT : ~ taken st (absolute s)) by (intros Y; apply T in Y; congruence).
  destruct (next_id u32_mod (last_id st)) as [id|] eqn:Nx.
  - split; [exact NT|]. split; [|exists (new_file p n); split; [reflexivity|rewrite (file_path_good _ G2); exact D]].
    intros f I. apply (in_map fst) in I. pose proof (next_id_fresh _ _ (v_sorted _ V) Nx _ I). cbn in H. lia.
  - split; [exact NT|]. destruct st as [|q st' _] using rev_ind; [discriminate|]. rewrite last_id_app in Nx. cbn [next_id] in Nx. destruct (N.ltb_spec (fst q + 1) u32_mod) as [|L]; [discriminate|].
    assert (Iq : In q (st' ++ [q])) by (apply in_app_iff; right; left; reflexivity).
    assert (Bd : fst q <= 4294967295) by (eapply reachable_id; [exact R|rewrite <- surjective_pairing; exact Iq]).
    exists (snd q). replace 4294967295 with (fst q) by (unfold u32_mod in L; lia). rewrite <- surjective_pairing. exact Iq.
Qed.

(* Here /a/b exists; /a/c can be created, /a/b cannot, /a/b moves to /x/b, and once /a/c
   exists /a/b cannot be renamed to c. *)
Definition ex_f : file := File (Some [47;97;47]) [98].
Definition ex_g : file := File (Some [47;97;47]) [99].
Lemma reach_more : reachable [(1, ex_f); (2, ex_g)].
Proof.
  assert (R : reachable [(1, ex_f)]). { eapply re_step; [apply re_empty| |apply (p_create _ (Some [47;97]) [98] _ 1); vm_compute; reflexivity]. split; repeat constructor. }
  eapply re_step; [exact R| |apply (p_create _ (Some [47;97]) [99] _ 2); vm_compute; reflexivity]. split; repeat constructor.
Qed.
Example C49_answer_example : reachable [(1, ex_f); (2, ex_g)] /\ In (1, ex_f) [(1, ex_f); (2, ex_g)] /\ storable (destination ex_f [47;120;47]) /\
  storable (path_of ex_f ++ [99]) /\ storable (absolute s_a_b) /\ good_path s_a_b /\
  (exists r, move_to 1 ex_f [47;120;47] [(1, ex_f); (2, ex_g)] = Done r) /\
  move_to 1 ex_f [120;47] [(1, ex_f); (2, ex_g)] = Fail InvalidPath /\
  move_to 1 ex_f [47;97;47;99] [(1, ex_f); (2, ex_g)] = Fail AlreadyExists /\
  rename 1 ex_f [99] [(1, ex_f); (2, ex_g)] = Fail AlreadyExists /\
  create_file (Some [47;97]) [98] [(1, ex_f); (2, ex_g)] = Fail AlreadyExists /\
  create_file None [47] [] = Fail InvalidName /\
  ~ In (1, ex_g) [(1, ex_f); (2, ex_g)] /\ move_to 1 ex_g [47;120;47] [(1, ex_f); (2, ex_g)] = Fail DocumentConflict.
Proof.
  split; [exact reach_more|]. split; [left; reflexivity|].
  assert (T : forall s, forallb (fun c => (0 <? c) && (c <? 128)) s = true -> blen s <=? 65535 = true -> storable s).
  { intros s H L. rewrite forallb_forall in H. split; [|split; [|apply N.leb_le, L]].
    - apply Forall_forall. intros c I. specialize (H c I). unfold char_ok, char_okb; cbv beta in H; lia.
    - intros I. specialize (H 0 I). discriminate. }
  split; [apply T; vm_compute; reflexivity|]. split; [apply T; vm_compute; reflexivity|]. split; [apply T; vm_compute; reflexivity|]. split; [apply C49_example|].
  split; [eexists; vm_compute; reflexivity|]. repeat (split; [vm_compute; reflexivity|]). split; [|vm_compute; reflexivity].
  intros [X|[X|[]]]; discriminate.
Qed.

Print Assumptions C49_move_answer.
Print Assumptions C49_rename_answer.
Print Assumptions C49_stale_handle.
Print Assumptions C49_create_answer.
