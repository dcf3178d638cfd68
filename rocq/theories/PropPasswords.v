(* Property theorems C72: passwords. set_user_password and authenticate, called by any number
   of threads at once, through a pool of hashing threads, while users are created, deleted
   and given groups and roles. *)
From Coq Require Import Permutation Sorted ZifyBool Lia Arith.
From Verif Require Import Base Passwords PasswordsProofs.
Local Open Scope N_scope.

(* Two different passwords never give the same hash with the same parameters and salt. *)
Definition collision_free (K : crypto) : Prop :=
  forall alg v pp salt p p' out, argon K alg v pp salt p = Some out -> argon K alg v pp salt p' = Some out -> p = p'.
(* The configured algorithm and version are among those the verifier knows. *)
Definition supported (K : crypto) (c : config) : Prop := known_alg K (algorithm c) = true /\ known_version K V0x13 = true.

Definition no_passwords : N -> option bytes := fun _ => None.

Lemma returned_loaded s j k x r : returned s j = Some (k, x, r) -> exists z, nth_error (clients s) j = Some z /\ z = CDone k x r.
Proof. unfold returned. destruct (nth_error _ _) as [[]|]; try discriminate. intros [= -> -> ->]. eauto. Qed.

(* Logging in. The call reads the user at EvLoad j; whatever happens afterwards (b), the
   answer is for that user and is decided by the last password that set_user_password
   had set (returned Ok for) before that moment: accepted if and only if it is the
   given one. The only other outcome is a lost channel (a hashing thread panicked, or none
   is left), which never logs in. *)
Theorem C72_login : forall K c a j b w q d k x r, supported K c -> collision_free K ->
  nth_error (clients (run K c (init c) a)) j = Some (CNew (CAuth w q)) ->
  load (users (run K c (init c) a)) w = Some d ->
  returned (run K c (init c) (a ++ EvLoad j :: b)) j = Some (k, x, r) ->
  k = CAuth w q /\ x = Some d /\ In d (users (run K c (init c) a)) /\
  (r = RLoggedIn (d_id d) \/ r = RInvalidCredentials \/ r = RChannel) /\
  (r = RLoggedIn (d_id d) -> passwords K c (init c) a no_passwords (d_id d) = Some q) /\
  (r = RInvalidCredentials -> passwords K c (init c) a no_passwords (d_id d) <> Some q).
Proof.
  intros K c a j b w q d k x r [KA KV] CF J L R.
  pose proof (inv_run K c a _ _ (inv_init K c)) as V. fold no_passwords in V. set (s := run K c (init c) a) in *. set (m := passwords K c (init c) a no_passwords) in *.
  rewrite run_app in R. fold s in R. change (run K c s (EvLoad j :: b)) with (run K c (step K c s (EvLoad j)) b) in R.
  assert (LD : exists z, nth_error (clients (step K c s (EvLoad j))) j = Some z /\ loaded z = Some (CAuth w q, Some d)).
  { cbn [step]. unfold ev_load. rewrite J. cbn [who_of]. rewrite L.
    destruct (u_hash (d_user d)); (eexists; split; [cbn; eapply set_nth_same, J|reflexivity]). }
  apply (run_keeps K c b) in LD. destruct LD as (z & Z & ZL).
  apply returned_loaded in R. destruct R as (z' & Z' & ->). rewrite Z' in Z. injection Z as <-. cbn in ZL. injection ZL as -> ->.
  pose proof (inv_run K c b _ _ (inv_step K c _ _ (EvLoad j) V)) as V2.
  pose proof (i_clients _ _ _ _ V2 _ _ Z') as O. cbn in O.
  assert (DI : In d (users s)).
  { destruct w; cbn in L; apply find_some in L; apply L. }
  split; [reflexivity|]. split; [reflexivity|]. split; [exact DI|].
  pose proof (i_hash _ _ _ _ V d DI) as H. fold m in H.
  assert (AR : auth_result K d q = RLoggedIn (d_id d) /\ m (d_id d) = Some q \/ auth_result K d q = RInvalidCredentials /\ m (d_id d) <> Some q).
  { unfold auth_result. destruct (m (d_id d)) as [p|].
    - destruct H as (t & HT & tp & _ & MD). rewrite HT.
      destruct (verify_request K (mkreq 0 q None 0) t) eqn:VR.
      + right. split; [reflexivity|]. intros [= ->]. rewrite (made_accepts K c tp _ _ _ _ KA KV MD) in VR; [discriminate|reflexivity].
      + left. split; [reflexivity|]. destruct (made_rejects K c _ _ _ _ _ MD VR) as (salt & out & A1 & A2). f_equal. eapply CF; eassumption.
      + right. split; [reflexivity|]. intros [= ->]. rewrite (made_accepts K c tp _ _ _ _ KA KV MD) in VR; [discriminate|reflexivity].
    - rewrite H. right. split; [reflexivity|discriminate]. }
  destruct O as [->| ->].
  - destruct AR as [[-> M]|[-> M]]; (split; [auto|split; intros E; first [discriminate|exact M]]).
  - split; [auto|]. split; discriminate.
Qed.

(* The right password is accepted whatever the hash function (no assumption about
   collisions): it is refused only when a hashing thread was lost. *)
Theorem C72_right_password : forall K c a j b w q d k x r, supported K c ->
  nth_error (clients (run K c (init c) a)) j = Some (CNew (CAuth w q)) ->
  load (users (run K c (init c) a)) w = Some d ->
  passwords K c (init c) a no_passwords (d_id d) = Some q ->
  returned (run K c (init c) (a ++ EvLoad j :: b)) j = Some (k, x, r) -> r = RLoggedIn (d_id d) \/ r = RChannel.
Proof.
  intros K c a j b w q d k x r [KA KV] J L P R.
  pose proof (inv_run K c a _ _ (inv_init K c)) as V. fold no_passwords in V. set (s := run K c (init c) a) in *. 
  rewrite run_app in R. fold s in R. change (run K c s (EvLoad j :: b)) with (run K c (step K c s (EvLoad j)) b) in R.
  assert (LD : exists z, nth_error (clients (step K c s (EvLoad j))) j = Some z /\ loaded z = Some (CAuth w q, Some d)).
  { cbn [step]. unfold ev_load. rewrite J. cbn [who_of]. rewrite L.
    destruct (u_hash (d_user d)); (eexists; split; [cbn; eapply set_nth_same, J|reflexivity]). }
  apply (run_keeps K c b) in LD. destruct LD as (z & Z & ZL).
  apply returned_loaded in R. destruct R as (z' & Z' & ->). rewrite Z' in Z. injection Z as <-. cbn in ZL. injection ZL as -> ->.
  pose proof (inv_run K c b _ _ (inv_step K c _ _ (EvLoad j) V)) as V2.
  pose proof (i_clients _ _ _ _ V2 _ _ Z') as O. cbn in O.
  assert (DI : In d (users s)).
  { destruct w; cbn in L; apply find_some in L; apply L. }
  pose proof (i_hash _ _ _ _ V d DI) as H. rewrite P in H. destruct H as (t & HT & tp & _ & MD).
  destruct O as [->| ->]; [left|right; reflexivity].
  unfold auth_result. rewrite HT, (made_accepts K c tp _ _ _ _ KA KV MD) by reflexivity. reflexivity.
Qed.

(* Without such a user, or for a user whose password was never set, nobody logs in. *)
Theorem C72_no_user : forall K c a j b w q k x r,
  nth_error (clients (run K c (init c) a)) j = Some (CNew (CAuth w q)) ->
  (load (users (run K c (init c) a)) w = None \/ exists d, load (users (run K c (init c) a)) w = Some d /\ passwords K c (init c) a no_passwords (d_id d) = None) ->
  returned (run K c (init c) (a ++ EvLoad j :: b)) j = Some (k, x, r) -> r = RInvalidCredentials.
Proof.
  intros K c a j b w q k x r J L R.
  pose proof (inv_run K c a _ _ (inv_init K c)) as V. fold no_passwords in V. set (s := run K c (init c) a) in *.
  rewrite run_app in R. fold s in R. change (run K c s (EvLoad j :: b)) with (run K c (step K c s (EvLoad j)) b) in R.
  assert (D : exists x, nth_error (clients (step K c s (EvLoad j))) j = Some (CDone (CAuth w q) x RInvalidCredentials)).
  { cbn [step]. unfold ev_load. rewrite J. cbn [who_of]. destruct L as [->|(d & L & P)].
    - exists None. cbn. eapply set_nth_same, J.
    - rewrite L. assert (DI : In d (users s)) by (destruct w; cbn in L; apply find_some in L; apply L).
      pose proof (i_hash _ _ _ _ V d DI) as H. rewrite P in H. rewrite H. exists (Some d). cbn. eapply set_nth_same, J. }
  assert (KP : forall es s' y, nth_error (clients s') j = Some (CDone (CAuth w q) y RInvalidCredentials) -> nth_error (clients (run K c s' es)) j = Some (CDone (CAuth w q) y RInvalidCredentials)).
  { clear. induction es as [|e es IH]; intros s' y H; [exact H|]. cbn. apply IH.
    assert (WC : forall i z z', nth_error (clients s') i = Some z -> (forall k' x' r', z <> CDone k' x' r') -> nth_error (clients (with_client s' i z')) j = Some (CDone (CAuth w q) y RInvalidCredentials)).
    { intros i z z' Z NZ. cbn. rewrite set_nth_other; [exact H|]. intros ->. rewrite H in Z. injection Z as <-. eapply NZ. reflexivity. }
    assert (RP : forall s2 i a, clients s2 = clients s' -> nth_error (clients (reply s2 i a)) j = Some (CDone (CAuth w q) y RInvalidCredentials)).
    { intros s2 i a E. unfold reply. rewrite E. destruct (nth_error (clients s') i) as [z|] eqn:Z; [|rewrite E; exact H].
      destruct z; try (rewrite E; exact H). cbn. rewrite E, set_nth_other; [exact H|]. intros ->. rewrite H in Z. discriminate. }
    destruct e; cbn [step].
    - cbn. rewrite nth_error_app1; [exact H|]. apply nth_error_Some. congruence.
    - unfold ev_load. destruct (nth_error (clients s') i) as [z|] eqn:Z; [|exact H]. destruct z; try exact H.
      destruct (load _ _), c0; try destruct (u_hash _); (eapply WC; [exact Z|discriminate]).
    - unfold ev_send. destruct (nth_error (clients s') i) as [z|] eqn:Z; [|exact H]. destruct z; try exact H.
      destruct (existsb _ _); (eapply WC; [exact Z|discriminate]).
    - unfold ev_take. destruct (nth_error (workers s') _) as [[| |]|]; try exact H. destruct (queue s'); exact H.
    - unfold ev_init. destruct (nth_error (workers s') _) as [[| |]|]; try exact H. destruct (tmpl s'); try exact H. destruct (rq_against _); exact H.
    - unfold ev_init_done. destruct (nth_error (workers s') _) as [[| |]|]; try exact H. destruct (tmpl s'); try exact H. destruct (Nat.eqb _ _); [|exact H].
      destruct (initialize _ _ _ _); try exact H. apply RP. reflexivity.
    - unfold ev_reply. destruct (nth_error (workers s') _) as [[| |]|]; try exact H. destruct (rq_against _); [apply RP; reflexivity|]. destruct (tmpl s'); try exact H. apply RP. reflexivity.
    - unfold ev_recv. destruct (nth_error (clients s') i) as [z|] eqn:Z; [|exact H].
      destruct z as [k|k d|k d|k d [a|]|k d t|k d r]; try exact H.
      + destruct k; destruct a; (eapply WC; [exact Z|discriminate]).
      + destruct k; (eapply WC; [exact Z|discriminate]).
    - unfold ev_update. destruct (nth_error (clients s') i) as [z|] eqn:Z; [|exact H].
      destruct z as [k|k d|k d|k d [a|]|k d t|k d r]; try exact H.
      destruct (find _ _); [destruct (_ && _)|]; (eapply WC; [exact Z|discriminate]).
    - unfold ev_create. destruct (existsb _ _); exact H.
    - exact H.
    - exact H. }
  destruct D as (y & D). apply (KP b) in D. apply returned_loaded in R. destruct R as (z & Z & ->). rewrite D in Z. congruence.
Qed.

(* Which user a call is about: the one with the given id or with exactly the given name;
   NotFound or InvalidCredentials when there is none. A new storage has a hashing thread. *)
Theorem C72_which_user : forall K c es i k d r, returned (run K c (init c) es) i = Some (k, d, r) ->
  match d with
  | Some d => match who_of k with ByName n => u_name (d_user d) = n | ById j => d_id d = j end
  | None => r = match k with CSet _ _ => RUserNotFound | CAuth _ _ => RInvalidCredentials end
  end /\
  existsb alive (workers (init c)) = true.
Proof.
  intros K c es i k d r R. split.
  2:{ cbn. destruct (N.to_nat (N.max (hashers c) 1)) eqn:E; [lia|reflexivity]. }
  pose proof (inv_run K c es _ _ (inv_init K c)) as V.
  assert (L : forall es s, (forall i x k d, nth_error (clients s) i = Some x -> loaded x = Some (k, Some d) -> exists us, load us (who_of k) = Some d) ->
     forall i x k d, nth_error (clients (run K c s es)) i = Some x -> loaded x = Some (k, Some d) -> exists us, load us (who_of k) = Some d).
  { clear. induction es as [|e es IH]; intros s H; [exact H|]. cbn. apply IH. clear IH.
    assert (WC : forall s' i0 y x0, clients s' = clients s -> nth_error (clients s) i0 = Some x0 -> (forall k d, loaded y = Some (k, Some d) -> loaded x0 = Some (k, Some d) \/ exists us, load us (who_of k) = Some d) ->
       forall i x k d, nth_error (clients (with_client s' i0 y)) i = Some x -> loaded x = Some (k, Some d) -> exists us, load us (who_of k) = Some d).
    { intros s' i0 y x0 E X Y i x k d N L. cbn in N. rewrite E in N. apply set_nth_cases in N. destruct N as [[<- ->]|[_ N]]; [|eapply H; eauto].
      destruct (Y k d L) as [Y'|Y']; [|exact Y']. eapply H; eauto. }
    assert (RP : forall s' i0 a, clients s' = clients s -> forall i x k d, nth_error (clients (reply s' i0 a)) i = Some x -> loaded x = Some (k, Some d) -> exists us, load us (who_of k) = Some d).
    { intros s' i0 a E. unfold reply. rewrite E. destruct (nth_error (clients s) i0) as [x0|] eqn:X; [|rewrite E; exact H].
      destruct x0; try (rewrite E; exact H). eapply WC; [exact E|exact X|]. cbn. auto. }
    destruct e; cbn [step].
    - intros i x k d N L. cbn in N. destruct (Nat.lt_ge_cases i (length (clients s))) as [Q|Q].
      + rewrite nth_error_app1 in N by exact Q. eapply H; eauto.
      + rewrite nth_error_app2 in N by exact Q. destruct (i - _)%nat as [|[|]]; cbn in N; try discriminate. injection N as <-. discriminate.
    - unfold ev_load. destruct (nth_error (clients s) i) as [x0|] eqn:X; [|exact H]. destruct x0 as [k| | | | |]; try exact H.
      destruct (load (users s) (who_of k)) as [u|] eqn:LD.
      + assert (G : forall y, loaded y = Some (k, Some u) -> forall k0 d, loaded y = Some (k0, Some d) -> loaded (CNew k) = Some (k0, Some d) \/ exists us, load us (who_of k0) = Some d).
        { intros y Y k0 d Y'. rewrite Y in Y'. injection Y' as <- <-. right. eauto. }
        destruct k; [|destruct (u_hash (d_user u))]; (eapply WC; [reflexivity|exact X|apply G; reflexivity]).
      + destruct k; (eapply WC; [reflexivity|exact X|cbn; discriminate]).
    - unfold ev_send. destruct (nth_error (clients s) i) as [x0|] eqn:X; [|exact H]. destruct x0; try exact H.
      destruct (existsb _ _); (eapply WC; [reflexivity|exact X|cbn; auto]).
    - unfold ev_take. destruct (nth_error (workers s) _) as [[| |]|]; try exact H. destruct (queue s); exact H.
    - unfold ev_init. destruct (nth_error (workers s) _) as [[| |]|]; try exact H. destruct (tmpl s); try exact H. destruct (rq_against _); exact H.
    - unfold ev_init_done. destruct (nth_error (workers s) _) as [[| |]|]; try exact H. destruct (tmpl s); try exact H. destruct (Nat.eqb _ _); [|exact H].
      destruct (initialize _ _ _ _); try exact H. apply RP. reflexivity.
    - unfold ev_reply. destruct (nth_error (workers s) _) as [[| |]|]; try exact H. destruct (rq_against _); [apply RP; reflexivity|]. destruct (tmpl s); try exact H. apply RP. reflexivity.
    - unfold ev_recv. destruct (nth_error (clients s) i) as [x0|] eqn:X; [|exact H].
      destruct x0 as [k|k d|k d|k d [a|]|k d t|k d r]; try exact H.
      + destruct k; destruct a; (eapply WC; [reflexivity|exact X|cbn; auto]).
      + destruct k; (eapply WC; [reflexivity|exact X|cbn; auto]).
    - unfold ev_update. destruct (nth_error (clients s) i) as [x0|] eqn:X; [|exact H].
      destruct x0 as [k|k d|k d|k d [a|]|k d t|k d r]; try exact H.
      destruct (find _ _); [destruct (_ && _)|]; (eapply WC; [|exact X|cbn; auto]; reflexivity).
    - unfold ev_create. destruct (existsb _ _); exact H.
    - exact H.
    - exact H. }
  apply returned_loaded in R. destruct R as (z & Z & ->). destruct d as [d|].
  - destruct (L es (init c)) with (2 := Z) (k := k) (d := d) as (us & U); [intros [|?] ? ? ? Q; discriminate|reflexivity|].
    destruct (who_of k); cbn in U; apply find_some in U; destruct U as [_ U]; [|apply N.eqb_eq, U].
    unfold bytes_eqb in U. destruct (lex _ _) eqn:LX; try discriminate. apply lex_eq, LX.
  - pose proof (i_clients _ _ _ _ V _ _ Z) as O. cbn in O. destruct k; exact O.
Qed.

(* Setting. When set_user_password returns Ok, the user was still exactly as it was when
   the call read it; its name, groups and roles are kept, the new hash accepts the password,
   every other user is untouched. When the user was changed or deleted in between, the call
   returns a conflict and no user changes. *)
Theorem C72_set : forall K c es i w p d r, supported K c ->
  let s := run K c (init c) es in let s' := step K c s (EvUpdate i) in
  returned s i = None -> returned s' i = Some (CSet w p, Some d, r) ->
  match r with
  | RSet => In (d_id d) (map d_id (users s)) /\ (forall x, In x (users s) -> d_id x = d_id d -> x = d) /\
      exists t r', users s' = map (fun x => if d_id x =? d_id d then mkd (d_id d) r' (mku (u_name (d_user d)) (u_groups (d_user d)) (u_roles (d_user d)) (Some t)) else x) (users s) /\
        forall q, rq_pw q = p -> verify_request K q t = RVerified
  | _ => users s' = users s /\ r = RConflict /\ ~ In d (users s)
  end.
Proof.
  intros K c es i w p d r [KA KV] s s' R0 R. pose proof (inv_run K c es _ _ (inv_init K c)) as V. fold s in V.
  unfold s' in *. cbn [step] in *. unfold returned in R0, R. unfold ev_update in *.
  destruct (nth_error (clients s) i) as [x|] eqn:X; [|rewrite X in R; discriminate].
  pose proof (i_clients _ _ _ _ V _ _ X) as O.
  destruct x as [k|k d0|k d0|k d0 a|k d0 t|k d0 r0]; try (rewrite X in R; discriminate).
  cbn in O. destruct O as [(w' & p' & ->) (tp & T & MD)].
  pose proof (i_ids _ _ _ _ V) as ND.
  assert (UQ : forall x y, In x (users s) -> In y (users s) -> d_id x = d_id y -> x = y).
  { clear -ND. induction (users s) as [|u us IH]; intros x y A B E; [contradiction|]. cbn in ND. inversion ND; subst. destruct A as [->|A], B as [->|B]; auto.
    - exfalso. apply H1. rewrite E. apply in_map, B.
    - exfalso. apply H1. rewrite <- E. apply in_map, A. }
  destruct (find _ _) as [x|] eqn:FD.
  - apply find_in in FD. destruct FD as [XI XE]. destruct (_ && _) eqn:EQ.
    + apply andb_prop in EQ. destruct EQ as [RE UE]. apply N.eqb_eq in RE. destruct (user_eq_dec (d_user x) (d_user d0)) as [UE'|]; [clear UE|discriminate].
      assert (XD : x = d0) by (destruct x, d0; cbn in *; congruence).
      cbn -[user_eq_dec] in R. rewrite (set_nth_same _ _ _ _ X) in R. injection R as <- <- <- <-.
      split; [rewrite <- XE; apply in_map, XI|]. split; [intros y Y YE; rewrite <- XD; apply UQ; auto; congruence|].
      cbn -[user_eq_dec]. set (u := mku _ _ _ (Some t)). exists t, (if user_eq_dec u (d_user x) then d_rev x else d_rev d0 + 1).
      split; [|intros q Q; eapply made_accepts; eauto].
      unfold replace_user. apply map_ext_in. intros y _.
      destruct (user_eq_dec u (d_user x)) as [UU|]; cbn [d_id].
      * rewrite XE. destruct (d_id y =? d_id d0); [|reflexivity]. destruct x as [xi xr xu]. cbn in *. subst. fold u. rewrite UU. reflexivity.
      * reflexivity.
    + cbn in R. rewrite (set_nth_same _ _ _ _ X) in R. injection R as <- <- <- <-. split; [reflexivity|]. split; [reflexivity|].
      intros D. assert (x = d0) by (apply UQ; auto). subst x. rewrite N.eqb_refl in EQ. destruct (user_eq_dec _ _); [discriminate|congruence].
  - cbn in R. rewrite (set_nth_same _ _ _ _ X) in R. injection R as <- <- <- <-. split; [reflexivity|]. split; [reflexivity|].
    intros D. eapply find_none in FD; [|exact D]. cbn in FD. rewrite N.eqb_refl in FD. discriminate.
Qed.

(* Nothing else changes a stored hash: any other step keeps the name and the hash of every
   user it leaves, and a created user has none. *)
Theorem C72_only_set : forall K c s e x', (forall i, e <> EvUpdate i) -> In x' (users (step K c s e)) ->
  (exists x, In x (users s) /\ d_id x = d_id x' /\ u_name (d_user x) = u_name (d_user x') /\ u_hash (d_user x) = u_hash (d_user x')) \/
  (exists n, e = EvCreate n /\ u_hash (d_user x') = None /\ ~ In (d_id x') (map d_id (users s))).
Proof.
  intros K c s e x' NU H.
  assert (SAME : users (step K c s e) = users s -> exists x, In x (users s) /\ d_id x = d_id x' /\ u_name (d_user x) = u_name (d_user x') /\ u_hash (d_user x) = u_hash (d_user x')).
  { intros E. rewrite E in H. exists x'. auto. }
  assert (RP : forall s i a, users (reply s i a) = users s).
  { intros s0 i a. unfold reply. destruct (nth_error _ _) as [[]|]; reflexivity. }
  destruct e as [k|i|i|w|w|w salt clock|w salt|i|i|n|i|i gs rs].
  - left. apply SAME. reflexivity.
  - left. apply SAME. cbn. unfold ev_load. destruct (nth_error _ _) as [[]|]; try reflexivity. destruct (load _ _) as [u|], c0; try destruct (u_hash (d_user u)); reflexivity.
  - left. apply SAME. cbn. unfold ev_send. destruct (nth_error _ _) as [[]|]; try reflexivity. destruct (existsb _ _); reflexivity.
  - left. apply SAME. cbn. unfold ev_take. destruct (nth_error _ _) as [[]|]; try reflexivity. destruct (queue s); reflexivity.
  - left. apply SAME. cbn. unfold ev_init. destruct (nth_error _ _) as [[]|]; try reflexivity. destruct (tmpl s); try reflexivity. destruct (rq_against _); reflexivity.
  - left. apply SAME. cbn. unfold ev_init_done. destruct (nth_error _ _) as [[]|]; try reflexivity. destruct (tmpl s); try reflexivity. destruct (Nat.eqb _ _); [|reflexivity].
    destruct (initialize _ _ _ _); try reflexivity. rewrite RP; reflexivity.
  - left. apply SAME. cbn. unfold ev_reply. destruct (nth_error _ _) as [[]|]; try reflexivity. destruct (rq_against _); [rewrite RP; reflexivity|]. destruct (tmpl s); try reflexivity. rewrite RP; reflexivity.
  - left. apply SAME. cbn. unfold ev_recv. destruct (nth_error _ _) as [[| | |k d [[]|]| |]|]; try reflexivity; destruct k; reflexivity.
  - exfalso. eapply NU. reflexivity.
  - cbn in *. unfold ev_create in *. destruct (existsb _ _); [left; apply SAME; reflexivity|]. cbn in H. apply in_app_or in H. destruct H as [H|[<-|[]]].
    + left. exists x'. auto.
    + right. exists n. cbn. split; [reflexivity|]. split; [reflexivity|]. intros I. apply in_map_iff in I. destruct I as (y & E & I). apply fresh_id in I. lia.
  - left. cbn in H. apply filter_In in H. exists x'. split; [apply H|auto].
  - left. cbn in H. apply in_map_iff in H. destruct H as (y & E & Y). exists y. split; [exact Y|]. destruct (N.eqb_spec (d_id y) i); subst; cbn; auto.
Qed.

(* Every caller gets the answer to its own request: the hash handed to a set call accepts
   that call's password; the verdict handed to a login is the one for its own password and
   the hash it read. *)
Theorem C72_own_answer : forall K c es i k d a, supported K c ->
  nth_error (clients (run K c (init c) es)) i = Some (CAnswered k d (Some a)) ->
  match k with
  | CSet _ p => a = RError \/ exists t, a = RHash t /\ forall q, rq_pw q = p -> verify_request K q t = RVerified
  | CAuth _ p => exists t, u_hash (d_user d) = Some t /\ forall q, rq_pw q = p -> a = verify_request K q t
  end.
Proof.
  intros K c es i k d a [KA KV] H. pose proof (inv_run K c es _ _ (inv_init K c)) as V.
  pose proof (i_clients _ _ _ _ V _ _ H) as O. cbn in O. destruct k; cbn in O.
  - destruct a; [|contradiction|auto]. right. exists t. split; [reflexivity|]. destruct O as (tp & _ & MD). intros q Q. eapply made_accepts; eauto.
  - destruct O as (t & A & ->). exists t. split; [exact A|]. intros q Q. apply verify_pw. auto.
Qed.

(* A waiting caller's request is in exactly one place: queued once or held by one thread. *)
Theorem C72_one_request : forall K c es i k d,
  nth_error (clients (run K c (init c) es)) i = Some (CWaiting k d) ->
  exists q, rq_client q = i /\ rq_pw q = pw_of k /\ rq_id q = d_id d /\
    exists l1 l2, queue (run K c (init c) es) ++ busy (workers (run K c (init c) es)) = l1 ++ q :: l2 /\
      forall q', In q' (l1 ++ l2) -> rq_client q' <> i.
Proof.
  intros K c es i k d H. pose proof (inv_run K c es _ _ (inv_init K c)) as V.
  pose proof (i_clients _ _ _ _ V _ _ H) as [O _]. exists (request_of i k d). split; [reflexivity|]. split; [reflexivity|]. split; [reflexivity|].
  apply in_split in O. destruct O as (l1 & l2 & E). exists l1, l2. split; [exact E|].
  pose proof (i_once _ _ _ _ V) as ND. rewrite E in ND. rewrite map_app in ND. cbn in ND. apply NoDup_remove_2 in ND.
  intros q' Q EQ. apply ND. rewrite <- map_app. change i with (rq_client (request_of i k d)) in EQ. cbn in EQ. rewrite <- EQ. apply in_map, Q.
Qed.

(* ---------- liveness ---------- *)
Definition internal (e : event) : bool :=
  match e with EvCall _ | EvCreate _ | EvDelete _ | EvGroups _ _ _ => false | _ => true end.

Lemma can_initialize K c : exists clk, match initialize K c [] clk with ITemplate _ | IError => True | _ => False end.
Proof.
  destruct (cparams c) as [p|t] eqn:P; unfold initialize; rewrite P; [exists []; exact I|].
  exists [Some (minimum_duration t)]. cbn -[argon build_ok be8].
  destruct (build_ok K _); [|exact I]. cbn -[argon build_ok be8]. destruct (argon K _ _ _ _ _); [|exact I]. rewrite N.ltb_irrefl. exact I.
Qed.

Lemma finish_job K c s m w q : Inv K c s m -> nth_error (workers s) w = Some (WBusy q) ->
  exists es k d a, Forall (fun e => internal e = true) es /\
    nth_error (clients s) (rq_client q) = Some (CWaiting k d) /\
    clients (run K c s es) = set_nth (rq_client q) (CAnswered k d (Some a)) (clients s) /\
    queue (run K c s es) = queue s /\ workers (run K c s es) = set_nth w WIdle (workers s) /\ Inv K c (run K c s es) (passwords K c s es m).
Proof.
  intros V W.
  destruct (i_reqs _ _ _ _ V q) as (k & d & N1 & _); [apply in_or_app; right; eapply busy_in, W|].
  assert (LAST : forall s, nth_error (clients s) (rq_client q) = Some (CWaiting k d) -> nth_error (workers s) w = Some (WBusy q) ->
    (rq_against q = None -> exists p, tmpl s = CellSet p) ->
    exists a, clients (step K c s (EvReply w [])) = set_nth (rq_client q) (CAnswered k d (Some a)) (clients s) /\
      queue (step K c s (EvReply w [])) = queue s /\ workers (step K c s (EvReply w [])) = set_nth w WIdle (workers s)).
  { intros s0 A B T. cbn [step]. unfold ev_reply. rewrite B. destruct (rq_against q) as [t|].
    - exists (verify_request K q t). unfold reply. cbn [clients with_worker]. rewrite A. cbn. auto.
    - destruct (T eq_refl) as (p & ->). exists (hash_request K c p q []). unfold reply. cbn [clients with_worker]. rewrite A. cbn. auto. }
  destruct (can_initialize K c) as (clk & CI).
  assert (INIT : forall s w', tmpl s = CellBusy w' -> (exists q', nth_error (workers s) w' = Some (WBusy q')) ->
    exists p, step K c s (EvInitDone w' [] clk) = with_cell s (CellSet p)).
  { intros s0 w' T (q' & W'). cbn [step]. unfold ev_init_done. rewrite W', T, Nat.eqb_refl.
    destruct (initialize K c [] clk); try contradiction; [exists (Some p)|exists None]; reflexivity. }
  destruct (rq_against q) as [t|] eqn:RA.
  - destruct (LAST s N1 W) as (a & A1 & A2 & A3); [discriminate|].
    exists [EvReply w []], k, d, a. repeat (split; [first [exact A1|exact A2|exact A3|exact N1|repeat constructor]|]). apply inv_run, V.
  - destruct (tmpl s) as [|w'|p] eqn:T.
    + set (s1 := step K c s (EvInit w)). assert (E1 : s1 = with_cell s (CellBusy w)). { unfold s1. cbn [step]. unfold ev_init. rewrite W, T, RA. reflexivity. }
      destruct (INIT s1 w) as (p & E2); [rewrite E1; reflexivity|exists q; rewrite E1; exact W|].
      destruct (LAST (step K c s1 (EvInitDone w [] clk))) as (a & A1 & A2 & A3).
      * rewrite E2, E1. exact N1.
      * rewrite E2, E1. exact W.
      * intros _. exists p. rewrite E2. reflexivity.
      * exists [EvInit w; EvInitDone w [] clk; EvReply w []], k, d, a.
        split; [repeat constructor|]. split; [exact N1|].
        split; [etransitivity; [exact A1|]; rewrite E2, E1; reflexivity|].
        split; [etransitivity; [exact A2|]; rewrite E2, E1; reflexivity|].
        split; [etransitivity; [exact A3|]; rewrite E2, E1; reflexivity|].
        apply inv_run, V.
    + destruct (i_cell _ _ _ _ V w' T) as (q' & W' & _).
      destruct (INIT s w' T) as (p & E2); [eauto|].
      destruct (LAST (step K c s (EvInitDone w' [] clk))) as (a & A1 & A2 & A3).
      * rewrite E2. exact N1.
      * rewrite E2. exact W.
      * intros _. exists p. rewrite E2. reflexivity.
      * exists [EvInitDone w' [] clk; EvReply w []], k, d, a.
        split; [repeat constructor|]. split; [exact N1|].
        split; [etransitivity; [exact A1|]; rewrite E2; reflexivity|].
        split; [etransitivity; [exact A2|]; rewrite E2; reflexivity|].
        split; [etransitivity; [exact A3|]; rewrite E2; reflexivity|].
        apply inv_run, V.
    + destruct (LAST s N1 W) as (a & A1 & A2 & A3); [eauto|].
      exists [EvReply w []], k, d, a. repeat (split; [first [exact A1|exact A2|exact A3|exact N1|repeat constructor]|]). apply inv_run, V.
Qed.

Lemma alive_exists ws : existsb alive ws = true -> exists w x, nth_error ws w = Some x /\ alive x = true.
Proof. intros H. apply existsb_exists in H. destruct H as (x & I & A). apply In_nth_error in I. destruct I as (w & I). eauto. Qed.
Lemma exists_alive ws w x : nth_error ws w = Some x -> alive x = true -> existsb alive ws = true.
Proof. intros H A. apply existsb_exists. exists x. split; [eapply nth_error_In, H|exact A]. Qed.

Lemma serve_waiting K c n : forall s m i k d, Inv K c s m -> existsb alive (workers s) = true ->
  nth_error (clients s) i = Some (CWaiting k d) -> (length (queue s) <= n)%nat ->
  exists es a, Forall (fun e => internal e = true) es /\ nth_error (clients (run K c s es)) i = Some (CAnswered k d (Some a)) /\ Inv K c (run K c s es) (passwords K c s es m).
Proof.
  induction n as [n IH] using (well_founded_induction lt_wf). intros s m i k d V AL CW LQ.
  destruct (i_clients _ _ _ _ V _ _ CW) as [IN _]. apply in_app_or in IN. destruct IN as [IN|IN].
  - destruct (alive_exists _ AL) as (w & x & W & AX).
    assert (TAKE : forall s m, Inv K c s m -> nth_error (workers s) w = Some WIdle -> nth_error (clients s) i = Some (CWaiting k d) ->
       In (request_of i k d) (queue s) -> (length (queue s) <= n)%nat ->
       exists es a, Forall (fun e => internal e = true) es /\ nth_error (clients (run K c s es)) i = Some (CAnswered k d (Some a)) /\ Inv K c (run K c s es) (passwords K c s es m)).
    { clear -IH. intros s m V W CW IN LQ. destruct (queue s) as [|q0 qs] eqn:Q; [contradiction|].
      assert (E : step K c s (EvTake w) = mkst (users s) qs (set_nth w (WBusy q0) (workers s)) (tmpl s) (clients s)).
      { cbn [step]. unfold ev_take. rewrite W, Q. reflexivity. }
      pose proof (inv_step K c s m (EvTake w) V) as V1. rewrite E in V1.
      cbn in LQ. destruct (IH (length qs) ltac:(lia) _ _ i k d V1) as (es & a & F & R & V2).
      - cbn. eapply exists_alive; [eapply set_nth_same, W|reflexivity].
      - exact CW.
      - cbn. lia.
      - exists (EvTake w :: es), a. split; [constructor; [reflexivity|exact F]|]. cbn [run fold_left passwords]. fold (run K c). rewrite E. split; [exact R|].
        change (fold_left (step K c) es) with (fun z => run K c z es). exact V2. }
    destruct x as [|q|]; [| |discriminate].
    + apply TAKE; auto.
    + destruct (finish_job K c s m w q V W) as (es & k' & d' & a & F & C1 & C2 & C3 & C4 & V1).
      assert (NE : rq_client q <> i).
      { intros EQ. pose proof (i_once _ _ _ _ V) as ND. unfold pool in ND. rewrite map_app in ND.
        assert (A1 : In i (map rq_client (queue s))) by (change i with (rq_client (request_of i k d)); apply in_map, IN).
        assert (A2 : In i (map rq_client (busy (workers s)))) by (rewrite <- EQ; apply in_map; eapply busy_in, W).
        clear -ND A1 A2. induction (map rq_client (queue s)) as [|x l IHl]; [contradiction|]. cbn in ND. inversion ND; subst. destruct A1 as [->|A1]; [|auto].
        apply H1. apply in_or_app. auto. }
      destruct (TAKE (run K c s es) _ V1) as (es2 & a2 & F2 & R2 & V2).
      * rewrite C4. eapply set_nth_same, W.
      * rewrite C2, set_nth_other by exact NE. exact CW.
      * rewrite C3. exact IN.
      * rewrite C3. exact LQ.
      * exists (es ++ es2), a2. split; [apply Forall_app; auto|]. rewrite run_app, passwords_app. auto.
  - apply in_busy in IN. destruct IN as (w & W).
    destruct (finish_job K c s m w _ V W) as (es & k' & d' & a & F & C1 & C2 & C3 & C4 & V1). cbn in C1, C2.
    rewrite CW in C1. injection C1 as <- <-. exists es, a. split; [exact F|]. split; [|exact V1]. rewrite C2. eapply set_nth_same, CW.
Qed.

Lemma alive_run K c s i es : existsb alive (workers s) = true -> es = [EvLoad i] \/ es = [EvSend i] -> existsb alive (workers (run K c s es)) = true.
Proof.
  intros A [->| ->]; cbn.
  - unfold ev_load. destruct (nth_error _ _) as [[]|]; try exact A. destruct (load _ _), c0; try destruct (u_hash _); exact A.
  - unfold ev_send. destruct (nth_error _ _) as [[]|]; try exact A. rewrite A. exact A.
Qed.

(* No caller is stuck: whatever has happened, as long as one hashing thread is alive, every
   call in progress can be brought to its end by the threads alone. *)
Theorem C72_served : forall K c es i x, let s := run K c (init c) es in
  nth_error (clients s) i = Some x -> existsb alive (workers s) = true ->
  exists es', Forall (fun e => internal e = true) es' /\ returned (run K c s es') i <> None.
Proof.
  intros K c es i x s X AL. pose proof (inv_run K c es _ _ (inv_init K c)) as V. fold s in V.
  assert (DONE : forall s k d r, nth_error (clients s) i = Some (CDone k d r) -> returned s i <> None).
  { intros s0 k d r H. unfold returned. rewrite H. discriminate. }
  assert (P5 : forall s m k d t, Inv K c s m -> nth_error (clients s) i = Some (CHashed k d t) ->
     exists es', Forall (fun e => internal e = true) es' /\ returned (run K c s es') i <> None).
  { intros s0 m k d t V0 H. exists [EvUpdate i]. split; [repeat constructor|]. cbn. unfold ev_update. rewrite H.
    destruct (find _ _); [destruct (_ && _)|]; (eapply DONE; cbn; eapply set_nth_same, H). }
  assert (P4 : forall s m k d a, Inv K c s m -> nth_error (clients s) i = Some (CAnswered k d a) ->
     exists es', Forall (fun e => internal e = true) es' /\ returned (run K c s es') i <> None).
  { intros s0 m k d a V0 H. pose proof (inv_run K c [EvRecv i] _ _ V0) as V1.
    destruct (nth_error (clients (run K c s0 [EvRecv i])) i) as [y|] eqn:Y.
    - assert (C : (exists k d r, y = CDone k d r) \/ exists k d t, y = CHashed k d t).
      { cbn in Y. unfold ev_recv in Y. rewrite H in Y.
        destruct a as [[]|], k; cbn in Y; rewrite (set_nth_same _ _ _ _ H) in Y; injection Y as <-; eauto 6. }
      destruct C as [(k' & d' & r & ->)|(k' & d' & t & ->)].
      + exists [EvRecv i]. split; [repeat constructor|]. eapply DONE, Y.
      + destruct (P5 _ _ _ _ _ V1 Y) as (es' & F & R). exists ([EvRecv i] ++ es'). split; [apply Forall_app; split; [repeat constructor|exact F]|]. rewrite run_app. exact R.
    - exfalso. cbn in Y. unfold ev_recv in Y. rewrite H in Y.
      destruct a as [[]|], k; cbn in Y; rewrite (set_nth_same _ _ _ _ H) in Y; discriminate. }
  assert (P3 : forall s m k d, Inv K c s m -> existsb alive (workers s) = true -> nth_error (clients s) i = Some (CWaiting k d) ->
     exists es', Forall (fun e => internal e = true) es' /\ returned (run K c s es') i <> None).
  { intros s0 m k d V0 A H. destruct (serve_waiting K c _ s0 m i k d V0 A H (le_n _)) as (e1 & a & F1 & R1 & V1).
    destruct (P4 _ _ _ _ _ V1 R1) as (e2 & F2 & R2). exists (e1 ++ e2). split; [apply Forall_app; auto|]. rewrite run_app. exact R2. }
  assert (P2 : forall s m k d, Inv K c s m -> existsb alive (workers s) = true -> nth_error (clients s) i = Some (CLoaded k d) ->
     exists es', Forall (fun e => internal e = true) es' /\ returned (run K c s es') i <> None).
  { intros s0 m k d V0 A H. pose proof (inv_run K c [EvSend i] _ _ V0) as V1.
    destruct (P3 _ _ k d V1) as (e2 & F2 & R2).
    - eapply alive_run; eauto.
    - cbn. unfold ev_send. rewrite H, A. cbn. eapply set_nth_same, H.
    - exists ([EvSend i] ++ e2). split; [apply Forall_app; split; [repeat constructor|exact F2]|]. rewrite run_app. exact R2. }
  destruct x as [k|k d|k d|k d a|k d t|k d r].
  - pose proof (inv_run K c [EvLoad i] _ _ V) as V1.
    assert (C : (exists d r, nth_error (clients (run K c s [EvLoad i])) i = Some (CDone k d r)) \/ exists d, nth_error (clients (run K c s [EvLoad i])) i = Some (CLoaded k d)).
    { cbn. unfold ev_load. rewrite X. destruct (load _ _), k; try destruct (u_hash _); cbn; rewrite (set_nth_same _ _ _ _ X); eauto. }
    destruct C as [(d & r & C)|(d & C)].
    + exists [EvLoad i]. split; [repeat constructor|]. eapply DONE, C.
    + destruct (P2 _ _ k d V1 (alive_run K c s i _ AL (or_introl eq_refl)) C) as (e2 & F2 & R2).
      exists ([EvLoad i] ++ e2). split; [apply Forall_app; split; [repeat constructor|exact F2]|]. rewrite run_app. exact R2.
  - eapply P2; eauto.
  - eapply P3; eauto.
  - eapply P4; eauto.
  - eapply P5; eauto.
  - exists []. split; [constructor|]. eapply DONE, X.
Qed.

(* ---------- parameters ---------- *)

(* All stored hashes use one set of cost parameters, chosen once: the first successful
   initialisation. (Only the associated data differs: eight bytes from which the user's id
   can be read back, high byte first.) *)
Fixpoint read_number (l : bytes) : N := match l with [] => 0 | b :: r => b * 256 ^ N.of_nat (length r) + read_number r end.
Lemma read_step a n k : a + (n / 2 ^ k) mod 256 * 2 ^ k = a + (n mod 2 ^ (k + 8) - n mod 2 ^ k).
Proof.
  f_equal. rewrite N.pow_add_r. change (2 ^ 8) with 256. assert (P : 2 ^ k <> 0) by (apply N.pow_nonzero; discriminate).
  rewrite (N.mod_mul_r n (2 ^ k) 256) by (exact P || discriminate). rewrite (N.mul_comm (2 ^ k)). generalize ((n / 2 ^ k) mod 256 * 2 ^ k). intros x. generalize (n mod 2 ^ k). intros y. lia.
Qed.
Lemma read_be8 n : read_number (be8 n) = n mod 2 ^ 64.
Proof.
  unfold be8. cbn [map read_number length].
  assert (M : forall k, n mod 2 ^ k <= n mod 2 ^ (k + 8)).
  { intros k. pose proof (read_step 0 n k). assert (P : 2 ^ k <> 0) by (apply N.pow_nonzero; discriminate).
    rewrite N.pow_add_r. change (2 ^ 8) with 256. rewrite (N.mod_mul_r n (2 ^ k) 256) by (exact P || discriminate). lia. }
  assert (E : forall k m, 256 ^ N.of_nat m = 2 ^ k -> (n / 2 ^ k) mod 256 * 256 ^ N.of_nat m = n mod 2 ^ (k + 8) - n mod 2 ^ k).
  { intros k m ->. pose proof (read_step 0 n k). lia. }
  rewrite (E (8 * 7) 7%nat), (E (8 * 6) 6%nat), (E (8 * 5) 5%nat), (E (8 * 4) 4%nat), (E (8 * 3) 3%nat), (E (8 * 2) 2%nat), (E (8 * 1) 1%nat), (E (8 * 0) 0%nat) by reflexivity.
  pose proof (M (8 * 7)); pose proof (M (8 * 6)); pose proof (M (8 * 5)); pose proof (M (8 * 4)); pose proof (M (8 * 3)); pose proof (M (8 * 2)); pose proof (M (8 * 1)); pose proof (M (8 * 0)).
  change (8 * 7 + 8) with 64 in *. change (8 * 6 + 8) with 56 in *. change (8 * 5 + 8) with 48 in *. change (8 * 4 + 8) with 40 in *. change (8 * 3 + 8) with 32 in *. change (8 * 2 + 8) with 24 in *. change (8 * 1 + 8) with 16 in *. change (8 * 0 + 8) with 8 in *.
  change (8 * 7) with 56 in *. change (8 * 6) with 48 in *. change (8 * 5) with 40 in *. change (8 * 4) with 32 in *. change (8 * 3) with 24 in *. change (8 * 2) with 16 in *. change (8 * 1) with 8 in *. change (8 * 0) with 0 in *.
  replace (n mod 2 ^ 0) with 0 in * by (rewrite N.pow_0_r, N.mod_1_r; reflexivity).
  generalize dependent (n mod 2 ^ 64). generalize dependent (n mod 2 ^ 56). generalize dependent (n mod 2 ^ 48). generalize dependent (n mod 2 ^ 40). generalize dependent (n mod 2 ^ 32). generalize dependent (n mod 2 ^ 24). generalize dependent (n mod 2 ^ 16). generalize dependent (n mod 2 ^ 8). clear. intros. lia.
Qed.
Theorem C72_same_parameters : forall K c es x y h h', let us := users (run K c (init c) es) in
  In x us -> In y us -> u_hash (d_user x) = Some (Phc h) -> u_hash (d_user y) = Some (Phc h') ->
  m_cost (ph_params h) = m_cost (ph_params h') /\ t_cost (ph_params h) = t_cost (ph_params h') /\ p_cost (ph_params h) = p_cost (ph_params h') /\
  length (p_data (ph_params h)) = 8%nat /\ (d_id x < 2 ^ 64 -> read_number (p_data (ph_params h)) = d_id x).
Proof.
  intros K c es x y h h' us X Y H H'. pose proof (inv_run K c es _ _ (inv_init K c)) as V.
  pose proof (i_hash _ _ _ _ V x X) as A. pose proof (i_hash _ _ _ _ V y Y) as B.
  destruct (passwords _ _ _ _ _ (d_id x)); [|congruence]. destruct (passwords _ _ _ _ _ (d_id y)); [|congruence].
  destruct A as (t & A & tp & T & s1 & o1 & E1 & _). destruct B as (t' & B & tp' & T' & s2 & o2 & E2 & _).
  rewrite T in T'. injection T' as <-. rewrite H in A. rewrite H' in B. injection A as <-. injection B as <-. injection E1 as ->. injection E2 as ->. cbn [ph_params m_cost t_cost p_cost p_data]. repeat (split; [reflexivity|]). intros L. rewrite read_be8. apply N.mod_small, L.
Qed.

(* The automatic choice of the cost: it ends with a cost of at least 2 passes whose hash took
   at least the minimum duration; every attempt before was too fast, and each attempt used
   more passes than the one before. *)
Lemma calibrate_trace K alg c salt clock : forall mc sp tot tr t, calibrate K alg c salt mc sp tot clock = (tr, Chosen t) ->
  exists tr0 d, tr = tr0 ++ [(t, d)] /\ minimum_duration c <= d /\ Forall (fun x => snd x < minimum_duration c) tr0 /\
    StronglySorted N.lt (map fst tr) /\ Forall (fun x => mc <= fst x) tr.
Proof.
  induction clock as [|e clock IH]; intros mc sp tot tr t H; [discriminate|]. cbn -[build_ok argon be8] in H.
  destruct (next_cost _ mc sp tot) as [t0|] eqn:NC; [|discriminate].
  assert (GE : mc <= t0).
  { unfold next_cost in NC. destruct (0 <? sp); [|injection NC as <-; lia]. destruct (ceil_divide _ _) as [q| |]; try discriminate. destruct (q <? u32); [|discriminate]. injection NC as <-. lia. }
  destruct (negb (build_ok K _)); [discriminate|]. destruct (argon K _ _ _ _ _); [|discriminate].
  destruct e as [d|]; [|apply (IH _ _ _ _ _ H)].
  destruct (N.ltb_spec d (minimum_duration c)).
  - destruct (_ || _); [discriminate|]. destruct (calibrate K alg c salt (t0 + 1) _ _ clock) as [tr' r] eqn:CL. injection H as <- ->.
    destruct (IH _ _ _ _ _ CL) as (tr0 & d' & -> & A & B & C & D). exists ((t0, d) :: tr0), d'. split; [reflexivity|]. split; [exact A|].
    split; [constructor; [exact H0|exact B]|]. split.
    + cbn. constructor; [exact C|]. apply Forall_map. eapply Forall_impl; [|exact D]. cbn. intros; lia.
    + constructor; [exact GE|]. eapply Forall_impl; [|exact D]. cbn. intros; lia.
  - injection H as <- <-. exists [], d. split; [reflexivity|]. split; [exact H0|]. split; [constructor|]. split; [repeat constructor|]. repeat constructor. exact GE.
Qed.

Theorem C72_calibration : forall K alg c salt clock tr t, calibrate K alg c salt 2 0 0 clock = (tr, Chosen t) ->
  exists tr0 d, tr = tr0 ++ [(t, d)] /\ minimum_duration c <= d /\ Forall (fun x => snd x < minimum_duration c) tr0 /\
    StronglySorted N.lt (map fst tr) /\ 2 <= t.
Proof.
  intros K alg c salt clock tr t H. destruct (calibrate_trace _ _ _ _ _ _ _ _ _ _ H) as (tr0 & d & -> & A & B & C & D).
  exists tr0, d. split; [reflexivity|]. split; [exact A|]. split; [exact B|]. split; [exact C|]. apply Forall_app in D. destruct D as [_ D]. inversion D; subst. exact H2.
Qed.

(* so the parameters every hash is made with have at least two passes, and those
   many were measured to take at least the configured time *)
Theorem C72_parameters_found : forall K c tc salt clock p, cparams c = Timed tc -> initialize K c salt clock = ITemplate p ->
  2 <= t_cost p /\ m_cost p = ram_per_hasher tc / 1024 /\ p_cost p = lanes tc /\
  exists d, minimum_duration tc <= d /\ In (Some d) clock.
Proof.
  intros K c tc salt clock p E H. unfold initialize in H. rewrite E in H.
  destruct (calibrate K (algorithm c) tc salt 2 0 0 clock) as [tr r] eqn:C. cbn [snd] in H.
  destruct r as [|t| |]; try discriminate. injection H as <-. destruct (C72_calibration _ _ _ _ _ _ _ C) as (tr0 & d & -> & D & _ & _ & T).
  cbn [t_cost m_cost p_cost]. repeat split; try exact T. exists d. split; [exact D|].
  assert (G : forall clock mc sp tot tr r, calibrate K (algorithm c) tc salt mc sp tot clock = (tr, r) -> forall x y, In (x, y) tr -> In (Some y) clock).
  { clear. induction clock as [|e clock IH]; intros mc sp tot tr r; cbn [calibrate].
    - intros [= <- <-] x y [].
    - destruct (next_cost _ _ _ _) as [t|]; [|intros [= <- <-] x y []]. destruct (build_ok _ _); cbn [negb]; [|intros [= <- <-] x y []].
      destruct (argon _ _ _ _ _ _); [|intros [= <- <-] x y []]. destruct e as [d|].
      + destruct (d <? minimum_duration tc).
        * destruct (_ || _); [intros [= <- <-] x y [[= <- <-]|[]]; left; reflexivity|].
          destruct (calibrate _ _ _ _ _ _ _ clock) as [tr1 r1] eqn:R. intros [= <- <-] x y [[= <- <-]|X]; [left; reflexivity|right; exact (IH _ _ _ _ _ R _ _ X)].
        * intros [= <- <-] x y [[= <- <-]|[]]. left. reflexivity.
      + intros H x y X. right. exact (IH _ _ _ _ _ H _ _ X). }
  eapply G; [exact C|]. apply in_app_iff. right. left. reflexivity.
Qed.
(* A stored text is accepted only if it is a complete hash (salt and output present) that
   the given password gives again. *)
Theorem C72_accepts_only : forall K q t, verify_request K q t = RVerified ->
  exists h salt out, t = Phc h /\ ph_salt h = Some salt /\ ph_out h = Some out /\
    argon K (ph_alg h) (ph_version h) (ph_params h) salt (rq_pw q) = Some out.
Proof.
  intros K q t H. destruct t as [h|]; [|discriminate]. cbn [verify_request] in H. destruct (negb (known_alg K (ph_alg h))); [discriminate|].
  destruct (negb (known_version K (ph_version h))); [discriminate|]. destruct (negb (build_ok K (ph_params h))); [discriminate|].
  destruct (ph_salt h) as [salt|] eqn:Es; [|discriminate]. destruct (ph_out h) as [out|] eqn:Eo; [|discriminate].
  destruct (argon K _ _ _ salt (rq_pw q)) as [out'|] eqn:Ea; [|discriminate]. destruct (bytes_eqb out out') eqn:B; [|discriminate].
  exists h, salt, out. repeat split; try assumption. rewrite Ea. f_equal. unfold bytes_eqb in B. destruct (lex out out') eqn:L; try discriminate.
  symmetry. apply lex_eq. exact L.
Qed.

(* If every pass takes the same time (k nanoseconds, at least one), at most two attempts are
   needed and the cost is the least number of passes (but at least 2) reaching the minimum. *)
Theorem C72_calibration_steady : forall K alg c salt k, (forall p pw, exists out, build_ok K p = true /\ argon K alg V0x13 p salt pw = Some out) ->
  0 < k -> minimum_duration c < u32 ->
  exists t tr, calibrate K alg c salt 2 0 0 (if 2 * k <? minimum_duration c then [Some (2 * k); Some (t * k)] else [Some (2 * k)]) = (tr, Chosen t) /\
    2 <= t /\ minimum_duration c <= t * k /\ (t = 2 \/ (t - 1) * k < minimum_duration c).
Proof.
  intros K alg c salt k OK KP MU.
  set (t := if 2 * k <? minimum_duration c then (minimum_duration c + (k - 1)) / k else 2).
  assert (STEP : forall mc sp tot e clock t0, next_cost (minimum_duration c) mc sp tot = Some t0 ->
    calibrate K alg c salt mc sp tot (e :: clock) =
    match e with
    | None => calibrate K alg c salt mc sp tot clock
    | Some d => if d <? minimum_duration c then
        if (u32 <=? sp + t0) || (u32 <=? t0 + 1) then ([(t0, d)], CPanicked)
        else let (tr, r) := calibrate K alg c salt (t0 + 1) (sp + t0) (tot + d) clock in ((t0, d) :: tr, r)
      else ([(t0, d)], Chosen t0)
    end).
  { intros mc sp tot e clock t0 NC. cbn -[build_ok argon be8 next_cost]. rewrite NC. destruct (OK (mkp (ram_per_hasher c / 1024) t0 (lanes c) (be8 0)) [104; 117; 110; 116; 101; 114; 50]) as (out & -> & ->). reflexivity. }
  exists t. unfold t. destruct (N.ltb_spec (2 * k) (minimum_duration c)) as [L|L].
  - clear t. set (t := (minimum_duration c + (k - 1)) / k).
    assert (T1 : minimum_duration c <= t * k). { unfold t. pose proof (N.div_mod' (minimum_duration c + (k - 1)) k). pose proof (N.mod_lt (minimum_duration c + (k - 1)) k). nia. }
    assert (T2 : (t - 1) * k < minimum_duration c). { unfold t. pose proof (N.mul_div_le (minimum_duration c + (k - 1)) k). nia. }
    assert (T3 : 2 < t) by nia. assert (T4 : t < u32) by nia.
    exists [(2, 2 * k); (t, t * k)]. split; [|split; [lia|split; [exact T1|right; exact T2]]].
    rewrite (STEP _ _ _ _ _ 2) by reflexivity. destruct (N.ltb_spec (2 * k) (minimum_duration c)); [|lia].
    change ((u32 <=? 0 + 2) || (u32 <=? 2 + 1)) with false. cbv iota.
    rewrite (STEP _ _ _ _ _ t).
    + destruct (N.ltb_spec (t * k) (minimum_duration c)); [lia|reflexivity].
    + unfold next_cost. change (0 <? 0 + 2) with true. cbv iota. replace ((0 + 2 * k) / (0 + 2)) with k by (rewrite N.add_0_l, N.mul_comm; symmetry; apply N.div_mul; lia).
      assert (CD : ceil_divide (minimum_duration c) k = Done t).
      { unfold ceil_divide. destruct (N.eqb_spec k 0); [lia|]. destruct (N.eqb_spec k 1) as [->|]; [|reflexivity].
        unfold t. rewrite N.sub_diag, N.add_0_r, N.div_1_r. reflexivity. }
      rewrite CD. destruct (N.ltb_spec t u32); [|lia]. f_equal. lia.
  - exists [(2, 2 * k)]. split; [|split; [lia|split; [exact L|left; reflexivity]]].
    rewrite (STEP _ _ _ _ _ 2) by reflexivity. destruct (N.ltb_spec (2 * k) (minimum_duration c)); [lia|reflexivity].
Qed.

(* Refuted: a clock too coarse to see the first hash (0 ns) makes the second attempt divide
   by zero. The hashing thread is gone; its caller gets an error. *)
Theorem C72_coarse_clock_refuted : forall K alg c salt e clock, (forall p pw, exists out, build_ok K p = true /\ argon K alg V0x13 p salt pw = Some out) ->
  0 < minimum_duration c -> snd (calibrate K alg c salt 2 0 0 (Some 0 :: e :: clock)) = CPanicked.
Proof.
  intros K alg c salt e clock OK MD. cbn -[build_ok argon be8 N.add N.div].
  destruct (OK (mkp (ram_per_hasher c / 1024) 2 (lanes c) (be8 0)) [104; 117; 110; 116; 101; 114; 50]) as (out & -> & ->). cbn -[build_ok argon be8 N.add N.div].
  destruct (N.ltb_spec 0 (minimum_duration c)); [|lia]. change ((u32 <=? 0 + 2) || (u32 <=? 2 + 1)) with false. cbv iota.
  reflexivity.
Qed.

(* A failed initialisation is kept: from then on no password can be set until the storage is
   opened again. (A panicking one is not kept.) *)
Lemma cell_step K c s e p : tmpl s = CellSet p -> tmpl (step K c s e) = CellSet p.
Proof.
  intros T. assert (RP : forall s i a, tmpl (reply s i a) = tmpl s).
  { intros s0 i a. unfold reply. destruct (nth_error _ _) as [[]|]; reflexivity. }
  destruct e; cbn [step].
  - exact T.
  - unfold ev_load. destruct (nth_error _ _) as [[]|]; try exact T. destruct (load _ _) as [u|], c0; try destruct (u_hash (d_user u)); exact T.
  - unfold ev_send. destruct (nth_error _ _) as [[]|]; try exact T. destruct (existsb _ _); exact T.
  - unfold ev_take. destruct (nth_error _ _) as [[]|]; try exact T. destruct (queue s); exact T.
  - unfold ev_init. rewrite T. destruct (nth_error _ _) as [[]|]; exact T.
  - unfold ev_init_done. rewrite T. destruct (nth_error _ _) as [[]|]; exact T.
  - unfold ev_reply. destruct (nth_error _ _) as [[]|]; try exact T. destruct (rq_against q); [rewrite RP; exact T|]. rewrite T. rewrite RP; exact T.
  - unfold ev_recv. destruct (nth_error _ _) as [[| | |k d [[]|]| |]|]; try exact T; destruct k; exact T.
  - unfold ev_update. destruct (nth_error _ _) as [[| | | |k d t|]|]; try exact T. destruct (find _ _); [destruct (_ && _)|]; exact T.
  - unfold ev_create. destruct (existsb _ _); exact T.
  - exact T.
  - exact T.
Qed.
Lemma cell_run K c es : forall s p, tmpl s = CellSet p -> tmpl (run K c s es) = CellSet p.
Proof. induction es as [|e es IH]; intros s p T; [exact T|]. cbn. apply IH, cell_step, T. Qed.

Theorem C72_failure_kept : forall K c es es' i, let s := run K c (init c) es in
  tmpl s = CellSet None -> passwords K c (init c) es no_passwords i = None /\ passwords K c (init c) (es ++ es') no_passwords i = None /\
    (forall x, In x (users (run K c s es')) -> u_hash (d_user x) = None).
Proof.
  intros K c es es' i s T.
  assert (H : forall e m, tmpl (run K c (init c) e) = CellSet None -> Inv K c (run K c (init c) e) m -> (forall i, m i = None) /\ forall x, In x (users (run K c (init c) e)) -> u_hash (d_user x) = None).
  { intros e m T0 V. assert (A : forall x, In x (users (run K c (init c) e)) -> m (d_id x) = None).
    { intros x X. pose proof (i_hash _ _ _ _ V x X) as H. destruct (m (d_id x)); [|reflexivity]. destruct H as (t & _ & tp & B & _). congruence. }
    split.
    - intros j. destruct (m j) eqn:M; [|reflexivity]. rewrite <- M. destruct (in_dec N.eq_dec j (map d_id (users (run K c (init c) e)))) as [I|I]; [|apply (i_gone _ _ _ _ V), I].
      apply in_map_iff in I. destruct I as (x & <- & X). apply A, X.
    - intros x X. pose proof (i_hash _ _ _ _ V x X) as H. rewrite (A x X) in H. exact H. }
  split; [|split].
  - apply (H es); [exact T|apply inv_run, inv_init].
  - apply (H (es ++ es')); [rewrite run_app; apply cell_run, T|apply inv_run, inv_init].
  - intros x X. unfold s in X. rewrite <- run_app in X. refine (proj2 (H (es ++ es') (passwords K c (init c) (es ++ es') no_passwords) _ _) x X); [rewrite run_app; apply cell_run, T|apply inv_run, inv_init].
Qed.

(* Not bound to the user: the id mixed into a hash as associated data is taken from the
   stored hash itself, never compared with the user logging in. A hash copied from one
   user's document to another's still accepts the first user's password. *)
Theorem C72_not_bound_refuted : forall K c tp id p salt other t, supported K c ->
  hash_request K c (Some tp) (mkreq id p None 0) salt = RHash t ->
  auth_result K (mkd other 0 (mku [] [] [] (Some t))) p = RLoggedIn other.
Proof.
  intros K c tp id p salt other t [KA KV] H. unfold auth_result. cbn [d_user u_hash d_id].
  assert (M : made K c tp id p t).
  { unfold hash_request in H. cbn [rq_id rq_pw] in H. destruct (build_ok K _) eqn:B; [|discriminate]. cbn [negb] in H. destruct (argon K _ _ _ _ _) as [out|] eqn:A; [|discriminate]. injection H as <-. exists salt, out. auto. }
  rewrite (made_accepts K c tp id p t _ KA KV M) by reflexivity. reflexivity.
Qed.

(* Memory per hashing thread when configured automatically (release build): never below the
   minimum; the total is at most 1/32 of 4 GiB however large the machine. Refuted: the
   documented 1/16 of the system's memory (256 MB for 4 threads on 16 GB). *)
Theorem C72_default_ram : forall total h, h <> 0 -> exists r, default_ram total h = Done r /\ MINIMUM_RAM_PER_HASHER <= r /\
  (r = MINIMUM_RAM_PER_HASHER \/ (r * h <= total / 32 /\ r * h < 2 ^ 27)).
Proof.
  intros total h H. unfold default_ram. destruct (N.eqb_spec h 0); [contradiction|]. eexists. split; [reflexivity|]. split; [lia|].
  set (t := if total <? u32 then total else u32 - 1). assert (T : t <= total /\ t < u32) by (unfold t; destruct (N.ltb_spec total u32); unfold u32 in *; lia).
  destruct (N.le_ge_cases (t / 32 / h) MINIMUM_RAM_PER_HASHER); [left; lia|right]. rewrite N.max_l by lia.
  pose proof (N.mul_div_le (t / 32) h H). pose proof (N.div_le_mono t total 32 ltac:(lia) (proj1 T)). pose proof (N.mul_div_le t 32 ltac:(lia)).
  unfold u32 in T. change (2 ^ 27) with 134217728. split; nia.
Qed.
(* The default number of hashing threads: at least one, one for every four cores begun,
   unless memory for that many at the minimum is lacking: then as many as fit. All of them
   together never use more than the memory there is, if there is memory for one. *)
Theorem C72_default_hashers : forall cpus total, cpus <> 0 -> total < u32 * MINIMUM_RAM_PER_HASHER ->
  let h := default_hashers cpus total in
  1 <= h /\ 4 * h < cpus + 4 /\
  (MINIMUM_RAM_PER_HASHER <= total ->
    (cpus <= 4 * h \/ total < (h + 1) * MINIMUM_RAM_PER_HASHER) /\ exists r, default_ram total h = Done r /\ h * r <= total) /\
  (total < MINIMUM_RAM_PER_HASHER -> cpus <= 4 * h).
Proof.
  intros cpus total C T h. assert (M0 : MINIMUM_RAM_PER_HASHER <> 0) by discriminate. set (q := total / MINIMUM_RAM_PER_HASHER).
  pose proof (N.div_mod total MINIMUM_RAM_PER_HASHER M0) as D. pose proof (N.mod_lt total MINIMUM_RAM_PER_HASHER M0) as L. fold q in D.
  pose proof (N.div_mod (cpus + 3) 4 ltac:(discriminate)) as D4. pose proof (N.mod_lt (cpus + 3) 4 ltac:(discriminate)) as L4. set (c := (cpus + 3) / 4) in *.
  assert (Q : q < u32) by (apply N.div_lt_upper_bound; [exact M0|rewrite N.mul_comm; exact T]).
  assert (H : h = if (0 <? q) && (q <? c) then q else c). { unfold h, default_hashers. fold q c. replace (q <? u32) with true by lia. reflexivity. }
  clearbody h. assert (Q0' : MINIMUM_RAM_PER_HASHER <= total -> 0 < q) by (intros G; apply N.div_str_pos; unfold MINIMUM_RAM_PER_HASHER in *; lia). assert (Q1 : total < MINIMUM_RAM_PER_HASHER -> q = 0) by (intros G; apply N.div_small, G). clearbody q c. generalize dependent ((cpus + 3) mod 4). intros m4 D4 L4. generalize dependent (total mod MINIMUM_RAM_PER_HASHER). intros mm D L.
  assert (H1 : 1 <= h) by (rewrite H; destruct ((0 <? q) && (q <? c)) eqn:E; lia).
  assert (Hc : h <= c) by (rewrite H; destruct ((0 <? q) && (q <? c)) eqn:E; lia).
  split; [exact H1|]. split; [lia|]. split.
  - intros G. pose proof (Q0' G) as Q0.
    assert (Hq : h <= q) by (rewrite H; destruct ((0 <? q) && (q <? c)) eqn:E; lia).
    split; [rewrite H; destruct ((0 <? q) && (q <? c)) eqn:E; [right; nia|left; lia]|].
    unfold default_ram. replace (h =? 0) with false by lia. eexists. split; [reflexivity|].
    assert (HM : h * MINIMUM_RAM_PER_HASHER <= total) by nia.
    set (t := if total <? u32 then total else u32 - 1). assert (Ht : t <= total) by (unfold t; destruct (N.ltb_spec total u32); lia).
    assert (H32 : t / 32 <= t) by (apply N.div_le_upper_bound; [discriminate|lia]).
    pose proof (N.mul_div_le (t / 32) h ltac:(lia)) as X. apply N.max_case; [lia|exact HM].
  - intros G. pose proof (Q1 G) as Q0. rewrite H, Q0. cbn [N.ltb N.compare andb]. lia.
Qed.
(* 16 cores and 60 MB: three hashers; 1 core: one. *)
Example C72_default_hashers_example : default_hashers 16 (60 * 2 ^ 20) = 3 /\ default_hashers 1 (2 ^ 33) = 1 /\ default_hashers 16 (2 ^ 34) = 4 /\ default_hashers 16 0 = 4.
Proof. vm_compute. auto. Qed.
Theorem C72_documented_ram_refuted : default_ram (16 * 2 ^ 30) 4 = Done 33554431 /\ 33554431 < 256 * 2 ^ 20 /\ default_ram (16 * 2 ^ 30) 0 = Panic.
Proof. split; [reflexivity|]. split; reflexivity. Qed.

(* ---------- examples ---------- *)
(* a hash that is the salt followed by the password; costs of at least one pass *)
Definition ex_K : crypto := mkcrypto (fun _ _ p salt pw => if t_cost p =? 0 then None else Some (salt ++ 0 :: pw)) (fun p => 0 <? t_cost p) (N.eqb 2) (N.eqb 19).
Definition ex_c : config := mkcfg 2 2 (Timed (mktimed 4 19922944 1000)).
Example ex_supported : supported ex_K ex_c. Proof. split; reflexivity. Qed.
Example ex_collision_free : collision_free ex_K.
Proof. intros alg v pp salt p p' out. cbn. destruct (t_cost pp =? 0); [discriminate|]. intros [= <-] [= H]. apply app_inv_head in H. congruence. Qed.
(* two users; both set passwords at once through two threads; then logins *)
Definition ann : bytes := [97]. Definition bob : bytes := [98].
Definition ex_a : list event :=
  [EvCreate ann; EvCreate bob; EvCall (CSet (ByName ann) [1]); EvCall (CSet (ById 2) [2]); EvLoad 0; EvLoad 1; EvSend 0; EvSend 1;
   EvTake 1; EvTake 0; EvInit 0; EvInitDone 0 [7] [Some 400; None; Some 1200]; EvReply 0 [8]; EvReply 1 [9]; EvRecv 1; EvRecv 0; EvUpdate 1; EvUpdate 0;
   EvCall (CAuth (ByName ann) [1]); EvCall (CAuth (ByName ann) [2])].
Definition ex_b (j : nat) : list event := [EvSend j; EvGroups 1 [5] []; EvTake 0; EvReply 0 []; EvRecv j].
Definition ex_user (l : list udoc) (i : N) : option udoc := load l (ById i).
Definition ex_res (s : state) (i : nat) : option result := match returned s i with Some (_, _, r) => Some r | None => None end.
Example ex_login :
  load (users (run ex_K ex_c (init ex_c) ex_a)) (ByName ann) <> None /\
  nth_error (clients (run ex_K ex_c (init ex_c) ex_a)) 2 = Some (CNew (CAuth (ByName ann) [1])) /\
  passwords ex_K ex_c (init ex_c) ex_a no_passwords 1 = Some [1] /\
  ex_res (run ex_K ex_c (init ex_c) (ex_a ++ EvLoad 2 :: ex_b 2)) 2 = Some (RLoggedIn 1) /\
  ex_res (run ex_K ex_c (init ex_c) (ex_a ++ EvLoad 3 :: ex_b 3)) 3 = Some RInvalidCredentials.
Proof. split; [vm_compute; discriminate|]. split; [vm_compute; reflexivity|]. split; [vm_compute; reflexivity|]. split; vm_compute; reflexivity. Qed.
Example ex_set : let s := run ex_K ex_c (init ex_c) (firstn 16 ex_a) in
  returned s 1 = None /\ ex_res (step ex_K ex_c s (EvUpdate 1)) 1 = Some RSet.
Proof. split; vm_compute; reflexivity. Qed.
(* a group was added between reading and writing: conflict *)
Example ex_conflict : let s := run ex_K ex_c (init ex_c) (firstn 16 ex_a ++ [EvGroups 2 [5] []]) in
  returned s 1 = None /\ ex_res (step ex_K ex_c s (EvUpdate 1)) 1 = Some RConflict.
Proof. split; vm_compute; reflexivity. Qed.
Example ex_only_set : map (fun d => (u_groups (d_user d), match u_hash (d_user d) with Some _ => true | None => false end)) (users (step ex_K ex_c (run ex_K ex_c (init ex_c) ex_a) (EvGroups 1 [5] []))) = [([5], true); ([], true)].
Proof. vm_compute. reflexivity. Qed.
Example ex_answer : match nth_error (clients (run ex_K ex_c (init ex_c) (firstn 13 ex_a))) 1 with Some (CAnswered (CSet (ById 2) [2]) d (Some (RHash t))) => True | _ => False end.
Proof. vm_compute. exact I. Qed.
Example ex_waiting : let s := run ex_K ex_c (init ex_c) (firstn 9 ex_a) in match nth_error (clients s) 1 with Some (CWaiting (CSet (ById 2) [2]) d) => existsb alive (workers s) = true | _ => False end.
Proof. vm_compute. reflexivity. Qed.
Example ex_which : returned (run ex_K ex_c (init ex_c) [EvCall (CSet (ByName ann) [1]); EvLoad 0]) 0 = Some (CSet (ByName ann) [1], None, RUserNotFound). Proof. vm_compute. reflexivity. Qed.
Example ex_nobody : load (users (run ex_K ex_c (init ex_c) ex_a)) (ByName [99]) = None. Proof. vm_compute. reflexivity. Qed.
Example ex_params : map (fun d => match u_hash (d_user d) with Some (Phc h) => t_cost (ph_params h) | _ => 0 end) (users (run ex_K ex_c (init ex_c) ex_a)) = [5; 5].
Proof. vm_compute. reflexivity. Qed.
Example ex_calibrate : calibrate ex_K 2 (mktimed 4 19922944 1000) [] 2 0 0 [Some 400; None; Some 900; Some 1200] = ([(2, 400); (5, 900); (6, 1200)], Chosen 6).
Proof. vm_compute. reflexivity. Qed.
Example ex_steady : forall p pw, t_cost p <> 0 -> exists out, build_ok ex_K p = true /\ argon ex_K 2 V0x13 p [] pw = Some out.
Proof. intros p pw H. eexists. cbn. destruct (N.eqb_spec (t_cost p) 0); [contradiction|]. split; [lia|reflexivity]. Qed.
(* an argon that accepts every cost, for the two theorems that ask for it *)
Definition ex_K' : crypto := mkcrypto (fun _ _ p salt pw => Some (salt ++ 0 :: pw)) (fun p => true) (N.eqb 2) (N.eqb 19).
Example ex_steady' : (forall p pw, exists out, build_ok ex_K' p = true /\ argon ex_K' 2 V0x13 p [] pw = Some out) /\
  calibrate ex_K' 2 (mktimed 4 19922944 1000) [] 2 0 0 [Some 600; Some 1200] = ([(2, 600); (4, 1200)], Chosen 4).
Proof. split; [intros p pw; exists ([] ++ 0 :: pw); split; reflexivity|vm_compute; reflexivity]. Qed.
(* an argon that refuses every parameter: the error is kept *)
Definition ex_Kbad : crypto := mkcrypto (fun _ _ p salt pw => None) (fun p => false) (N.eqb 2) (N.eqb 19).
Example ex_kept : tmpl (run ex_Kbad ex_c (init ex_c) (firstn 12 ex_a)) = CellSet None. Proof. vm_compute. reflexivity. Qed.
Example ex_hash : match hash_request ex_K ex_c (Some (mkp 8 2 1 [])) (mkreq 1 [1] None 0) [3] with RHash _ => True | _ => False end. Proof. vm_compute. exact I. Qed.
Example ex_found : initialize ex_K ex_c [] [Some 400; None; Some 900; Some 1200] = ITemplate (mkp 19456 6 4 (be8 0)). Proof. vm_compute. reflexivity. Qed.
Example ex_accepts : match hash_request ex_K ex_c (Some (mkp 8 2 1 [])) (mkreq 1 [1] None 0) [3] with RHash t => verify_request ex_K (mkreq 1 [1] None 0) t = RVerified | _ => False end.
Proof. vm_compute. reflexivity. Qed.

Print Assumptions C72_login.
Print Assumptions C72_right_password.
Print Assumptions C72_no_user.
Print Assumptions C72_which_user.
Print Assumptions C72_set.
Print Assumptions C72_only_set.
Print Assumptions C72_own_answer.
Print Assumptions C72_one_request.
Print Assumptions C72_served.
Print Assumptions C72_same_parameters.
Print Assumptions C72_calibration.
Print Assumptions C72_calibration_steady.
Print Assumptions C72_parameters_found.
Print Assumptions C72_accepts_only.
Print Assumptions C72_coarse_clock_refuted.
Print Assumptions C72_failure_kept.
Print Assumptions C72_not_bound_refuted.
Print Assumptions C72_default_ram.
Print Assumptions C72_default_hashers.
Print Assumptions C72_documented_ram_refuted.
