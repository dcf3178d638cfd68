(* C56: sessions and token challenges.  C62: what a handle may do. *)
From Verif Require Import Base Perms PropPerms Sessions.
From Coq Require Import Sorted.
Local Open Scope N_scope.

(* ---------- subscriber ids ---------- *)
Lemma next_free_candidate fuel : forall used i, exists k, (k <= fuel)%nat /\ next_free fuel used i = (i + 1 + N.of_nat k) mod u64 /\
  (In (next_free fuel used i) used -> k = fuel /\ forall j, (j <= fuel)%nat -> In ((i + 1 + N.of_nat j) mod u64) used).
Proof.
  assert (U : u64 <> 0) by discriminate.
  induction fuel as [|f IH]; intros used i; cbn [next_free].
  - exists O. replace (i + 1 + N.of_nat 0) with (i + 1) by lia. split; [lia|]. split; [reflexivity|].
    intro H. split; [reflexivity|]. intros j Hj. replace j with O by lia. replace (i + 1 + N.of_nat 0) with (i + 1) by lia. exact H.
  - destruct (has used ((i + 1) mod u64)) eqn:E.
    + destruct (IH used ((i + 1) mod u64)) as (k & K1 & K2 & K3). exists (Datatypes.S k). split; [lia|].
      assert (M : forall j, ((i + 1) mod u64 + 1 + N.of_nat j) mod u64 = (i + 1 + N.of_nat (Datatypes.S j)) mod u64).
      { intro j. rewrite <- N.add_assoc, N.add_mod_idemp_l by exact U. f_equal. lia. }
      split; [rewrite K2; apply M|]. intro H. destruct (K3 H) as [-> K4]. split; [reflexivity|].
      intros [|j] Hj.
      * replace (i + 1 + N.of_nat 0) with (i + 1) by lia. apply has_spec, E.
      * rewrite <- M. apply K4. lia.
    + exists O. replace (i + 1 + N.of_nat 0) with (i + 1) by lia. split; [lia|]. split; [reflexivity|].
      intro H. apply has_spec in H. congruence.
Qed.
Lemma next_free_new used i : N.of_nat (length used) < u64 -> ~ In (next_free (length used) used i) used.
Proof.
  intros L H. destruct (next_free_candidate (length used) used i) as (k & _ & _ & K). destruct (K H) as [_ C].
  set (cand := map (fun j => (i + 1 + N.of_nat j) mod u64) (seq 0 (Datatypes.S (length used)))).
  assert (ND : NoDup cand).
  { unfold cand. apply NoDup_nth_error. intros a b La E. rewrite map_length, seq_length in La.
    assert (Lb : (b < Datatypes.S (length used))%nat).
    { destruct (Nat.lt_ge_cases b (Datatypes.S (length used))) as [?|G]; [assumption|]. exfalso.
      rewrite (proj2 (nth_error_None (map _ (seq 0 _)) b)) in E by (rewrite map_length, seq_length; exact G).
      apply nth_error_None in E. rewrite map_length, seq_length in E. lia. }
    rewrite !nth_error_map, !(nth_error_nth' _ O) in E by (rewrite seq_length; assumption).
    cbn [option_map] in E. rewrite !seq_nth in E by assumption. injection E as E. cbn [Nat.add] in E.
    assert (U : u64 <> 0) by discriminate.
    pose proof (N.div_mod (i + 1 + N.of_nat a) u64 U) as D1. pose proof (N.div_mod (i + 1 + N.of_nat b) u64 U) as D2.
    rewrite E in D1. set (m := (i + 1 + N.of_nat b) mod u64) in *.
    set (q1 := (i + 1 + N.of_nat a) / u64) in *. set (q2 := (i + 1 + N.of_nat b) / u64) in *.
    destruct (N.lt_trichotomy q1 q2) as [Q|[Q|Q]]; [|rewrite Q in D1; lia|]; exfalso.
    - assert (u64 * (q1 + 1) <= u64 * q2) by (apply N.mul_le_mono_l; lia). lia.
    - assert (u64 * (q2 + 1) <= u64 * q1) by (apply N.mul_le_mono_l; lia). lia. }
  assert (IN : incl cand used).
  { intros x X. apply in_map_iff in X. destruct X as (j & <- & J). apply in_seq in J. apply C. lia. }
  pose proof (NoDup_incl_length ND IN) as LEN. unfold cand in LEN. rewrite map_length, seq_length in LEN. lia.
Qed.

(* ---------- the invariant ---------- *)
Definition auth_ok (s : st) (h : handle) : Prop := match h_auth h with Some id => In id (issued s) | None => True end.
Record J (s : st) : Prop := {
  j_sorted : StronglySorted N.lt (issued s);
  j_le : forall i, In i (issued s) -> i <= last_id s;
  j_map : forall i x, In (i, x) (sessions s) -> In i (issued s);
  j_nodup : NoDup (map fst (sessions s));
  j_empty : forall i t n m p, In (i, mkses (Challenge t n m) p) (sessions s) -> p = [];
  j_handles : forall h, In (Some h) (handles s) -> auth_ok s h;
  j_subs : forall e, In e (subs s) -> auth_ok s (snd (snd e));
  j_by : by_session s = []
}.

Lemma opened_J a ts : J (opened a ts).
Proof.
  constructor; cbn; try constructor; try contradiction; try reflexivity.
  intros h [H|[]]. injection H as <-. exact I.
Qed.

Lemma sorted_snoc l x : StronglySorted N.lt l -> (forall y, In y l -> y < x) -> StronglySorted N.lt (l ++ [x]).
Proof.
  induction l as [|a l IH]; intros H K; cbn [app]; [repeat constructor|]. inversion H as [|? ? H1 H2]; subst.
  constructor; [apply IH; [exact H1|intros; apply K; right; assumption]|].
  apply Forall_app. split; [exact H2|]. constructor; [apply K; left; reflexivity|constructor].
Qed.
Lemma NoDup_filter_map_fst {A B} (l : list (A * B)) P : NoDup (map fst l) -> NoDup (map fst (filter P l)).
Proof.
  induction l as [|x l IH]; intro H; [constructor|]. cbn [map filter] in *. inversion H as [|? ? H1 H2]; subst.
  destruct (P x); [|apply IH; exact H2]. cbn [map]. constructor; [|apply IH; exact H2].
  intro K. apply H1. apply in_map_iff in K. destruct K as (y & E & K). apply filter_In in K.
  rewrite <- E. apply in_map, K.
Qed.

Lemma new_session_J s x : J s -> (match se_auth x with Challenge _ _ _ => se_perms x = [] | _ => True end) -> J (fst (new_session s x)).
Proof.
  intros [J1 J2 J3 J4 J5 J6 J7 J8] C. unfold new_session. cbn [fst].
  assert (LT : forall i, In i (issued s) -> i < last_id s + 1) by (intros i H; specialize (J2 i H); lia).
  assert (AO : forall h, auth_ok s h -> match h_auth h with Some id => In id (issued s ++ [last_id s + 1]) | None => True end).
  { intros h. unfold auth_ok. destruct (h_auth h); [|tauto]. intro. apply in_app_iff. left. assumption. }
  constructor; unfold auth_ok; cbn [issued last_id sessions handles subs by_session].
  - apply sorted_snoc; assumption.
  - intros i H. apply in_app_iff in H. destruct H as [H|[<-|[]]]; [specialize (LT i H); lia|lia].
  - intros i y [H|H].
    + injection H as <- <-. apply in_app_iff. right. left. reflexivity.
    + apply filter_In in H. apply in_app_iff. left. eapply J3, H.
  - cbn [map fst]. constructor; [|apply NoDup_filter_map_fst, J4]. intro K. apply in_map_iff in K. destruct K as (e & E & K).
    apply filter_In in K. destruct K as [_ K]. rewrite E, N.eqb_refl in K. discriminate.
  - intros i t n m p [H|H].
    + injection H as _ E. rewrite E in C. exact C.
    + apply filter_In in H. eapply J5, H.
  - intros h H. apply in_app_iff in H. destruct H as [H|[H|[]]]; [apply AO, J6, H|].
    injection H as <-. cbn [h_auth]. apply in_app_iff. right. left. reflexivity.
  - intros e H. apply AO, J7, H.
  - exact J8.
Qed.
Lemma remove_session_J s id : J s -> J (remove_session s id).
Proof.
  intros [J1 J2 J3 J4 J5 J6 J7 J8]. constructor; cbn [remove_session issued last_id sessions handles subs by_session]; try assumption.
  - intros i x H. apply filter_In in H. eapply J3, H.
  - apply NoDup_filter_map_fst, J4.
  - intros i t n m p H. apply filter_In in H. eapply J5, H.
Qed.
Lemma assume_J E s w : J s -> J (fst (assume E s w)).
Proof.
  intro H. unfold assume. destruct w as [i|i]; destruct (find _ _); try exact H.
  - change (J (fst (let '(s', h) := new_session s (mkses (Identified (IUser i)) (user_permissions (adm s) u (everyone E))) in (s', Done h : outcome handle serr)))).
    destruct (new_session s _) eqn:N. cbn [fst]. change s0 with (fst (s0, h)). rewrite <- N. apply new_session_J; [exact H|exact I].
  - destruct (new_session s _) eqn:N. cbn [fst]. change s0 with (fst (s0, h)). rewrite <- N. apply new_session_J; [exact H|exact I].
Qed.
Lemma collect_by s a : by_session s = [] ->
  collect s a = s \/ exists id, a = Some id /\ collect s a = remove_session s id.
Proof.
  intro B. unfold collect. destruct a as [id|]; [|left; reflexivity]. destruct (referenced s id); [left; reflexivity|].
  right. exists id. split; [reflexivity|]. unfold drop_session, remove_session. rewrite B. cbn [filter flat_map].
  f_equal. clear. induction (registry s) as [|e l IH]; [reflexivity|]. cbn [filter has existsb negb]. f_equal. exact IH.
Qed.
Lemma collect_J s a : J s -> J (collect s a).
Proof.
  intro H. destruct (collect_by s a (j_by s H)) as [-> | (id & _ & ->)]; [exact H|apply remove_session_J, H].
Qed.
Lemma set_nth_in {A} i (x y : A) l : In y (set_nth i x l) -> y = x \/ In y l.
Proof.
  revert i. induction l as [|a l IH]; intros [|i]; cbn [set_nth In]; try tauto.
  - intros [?|?]; auto.
  - intros [?|H]; [tauto|]. destruct (IH i H); tauto.
Qed.
Lemma handle_at_in s i h : handle_at s i = Some h -> In (Some h) (handles s).
Proof.
  unfold handle_at. destruct (nth_error (handles s) i) as [[h'|]|] eqn:E; try discriminate. intro K. injection K as ->.
  apply nth_error_In in E. exact E.
Qed.
Lemma unregister_by id reg bys : bys = [] -> snd (unregister id reg bys) = [].
Proof. intros ->. unfold unregister. destruct (find _ reg) as [[? [?|]]|]; reflexivity. Qed.

Lemma find_session_in s id x : find_session s id = Some x -> In (id, x) (sessions s).
Proof.
  unfold find_session. destruct (find _ (sessions s)) as [e|] eqn:E; [|discriminate]. cbn [option_map].
  apply find_some in E. destruct E as [E1 E2]. apply N.eqb_eq in E2. intro K. injection K as <-. subst id. destruct e; exact E1.
Qed.
Lemma find_session_spec s id x : NoDup (map fst (sessions s)) -> (find_session s id = Some x <-> In (id, x) (sessions s)).
Proof.
  intro ND. split; [apply find_session_in|]. unfold find_session. revert ND. generalize (sessions s). intro l.
  induction l as [|(i & y) l IH]; intros ND H; [destruct H|]. cbn [find fst map] in *. inversion ND as [|? ? N1 N2]; subst.
  destruct H as [H|H].
  - injection H as -> ->. rewrite N.eqb_refl. reflexivity.
  - destruct (N.eqb_spec i id) as [->|D]; [|apply IH; assumption]. exfalso. apply N1. apply in_map_iff. exists (id, x). auto.
Qed.

Lemma step_J E s o : J s -> J (fst (step E s o)).
Proof.
  intro H. destruct o as [i tid rt ck now nc|i hash|i u v|i w|i p|i sid p|i|i|id|o|l]; cbn [step]; unfold on_handle;
    try (destruct (handle_at s i) as [h|] eqn:A; [|exact H]).
  - unfold begin_token. destruct (negb _); [exact H|]. destruct (too_far _ _); [exact H|]. destruct (find_token s tid) as [t|]; [|exact H].
    destruct (negb _); [exact H|]. destruct (new_session s _) eqn:N. cbn [fst]. change s0 with (fst (s0, h0)). rewrite <- N.
    apply new_session_J; [exact H|reflexivity].
  - unfold finish_token. destruct (h_auth h) as [sid|]; [|exact H]. destruct (find_session s sid) as [x|]; [|exact H].
    destruct (se_auth x); [|apply remove_session_J, H]. destruct (find_token _ _) as [t|]; [|apply remove_session_J, H].
    destruct (beqb _ _); [|apply remove_session_J, H]. apply assume_J, remove_session_J, H.
  - unfold password. destruct (find _ _); [|exact H]. destruct (negb _); [exact H|]. destruct v; [apply assume_J, H|exact H].
  - unfold assume_identity. destruct w; (destruct (find _ _); [|exact H]); (destruct (allowed h _); [apply assume_J, H|exact H]).
  - unfold with_effective_permissions. destruct (h_session h); [exact H|]. cbn [fst].
    pose proof (j_handles s H h (handle_at_in _ _ _ A)) as AO. destruct H as [J1 J2 J3 J4 J5 J6 J7 J8].
    constructor; cbn [add_handle issued last_id sessions handles subs by_session]; try assumption.
    intros h' K. apply in_app_iff in K. destruct K as [K|[K|[]]]; [apply J6, K|]. injection K as <-. exact AO.
  - unfold assume_session. destruct (h_auth h); [exact H|]. destruct sid as [id|].
    + destruct (find_session s id) as [x|] eqn:F; [|exact H]. cbn [fst]. apply find_session_in in F. destruct H as [J1 J2 J3 J4 J5 J6 J7 J8].
      constructor; cbn [add_handle issued last_id sessions handles subs by_session]; try assumption.
      intros h' K. apply in_app_iff in K. destruct K as [K|[K|[]]]; [apply J6, K|]. injection K as <-.
      unfold auth_ok. cbn [h_auth add_handle issued]. eapply J3, F.
    + destruct H as [J1 J2 J3 J4 J5 J6 J7 J8]. cbn [fst].
      constructor; cbn [add_handle issued last_id sessions handles subs by_session]; try assumption.
      intros h' K. apply in_app_iff in K. destruct K as [K|[K|[]]]; [apply J6, K|]. injection K as <-. exact I.
  - cbn [fst]. unfold drop_handle. rewrite A. apply collect_J. destruct H as [J1 J2 J3 J4 J5 J6 J7 J8].
    constructor; cbn [issued last_id sessions handles subs by_session]; try assumption.
    intros h' K. apply set_nth_in in K. destruct K as [K|K]; [discriminate|]. apply J6, K.
  - pose proof (j_handles s H h (handle_at_in _ _ _ A)) as AO. unfold register_subscriber. cbn [fst]. destruct H as [J1 J2 J3 J4 J5 J6 J7 J8].
    constructor; cbn [issued last_id sessions handles subs by_session]; try assumption.
    intros e K. apply in_app_iff in K. destruct K as [K|[<-|[]]]; [apply J7, K|exact AO].
  - cbn [fst]. unfold drop_subscriber. destruct (find _ (subs s)) as [(? & ? & h)|]; [|exact H].
    pose proof (unregister_by id (registry s) (by_session s) (j_by s H)) as UB. destruct (unregister _ _ _) as [reg bys]. cbn [snd] in UB.
    apply collect_J. destruct H as [J1 J2 J3 J4 J5 J6 J7 J8].
    constructor; cbn [issued last_id sessions handles subs by_session]; try assumption.
    intros e K. apply filter_In in K. apply J7, K.
  - destruct H as [J1 J2 J3 J4 J5 J6 J7 J8]. constructor; assumption.
  - destruct H as [J1 J2 J3 J4 J5 J6 J7 J8]. constructor; assumption.
Qed.
Lemma run_J E l : forall s, J s -> J (fst (run E s l)).
Proof.
  induction l as [|o l IH]; intros s H; [exact H|]. cbn [run]. pose proof (step_J E s o H) as H1. destruct (step E s o) as [s1 r].
  specialize (IH s1 H1). destruct (run E s1 l). exact IH.
Qed.

(* A state of a storage after any history. *)
Definition reach (E : env) (s : st) : Prop := exists a ts l, s = fst (run E (opened a ts) l).
Lemma reach_J E s : reach E s -> J s.
Proof. intros (a & ts & l & ->). apply run_J, opened_J. Qed.
Lemma run_app E l1 : forall s l2, fst (run E s (l1 ++ l2)) = fst (run E (fst (run E s l1)) l2).
Proof.
  induction l1 as [|o l1 IH]; intros s l2; [reflexivity|]. cbn [app run]. destruct (step E s o) as [s1 r].
  specialize (IH s1 l2). destruct (run E s1 (l1 ++ l2)), (run E s1 l1). exact IH.
Qed.
Lemma reach_run E s l : reach E s -> reach E (fst (run E s l)).
Proof. intros (a & ts & l0 & ->). exists a, ts, (l0 ++ l). symmetry. apply run_app. Qed.

(* issued only grows *)
Definition grows (s s' : st) : Prop := exists l, issued s' = issued s ++ l /\ (forall i, In i l -> last_id s < i) /\ last_id s <= last_id s' /\
  forall i x, In (i, x) (sessions s') -> In (i, x) (sessions s) \/ In i l.
Lemma grows_refl s : grows s s.
Proof. exists []. rewrite app_nil_r. repeat split; try contradiction; try lia. tauto. Qed.
Lemma grows_trans a b c : grows a b -> grows b c -> grows a c.
Proof.
  intros (l & E1 & L1 & M1 & S1) (k & E2 & L2 & M2 & S2). exists (l ++ k). split; [rewrite E2, E1, app_assoc; reflexivity|].
  split; [intros i H; apply in_app_iff in H; destruct H as [H|H]; [apply L1, H|specialize (L2 i H); lia]|]. split; [lia|].
  intros i x H. rewrite in_app_iff. destruct (S2 i x H) as [K|K]; [destruct (S1 i x K); tauto|tauto].
Qed.
Lemma grows_same s s' : issued s' = issued s -> last_id s' = last_id s -> (forall e, In e (sessions s') -> In e (sessions s)) -> grows s s'.
Proof. intros E L S. exists []. rewrite app_nil_r. repeat split; try contradiction; try lia; auto. Qed.
Lemma grows_new s x : grows s (fst (new_session s x)).
Proof.
  unfold new_session. cbn [fst]. exists [last_id s + 1]. cbn [issued last_id sessions]. split; [reflexivity|].
  split; [intros i [<-|[]]; lia|]. split; [lia|]. intros i y [H|H]; [right; left; congruence|]. apply filter_In in H. tauto.
Qed.
Lemma grows_remove s id : grows s (remove_session s id).
Proof. apply grows_same; try reflexivity. intros e H. apply filter_In in H. tauto. Qed.
Lemma grows_assume E s w : grows s (fst (assume E s w)).
Proof.
  unfold assume. destruct w as [i|i]; destruct (find _ _); try apply grows_refl;
    destruct (new_session s _) eqn:N; cbn [fst]; change s0 with (fst (s0, h)); rewrite <- N; apply grows_new.
Qed.
Lemma grows_collect s s0 a : by_session s = [] -> grows s0 s -> grows s0 (collect s a).
Proof.
  intros B G. destruct (collect_by s a B) as [-> | (id & _ & ->)]; [exact G|]. eapply grows_trans; [exact G|apply grows_remove].
Qed.
Lemma step_grows E s o : J s -> grows s (fst (step E s o)).
Proof.
  intro H. destruct o as [i tid rt ck now nc|i hash|i u v|i w|i p|i sid p|i|i|id|o|l]; cbn [step]; unfold on_handle;
    try (destruct (handle_at s i) as [h|] eqn:A; [|apply grows_refl]).
  - unfold begin_token. destruct (negb _); [apply grows_refl|]. destruct (too_far _ _); [apply grows_refl|]. destruct (find_token s tid) as [t|]; [|apply grows_refl].
    destruct (negb _); [apply grows_refl|]. destruct (new_session s _) eqn:N. cbn [fst]. change s0 with (fst (s0, h0)). rewrite <- N. apply grows_new.
  - unfold finish_token. destruct (h_auth h) as [sid|]; [|apply grows_refl]. destruct (find_session s sid) as [x|]; [|apply grows_refl].
    destruct (se_auth x); [|apply grows_remove]. destruct (find_token _ _) as [t|]; [|apply grows_remove].
    destruct (beqb _ _); [|apply grows_remove]. eapply grows_trans; [apply grows_remove|apply grows_assume].
  - unfold password. destruct (find _ _); [|apply grows_refl]. destruct (negb _); [apply grows_refl|]. destruct v; [apply grows_assume|apply grows_refl].
  - unfold assume_identity. destruct w; (destruct (find _ _); [|apply grows_refl]); (destruct (allowed h _); [apply grows_assume|apply grows_refl]).
  - destruct (with_effective_permissions h p); cbn [fst]; [|apply grows_refl]. apply grows_same; try reflexivity. auto.
  - destruct (assume_session s h sid p); cbn [fst]; try apply grows_refl. apply grows_same; try reflexivity. auto.
  - cbn [fst]. unfold drop_handle. rewrite A. apply grows_collect; [apply H|]. apply grows_same; try reflexivity. auto.
  - apply grows_same; try reflexivity. auto.
  - cbn [fst]. unfold drop_subscriber. destruct (find _ (subs s)) as [(? & ? & h)|]; [|apply grows_refl].
    pose proof (unregister_by id (registry s) (by_session s) (j_by s H)) as UB. destruct (unregister _ _ _) as [reg bys]. cbn [snd] in UB.
    apply grows_collect; [exact UB|]. apply grows_same; try reflexivity. auto.
  - apply grows_same; try reflexivity. auto.
  - apply grows_same; try reflexivity. auto.
Qed.
Lemma run_grows E l : forall s, J s -> grows s (fst (run E s l)).
Proof.
  induction l as [|o l IH]; intros s H; [apply grows_refl|]. cbn [run]. pose proof (step_J E s o H) as H1.
  pose proof (step_grows E s o H) as G. destruct (step E s o) as [s1 r]. cbn [fst] in *.
  specialize (IH s1 H1). destruct (run E s1 l). cbn [fst] in *. eapply grows_trans; eassumption.
Qed.

(* ================= C56 ================= *)
(* Session ids are handed out in increasing order through every history, so none
   is ever used twice. *)
Theorem C56_ids_never_reused : forall E s, reach E s ->
  StronglySorted N.lt (issued s) /\
  forall o h, snd (step E s o) = Done h ->
    match o with
    | OToken _ _ _ _ _ _ | ORespond _ _ | OPassword _ _ _ | OAssume _ _ =>
        exists id, h_auth h = Some id /\ ~ In id (issued s) /\ issued (fst (step E s o)) = issued s ++ [id]
    | _ => issued (fst (step E s o)) = issued s
    end.
Proof.
  intros E s R. pose proof (reach_J E s R) as H. split; [apply H|].
  assert (NEW : ~ In (last_id s + 1) (issued s)). { intro K. apply (j_le s H) in K. lia. }
  assert (AS : forall t w h, (last_id t = last_id s) -> issued t = issued s -> snd (assume E t w) = Done h ->
     exists id, h_auth h = Some id /\ ~ In id (issued s) /\ issued (fst (assume E t w)) = issued s ++ [id]).
  { intros t w h L IS D. unfold assume in *. destruct w as [i|i]; destruct (find _ _); cbn [new_session snd fst] in *; try discriminate;
      injection D as <-; exists (last_id t + 1); cbn [h_auth issued]; rewrite L, IS; auto. }
  intros o h D. destruct o as [i tid rt ck now nc|i hash|i u v|i w|i p|i sid p|i|i|id|o|l]; cbn [step] in *; unfold on_handle in *;
    try (destruct (handle_at s i) as [h0|] eqn:A; [|discriminate]).
  - unfold begin_token in *. destruct (negb _); [discriminate|]. destruct (too_far _ _); [discriminate|].
    destruct (find_token s tid); [|discriminate]. destruct (negb _); [discriminate|]. cbn [new_session snd fst] in *.
    injection D as <-. exists (last_id s + 1). cbn [h_auth issued]. auto.
  - unfold finish_token in *. destruct (h_auth h0) as [sid|]; [|discriminate]. destruct (find_session s sid) as [x|]; [|discriminate].
    destruct (se_auth x); [|discriminate]. destruct (find_token _ _) as [t|]; [|discriminate]. destruct (beqb _ _); [|discriminate].
    exact (AS (remove_session s sid) (t_identity t) h eq_refl eq_refl D).
  - unfold password in *. destruct (find _ _); [|discriminate]. destruct (negb _); [discriminate|]. destruct v; [|discriminate].
    exact (AS s _ h eq_refl eq_refl D).
  - unfold assume_identity in *. destruct w; (destruct (find _ _); [|discriminate]); (destruct (allowed h0 _); [|discriminate]);
      exact (AS s _ h eq_refl eq_refl D).
  - destruct (with_effective_permissions h0 p); [reflexivity|discriminate].
  - destruct (assume_session s h0 sid p); try discriminate. reflexivity.
  - cbn [fst]. unfold drop_handle. rewrite A. destruct (collect_by (mkst (adm s) (tokens s) (sessions s) (last_id s) (set_nth i None (handles s)) (subs s) (registry s)
                 (by_session s) (last_sub s) (issued s)) (h_auth h0) (j_by s H)) as [-> | (id & _ & ->)]; reflexivity.
  - reflexivity.
  - cbn [fst]. unfold drop_subscriber. destruct (find _ (subs s)) as [(? & ? & h1)|]; [|reflexivity].
    pose proof (unregister_by id (registry s) (by_session s) (j_by s H)) as UB. destruct (unregister _ _ _) as [reg bys]. cbn [snd] in UB.
    match goal with |- issued (collect ?t ?a) = _ => destruct (collect_by t a UB) as [-> | (id' & _ & ->)]; reflexivity end.
  - reflexivity.
  - reflexivity.
Qed.

(* A challenge can be answered at most once: after any answer through a handle
   of session [sid], right or wrong, every later answer for that session fails
   and changes nothing, whatever happens in between. *)
Theorem C56_challenge_once : forall E s i h sid hash l j h' hash',
  reach E s -> handle_at s i = Some h -> h_auth h = Some sid ->
  let s1 := fst (step E s (ORespond i hash)) in
  let s2 := fst (run E s1 l) in
  handle_at s2 j = Some h' -> h_auth h' = Some sid ->
  step E s2 (ORespond j hash') = (s2, Fail EInvalid).
Proof.
  intros E s i h sid hash l j h' hash' R A U s1 s2 A' U'.
  pose proof (reach_J E s R) as H.
  assert (Hs1 : J s1) by (apply step_J, H).
  assert (IS : In sid (issued s)). { pose proof (j_handles s H h (handle_at_in _ _ _ A)) as K. unfold auth_ok in K. rewrite U in K. exact K. }
  assert (NS : forall x, ~ In (sid, x) (sessions s1)).
  { intros x K. subst s1. cbn [step] in K. unfold on_handle in K. rewrite A in K. unfold finish_token in K. rewrite U in K.
    destruct (find_session s sid) as [y|] eqn:F; cbn [fst] in K.
    2: { apply (find_session_spec s sid x (j_nodup s H)) in K. congruence. }
    assert (RM : ~ In (sid, x) (sessions (remove_session s sid))).
    { cbn [remove_session sessions]. intro Q. apply filter_In in Q. cbn [fst] in Q. rewrite N.eqb_refl in Q. destruct Q; discriminate. }
    destruct (se_auth y); [|exact (RM K)]. destruct (find_token _ _) as [t|]; [|exact (RM K)].
    destruct (beqb _ _); [|exact (RM K)].
    destruct (grows_assume E (remove_session s sid) (t_identity t)) as (k & _ & L & _ & S). destruct (S _ _ K) as [Q|Q]; [exact (RM Q)|].
    specialize (L _ Q). cbn [remove_session last_id] in L. apply (j_le s H) in IS. lia. }
  assert (NS2 : forall x, ~ In (sid, x) (sessions s2)).
  { intros x K. destruct (run_grows E l s1 Hs1) as (k & _ & L & _ & S). destruct (S _ _ K) as [Q|Q]; [exact (NS _ Q)|].
    specialize (L _ Q). assert (In sid (issued s1)).
    { destruct (step_grows E s (ORespond i hash) H) as (k1 & E1 & _). unfold s1. rewrite E1. apply in_app_iff. left. exact IS. }
    apply (j_le s1 Hs1) in H0. lia. }
  cbn [step]. unfold on_handle. rewrite A'. unfold finish_token. rewrite U'.
  destruct (find_session s2 sid) as [x|] eqn:F; [|reflexivity]. exfalso. apply find_session_in in F. exact (NS2 _ F).
Qed.

(* An answer succeeds only with the hash of the token's secret over the nonce and
   time of this very challenge, and then gives exactly the permissions of the
   token's identity. *)
Theorem C56_response : forall E s i hash h', reach E s -> snd (step E s (ORespond i hash)) = Done h' ->
  exists h sid tid nonce time t,
    handle_at s i = Some h /\ h_auth h = Some sid /\
    find_session s sid = Some (mkses (Challenge tid nonce time) []) /\
    In t (tokens s) /\ t_id t = tid /\ hash = response E (t_secret t) nonce time /\
    match t_identity t with
    | IUser u => exists x, In x (users (adm s)) /\ u_id x = u /\ h_session h' = Some (user_permissions (adm s) x (everyone E))
    | IRole r => exists x, In x (roles (adm s)) /\ r_id x = r /\ h_session h' = Some (role_permissions (adm s) x (everyone E))
    end.
Proof.
  intros E s i hash h' R D. pose proof (reach_J E s R) as H. cbn [step] in D. unfold on_handle in D.
  destruct (handle_at s i) as [h|] eqn:A; [|discriminate]. unfold finish_token in D.
  destruct (h_auth h) as [sid|] eqn:U; [|discriminate]. destruct (find_session s sid) as [[au p]|] eqn:F; [|discriminate].
  cbn [se_auth] in D. destruct au as [tid nonce time|]; [|discriminate].
  assert (p = []) by (eapply (j_empty s H), find_session_in, F). subst p.
  change (find_token (remove_session s sid) tid) with (find_token s tid) in D.
  destruct (find_token s tid) as [t|] eqn:T; [|discriminate]. destruct (beqb _ _) eqn:B; [|discriminate].
  pose proof T as T'. apply find_some in T'. destruct T' as [T1 T2]. apply N.eqb_eq in T2.
  exists h, sid, tid, nonce, time, t. repeat (split; [assumption || reflexivity|]). split.
  { unfold beqb in B. destruct list_eq_dec; congruence. }
  unfold assume in D. destruct (t_identity t) as [u|r]; cbn [remove_session adm] in D; destruct (find _ _) as [x|] eqn:X; try discriminate;
    cbn [new_session snd] in D; injection D as <-; apply find_some in X; destruct X as [X1 X2]; apply N.eqb_eq in X2; exists x; auto.
Qed.

(* Starting a challenge: only with permission, within 300 seconds, knowing the
   secret; and the handle it returns may do nothing. *)
Theorem C56_begin : forall E s i tid rt check now nonce h', snd (step E s (OToken i tid rt check now nonce)) = Done h' ->
  (exists h, handle_at s i = Some h /\ allowed h (act_token E tid) = true) /\
  (rt <= now -> now - rt < 301 * 1000000000) /\ (now <= rt -> rt - now < 301 * 1000000000) /\
  (exists t, In t (tokens s) /\ t_id t = tid /\ check = time_hash E (t_secret t) rt) /\
  (forall a, allowed h' a = false).
Proof.
  intros E s i tid rt check now nonce h' D. cbn [step] in D. unfold on_handle in D.
  destruct (handle_at s i) as [h|] eqn:A; [|discriminate]. unfold begin_token in D.
  destruct (allowed h (act_token E tid)) eqn:AL; cbn [negb] in D; [|discriminate].
  destruct (too_far rt now) eqn:TF; [discriminate|]. destruct (find_token s tid) as [t|] eqn:T; [|discriminate].
  destruct (beqb _ _) eqn:B; cbn [negb] in D; [|discriminate]. cbn [new_session snd] in D. injection D as <-.
  split; [eauto|]. unfold too_far in TF. apply N.ltb_ge in TF.
  assert (DD : forall x, x / 1000000000 <= 300 -> x < 301 * 1000000000).
  { intros x Hx. pose proof (N.div_mod x 1000000000 ltac:(discriminate)). pose proof (N.mod_upper_bound x 1000000000 ltac:(discriminate)). lia. }
  split; [|split; [|split]].
  - intro L. destruct (N.ltb_spec rt now); apply DD in TF; lia.
  - intro L. destruct (N.ltb_spec rt now); apply DD in TF; lia.
  - exists t. apply find_some in T. destruct T as [T1 T2]. apply N.eqb_eq in T2. split; [exact T1|]. split; [exact T2|]. unfold beqb in B. destruct list_eq_dec; congruence.
  - intro a. reflexivity.
Qed.

(* Whoever knows a token's secret, may authenticate with it and has a clock that
   is not off by more than 300 seconds gets in: both steps succeed, and a password
   that verifies does too. *)
Theorem C56_token_login : forall E s i h tid t rt now nonce,
  handle_at s i = Some h -> allowed h (act_token E tid) = true ->
  NoDup (map t_id (tokens s)) -> In t (tokens s) -> t_id t = tid -> rt <= now + 300 * 1000000000 -> now <= rt + 300 * 1000000000 ->
  match t_identity t with
  | IUser u => In u (map u_id (users (adm s)))
  | IRole r => In r (map r_id (roles (adm s)))
  end ->
  let s1 := fst (step E s (OToken i tid rt (time_hash E (t_secret t) rt) now nonce)) in
  exists h1 h2, snd (step E s (OToken i tid rt (time_hash E (t_secret t) rt) now nonce)) = Done h1 /\
    handle_at s1 (length (handles s)) = Some h1 /\
    snd (step E s1 (ORespond (length (handles s)) (response E (t_secret t) nonce now))) = Done h2.
Proof.
  intros E s i h tid t rt now nonce A AL ND TI TT B1 B2 I. cbv zeta.
  assert (T : find_token s tid = Some t).
  { unfold find_token. clear - ND TI TT. induction (tokens s) as [|x l IH]; [destruct TI|]. cbn in *. inversion ND; subst. destruct TI as [->|TI].
    - rewrite N.eqb_refl. reflexivity.
    - destruct (N.eqb_spec (t_id x) (t_id t)) as [Q|Q]; [|apply IH; assumption]. exfalso. apply H1. rewrite Q. apply in_map, TI. }
  assert (TF : too_far rt now = false).
  { unfold too_far. apply N.ltb_ge. destruct (N.ltb_spec rt now).
    - apply N.div_le_upper_bound; lia.
    - apply N.div_le_upper_bound; lia. }
  assert (BT : forall x, beqb x x = true) by (intros x; unfold beqb; destruct list_eq_dec; congruence).
  assert (G : step E s (OToken i tid rt (time_hash E (t_secret t) rt) now nonce) =
              (fst (new_session s (mkses (Challenge tid nonce now) [])), Done (mkh (Some (last_id s + 1)) (Some [])))).
  { cbn [step]. unfold on_handle. rewrite A. unfold begin_token. rewrite AL, TF, T, BT. reflexivity. }
  rewrite G. cbn [fst snd]. set (s1 := fst _).
  assert (H1 : handle_at s1 (length (handles s)) = Some (mkh (Some (last_id s + 1)) (Some []))).
  { unfold handle_at, s1. cbn [new_session fst handles]. rewrite nth_error_app2, Nat.sub_diag by lia. reflexivity. }
  assert (F : find_session s1 (last_id s + 1) = Some (mkses (Challenge tid nonce now) [])).
  { unfold find_session, s1. cbn [new_session fst sessions find]. rewrite N.eqb_refl. reflexivity. }
  assert (D : exists h2, snd (step E s1 (ORespond (length (handles s)) (response E (t_secret t) nonce now))) = Done h2).
  { cbn [step]. unfold on_handle. rewrite H1. unfold finish_token. cbn [h_auth]. rewrite F. cbn [se_auth].
    change (find_token (remove_session s1 (last_id s + 1)) tid) with (find_token s tid). rewrite T, BT. unfold assume.
    change (adm (remove_session s1 (last_id s + 1))) with (adm s). destruct (t_identity t) as [u|r]; apply in_map_iff in I; destruct I as (x & X1 & X2).
    - destruct (find _ _) as [y|] eqn:Y; [cbn [new_session snd]; eexists; reflexivity|]. pose proof (List.find_none _ _ Y _ X2) as Q. cbn beta in Q. rewrite X1, N.eqb_refl in Q. discriminate Q.
    - destruct (find _ _) as [y|] eqn:Y; [cbn [new_session snd]; eexists; reflexivity|]. pose proof (List.find_none _ _ Y _ X2) as Q. cbn beta in Q. rewrite X1, N.eqb_refl in Q. discriminate Q. }
  destruct D as (h2 & D). exists (mkh (Some (last_id s + 1)) (Some [])), h2. split; [reflexivity|]. split; [exact H1|exact D].
Qed.
Theorem C56_password_login : forall E s i h u, handle_at s i = Some h -> allowed h (act_password E u) = true ->
  In u (map u_id (users (adm s))) -> exists h', snd (step E s (OPassword i u true)) = Done h'.
Proof.
  intros E s i h u A AL I. cbn [step]. unfold on_handle. rewrite A. unfold password, assume. apply in_map_iff in I. destruct I as (x & X1 & X2).
  destruct (find _ _) as [y|] eqn:Y; [rewrite AL; cbn [negb new_session snd]; eexists; reflexivity|].
  pose proof (List.find_none _ _ Y _ X2) as Q. cbn beta in Q. rewrite X1, N.eqb_refl in Q. discriminate Q.
Qed.
Example C56_ex_login : In (mktoken 5 (IUser 0) [7; 7]) (tokens (opened ex_admin [mktoken 5 (IUser 0) [7; 7]])) /\ NoDup (map t_id (tokens (opened ex_admin [mktoken 5 (IUser 0) [7; 7]]))) /\
  In 0 (map u_id (users ex_admin)) /\ handle_at (opened ex_admin [mktoken 5 (IUser 0) [7; 7]]) 0 = Some root_handle /\ (forall a, allowed root_handle a = true).
Proof. split; [left; reflexivity|]. split; [repeat constructor; intros []|]. repeat split; try reflexivity. left. reflexivity. Qed.

(* No challenge session ever carries permissions. *)
Theorem C56_challenge_has_no_permissions : forall E s id tid nonce time p, reach E s ->
  In (id, mkses (Challenge tid nonce time) p) (sessions s) -> p = [].
Proof. intros E s id tid nonce time p R. apply (j_empty s (reach_J E s R)). Qed.

(* Passwords and assuming an identity. *)
Theorem C56_password : forall E s i u v h', snd (step E s (OPassword i u v)) = Done h' ->
  v = true /\ (exists h, handle_at s i = Some h /\ allowed h (act_password E u) = true) /\
  exists x, In x (users (adm s)) /\ u_id x = u /\ h_session h' = Some (user_permissions (adm s) x (everyone E)).
Proof.
  intros E s i u v h' D. cbn [step] in D. unfold on_handle in D. destruct (handle_at s i) as [h|]; [|discriminate].
  unfold password in D. destruct (find _ _) as [x|] eqn:X; [|discriminate]. destruct (allowed h _) eqn:AL; cbn [negb] in D; [|discriminate].
  destruct v; [|discriminate]. split; [reflexivity|]. split; [eauto|]. unfold assume in D. rewrite X in D. cbn [new_session snd] in D.
  injection D as <-. apply find_some in X. destruct X as [X1 X2]. apply N.eqb_eq in X2. exists x. auto.
Qed.
Theorem C56_assume_identity : forall E s i w h', snd (step E s (OAssume i w)) = Done h' ->
  exists h, handle_at s i = Some h /\
  match w with
  | IUser u => allowed h (act_assume_user E u) = true /\
      exists x, In x (users (adm s)) /\ u_id x = u /\ h_session h' = Some (user_permissions (adm s) x (everyone E))
  | IRole r => allowed h (act_assume_role E r) = true /\
      exists x, In x (roles (adm s)) /\ r_id x = r /\ h_session h' = Some (role_permissions (adm s) x (everyone E))
  end.
Proof.
  intros E s i w h' D. cbn [step] in D. unfold on_handle in D. destruct (handle_at s i) as [h|]; [|discriminate]. exists h. split; [reflexivity|].
  unfold assume_identity in D. destruct w as [u|r]; (destruct (find _ _) as [x|] eqn:X; [|discriminate]); (destruct (allowed h _) eqn:AL; [|discriminate]);
    (split; [reflexivity|]); unfold assume in D; rewrite X in D; cbn [new_session snd] in D; injection D as <-;
    apply find_some in X; destruct X as [X1 X2]; apply N.eqb_eq in X2; exists x; auto.
Qed.

(* Refused logins change nothing; a wrong password, an unknown user, an unknown token and a
   wrong digest cannot be told apart by a handle that may try them. *)
Theorem C56_refused_login : forall E s i h, handle_at s i = Some h ->
  (forall tid rt check now nonce, allowed h (act_token E tid) = false -> step E s (OToken i tid rt check now nonce) = (s, Fail EDeniedS)) /\
  (forall u v, In u (map u_id (users (adm s))) -> allowed h (act_password E u) = false -> step E s (OPassword i u v) = (s, Fail EDeniedS)) /\
  (forall u, In u (map u_id (users (adm s))) -> allowed h (act_assume_user E u) = false -> step E s (OAssume i (IUser u)) = (s, Fail EDeniedS)) /\
  (forall r, In r (map r_id (roles (adm s))) -> allowed h (act_assume_role E r) = false -> step E s (OAssume i (IRole r)) = (s, Fail EDeniedS)) /\
  (forall u, allowed h (act_password E u) = true -> step E s (OPassword i u false) = (s, Fail EInvalid)) /\
  (forall u v, ~ In u (map u_id (users (adm s))) -> step E s (OPassword i u v) = (s, Fail EInvalid)) /\
  (forall tid rt check now nonce, allowed h (act_token E tid) = true ->
     (forall t, In t (tokens s) -> t_id t = tid -> time_hash E (t_secret t) rt <> check) ->
     step E s (OToken i tid rt check now nonce) = (s, Fail EInvalid)).
Proof.
  assert (FU : forall A (f : A -> N) l u, In u (map f l) -> exists x, find (fun x => f x =? u) l = Some x).
  { intros A f l u I. destruct (find (fun x => f x =? u) l) as [x|] eqn:F; [eauto|]. apply in_map_iff in I. destruct I as (x & X & I).
    pose proof (List.find_none _ _ F _ I) as Q. cbn beta in Q. rewrite X, N.eqb_refl in Q. discriminate. }
  intros E s i h A. cbn [step]. unfold on_handle. rewrite A. repeat match goal with |- _ /\ _ => split end.
  - intros tid rt check now nonce D. unfold begin_token. rewrite D. reflexivity.
  - intros u v I D. destruct (FU _ _ _ _ I) as [x F]. unfold password. rewrite F, D. reflexivity.
  - intros u I D. destruct (FU _ _ _ _ I) as [x F]. unfold assume_identity. rewrite F, D. reflexivity.
  - intros r I D. destruct (FU _ _ _ _ I) as [x F]. unfold assume_identity. rewrite F, D. reflexivity.
  - intros u D. unfold password. destruct (find _ _); [rewrite D|]; reflexivity.
  - intros u v NI. unfold password. destruct (find _ _) as [x|] eqn:F; [|reflexivity]. exfalso. apply NI. apply find_some in F. destruct F as [F1 F2]. apply N.eqb_eq in F2.
    apply in_map_iff. eauto.
  - intros tid rt check now nonce D W. unfold begin_token. rewrite D. cbn [negb]. destruct (too_far rt now); [reflexivity|].
    unfold find_token. destruct (find _ (tokens s)) as [t|] eqn:F; [|reflexivity]. apply find_some in F. destruct F as [F1 F2]. apply N.eqb_eq in F2.
    unfold beqb. destruct (list_eq_dec N.eq_dec (time_hash E (t_secret t) rt) check) as [X|X]; [exfalso; exact (W t F1 F2 X)|reflexivity].
Qed.
(* Live subscribers have distinct ids, and dropping one unregisters exactly it. *)
Definition few (s : st) : Prop := N.of_nat (length (registry s)) < u64.
Theorem C56_subscriber_ids : forall s h sid, few s -> 
  let '(s', id) := register_subscriber s h sid in
  ~ In id (map fst (registry s)) /\ registry s' = (id, sid) :: registry s /\ sessions s' = sessions s.
Proof.
  intros s h sid F. unfold register_subscriber. split; [|split; reflexivity].
  replace (length (registry s)) with (length (map fst (registry s))) by apply map_length.
  apply next_free_new. rewrite map_length. exact F.
Qed.
Theorem C56_drop_subscriber : forall E s id, reach E s -> In id (map fst (subs s)) ->
  (forall e, In e (registry (drop_subscriber s id)) <-> In e (registry s) /\ fst e <> id) /\
  (forall e, In e (subs (drop_subscriber s id)) <-> In e (subs s) /\ fst e <> id).
Proof.
  intros E s id R X. pose proof (reach_J E s R) as H. unfold drop_subscriber.
  destruct (find _ (subs s)) as [(i & a & h)|] eqn:F.
  2: { exfalso. apply in_map_iff in X. destruct X as (y & <- & Y). apply (find_none _ _ F) in Y. rewrite N.eqb_refl in Y. discriminate. }
  pose proof (unregister_by id (registry s) (by_session s) (j_by s H)) as UB.
  assert (RG : fst (unregister id (registry s) (by_session s)) = filter (fun e => negb (fst e =? id)) (registry s)).
  { unfold unregister. destruct (find _ (registry s)) as [[? [?|]]|]; reflexivity. }
  destruct (unregister _ _ _) as [reg bys]. cbn [fst snd] in *. subst reg.
  split; intros e.
  - match goal with |- In e (registry (collect ?t ?b)) <-> _ => destruct (collect_by t b UB) as [-> | (id' & _ & ->)] end;
      cbn [remove_session registry]; rewrite filter_In, negb_true_iff, N.eqb_neq; reflexivity.
  - match goal with |- In e (subs (collect ?t ?b)) <-> _ => destruct (collect_by t b UB) as [-> | (id' & _ & ->)] end;
      cbn [remove_session subs]; rewrite filter_In, negb_true_iff, N.eqb_neq; reflexivity.
Qed.

(* ---------- what does not hold ---------- *)
(* Ending a session never removes its subscribers: nothing ever records which
   session a subscriber belongs to, so whatever handle is dropped after whatever
   history, all subscribers stay registered. *)
Theorem C56_subscribers_stay_refuted : forall E s i, reach E s ->
  registry (fst (step E s (ODropHandle i))) = registry s.
Proof.
  intros E s i R. pose proof (reach_J E s R) as H. cbn [step]. unfold on_handle. destruct (handle_at s i) as [h|] eqn:A; [|reflexivity].
  cbn [fst]. unfold drop_handle. rewrite A.
  match goal with |- registry (collect ?t ?b) = _ => destruct (collect_by t b (j_by s H)) as [-> | (id' & _ & ->)]; reflexivity end.
Qed.
(* And a session of an identity does not end when its handles are dropped: the
   session table itself keeps it. Only a (wrong) TokenChallengeResponse ends it. *)
Theorem C56_sessions_stay_refuted : forall E s i id x, reach E s ->
  In (id, x) (sessions s) -> In (id, x) (sessions (fst (step E s (ODropHandle i)))).
Proof.
  intros E s i id x R S. cbn [step]. unfold on_handle. destruct (handle_at s i) as [h|] eqn:A; [|exact S].
  cbn [fst]. unfold drop_handle. rewrite A. unfold collect. destruct (h_auth h) as [k|]; [|exact S].
  match goal with |- context [referenced ?t k] => destruct (referenced t k) eqn:RF; [exact S|] end.
  unfold drop_session. cbn [sessions]. apply filter_In. split; [exact S|]. cbn [fst]. apply negb_true_iff, N.eqb_neq. intros ->.
  unfold referenced in RF. cbn [sessions] in RF. apply orb_false_iff in RF. destruct RF as [RF _]. apply orb_false_iff in RF. destruct RF as [RF _].
  assert (K : existsb (fun e : N * session => fst e =? k) (sessions s) = true) by (apply existsb_exists; exists (k, x); split; [exact S|apply N.eqb_refl]).
  congruence.
Qed.

Definition ex_env : env := mkenv (fun s n t => s ++ n ++ [t]) (fun s t => s ++ [t]) [1]
  (fun i => 1000 + i) (fun i => 2000 + i) (fun i => 3000 + i) (fun i => 4000 + i).
Definition ex_tokens : list token := [mktoken 5 (IUser 0) [7; 7]].
Definition ex_now : N := 1000000000000.
Definition ex_log : list op :=
  [OToken 0 5 ex_now [7; 7; ex_now] (ex_now + 5) [9]; ORespond 1 [7; 7; 9; ex_now + 5]; ORespond 1 [7; 7; 9; ex_now + 5];
   OSubscriber 2; OAssume 2 (IUser 1); ODropHandle 2; OPassword 0 0 false].
Example C56_example :
  reach ex_env (fst (run ex_env (opened ex_admin ex_tokens) ex_log)) /\
  snd (run ex_env (opened ex_admin ex_tokens) ex_log) =
    [Done (mkh (Some 1) (Some [])); Done (mkh (Some 2) (Some [10; 1])); Fail EInvalid;
     Done (mkh (Some 2) (Some [10; 1])); Fail EDeniedS; Done (mkh (Some 2) (Some [10; 1])); Fail EInvalid] /\
  issued (fst (run ex_env (opened ex_admin ex_tokens) ex_log)) = [1; 2] /\
  registry (fst (run ex_env (opened ex_admin ex_tokens) ex_log)) = [(1, Some 2)] /\
  map fst (sessions (fst (run ex_env (opened ex_admin ex_tokens) ex_log))) = [2] /\
  few (opened ex_admin ex_tokens).
Proof. split; [exists ex_admin, ex_tokens, ex_log; reflexivity|]. repeat split; reflexivity. Qed.

(* ================= C62 ================= *)
(* Restricting a handle: possible exactly when it has no session, and the result
   is allowed exactly the given permissions. *)
Theorem C62_restrict : forall h p,
  match with_effective_permissions h p with
  | Some h' => (forall a, allowed h a = true) /\ (forall a, allowed h' a = true <-> In a p) /\
               forall q, with_effective_permissions h' q = None
  | None => exists l, h_session h = Some l
  end.
Proof.
  intros h p. unfold with_effective_permissions. destruct (h_session h) as [l|] eqn:E; [eauto|].
  split; [intro a; unfold allowed; rewrite E; reflexivity|]. split; [|reflexivity].
  intro a. unfold allowed. cbn [h_session]. apply has_spec.
Qed.
(* Resuming a session adds the given permissions to those of the session. *)
Theorem C62_assume_session : forall E s h sid p h', reach E s -> assume_session s h sid p = Done h' ->
  h_auth h = None /\
  match sid with
  | None => forall a, allowed h' a = true <-> In a p
  | Some id => exists x, In (id, x) (sessions s) /\ forall a, allowed h' a = true <-> In a p \/ In a (se_perms x)
  end.
Proof.
  intros E s h sid p h' R D. unfold assume_session in D. destruct (h_auth h); [discriminate|]. split; [reflexivity|].
  destruct sid as [id|].
  - destruct (find_session s id) as [x|] eqn:F; [|discriminate]. injection D as <-. exists x. split; [apply find_session_in, F|].
    intro a. unfold allowed. cbn [h_session]. rewrite has_spec, in_app_iff. reflexivity.
  - injection D as <-. intro a. unfold allowed. cbn [h_session]. apply has_spec.
Qed.
(* Every handle a login returns is restricted to its session's permissions. *)
Theorem C62_login_restricted : forall E s o h, reach E s -> snd (step E s o) = Done h ->
  match o with OToken _ _ _ _ _ _ | ORespond _ _ | OPassword _ _ _ | OAssume _ _ =>
    exists id x, h_auth h = Some id /\ In (id, x) (sessions (fst (step E s o))) /\ forall a, allowed h a = true <-> In a (se_perms x)
  | _ => True end.
Proof.
  intros E s o h R D.
  assert (NS : forall t x, let '(t', h) := new_session t x in exists id y, h_auth h = Some id /\ In (id, y) (sessions t') /\ forall a, allowed h a = true <-> In a (se_perms y)).
  { intros t x. unfold new_session. exists (last_id t + 1), x. cbn [h_auth sessions]. split; [reflexivity|]. split; [left; reflexivity|].
    intro a. unfold allowed. cbn [h_session]. apply has_spec. }
  assert (AS : forall t w h, snd (assume E t w) = Done h -> exists id y, h_auth h = Some id /\ In (id, y) (sessions (fst (assume E t w))) /\ forall a, allowed h a = true <-> In a (se_perms y)).
  { intros t w h1 D1. unfold assume in *. destruct w as [i|i]; destruct (find _ _); try discriminate;
      match goal with |- context [new_session t ?x] => specialize (NS t x); destruct (new_session t x) as [t' h2] end; cbn [fst snd] in *; injection D1 as <-; exact NS. }
  destruct o as [i tid rt ck now nc|i hash|i u v|i w|i p|i sid p|i|i|id|o|l]; try exact I; cbn [step] in *; unfold on_handle in *;
    (destruct (handle_at s i) as [h0|] eqn:A; [|discriminate]).
  - unfold begin_token in *. destruct (negb _); [discriminate|]. destruct (too_far _ _); [discriminate|].
    destruct (find_token s tid); [|discriminate]. destruct (negb _); [discriminate|].
    match goal with |- context [new_session s ?x] => specialize (NS s x); destruct (new_session s x) as [t' h2] end; cbn [fst snd] in *; injection D as <-; exact NS.
  - unfold finish_token in *. destruct (h_auth h0) as [sid|]; [|discriminate]. destruct (find_session s sid) as [x|]; [|discriminate].
    destruct (se_auth x); [|discriminate]. destruct (find_token _ _) as [t|]; [|discriminate]. destruct (beqb _ _); [|discriminate].
    apply AS, D.
  - unfold password in *. destruct (find _ _); [|discriminate]. destruct (negb _); [discriminate|]. destruct v; [|discriminate]. apply AS, D.
  - unfold assume_identity in *. destruct w; (destruct (find _ _); [|discriminate]); (destruct (allowed h0 _); [|discriminate]); apply AS, D.
Qed.
Example C62_example :
  with_effective_permissions root_handle [3; 4] = Some (mkh None (Some [3; 4])) /\
  assume_session (fst (run ex_env (opened ex_admin ex_tokens) ex_log)) root_handle (Some 2) [77] = Done (mkh (Some 2) (Some [77; 10; 1])).
Proof. split; reflexivity. Qed.

(* The restriction is lost one call later: the databases a restricted handle
   opens, and its admin database, are allowed everything. *)
Theorem C62_database_unrestricted_refuted :
  (forall h a, allowed (database_handle h) a = true /\ allowed (admin_handle h) a = true) /\
  exists h, with_effective_permissions root_handle [] = Some h /\ (forall a, allowed h a = false).
Proof. split; [intros h a; split; reflexivity|]. eexists. split; [reflexivity|]. intro a. reflexivity. Qed.
(* A handle restricted by with_effective_permissions can widen itself. *)
Theorem C62_widen_refuted : forall s h p q, with_effective_permissions root_handle p = Some h ->
  exists h', assume_session s h None q = Done h' /\ forall a, In a q -> allowed h' a = true.
Proof.
  intros s h p q H. injection H as <-. eexists. split; [reflexivity|]. intros a K. unfold allowed. cbn [h_session]. apply has_spec, K.
Qed.

(* A handle without the permission does learn whether a user exists. *)
Theorem C56_user_exists_refuted : exists E s i h u v, reach E s /\ handle_at s i = Some h /\
  allowed h (act_password E u) = false /\ allowed h (act_password E v) = false /\
  snd (step E s (OPassword i u true)) <> snd (step E s (OPassword i v true)).
Proof.
  exists ex_env, (fst (step ex_env (opened ex_admin []) (ORestrict 0 []))), 1%nat, (mkh None (Some [])), 0, 77.
  split; [exists ex_admin, [], [ORestrict 0 []]; reflexivity|]. split; [reflexivity|]. split; [reflexivity|]. split; [reflexivity|]. vm_compute. discriminate.
Qed.

Print Assumptions C56_refused_login.
Print Assumptions C56_user_exists_refuted.
Print Assumptions C56_ids_never_reused.
Print Assumptions C56_challenge_once.
Print Assumptions C56_response.
Print Assumptions C56_begin.
Print Assumptions C56_challenge_has_no_permissions.
Print Assumptions C56_password.
Print Assumptions C56_assume_identity.
Print Assumptions C56_subscriber_ids.
Print Assumptions C56_drop_subscriber.
Print Assumptions C56_subscribers_stay_refuted.
Print Assumptions C56_sessions_stay_refuted.
Print Assumptions C62_restrict.
Print Assumptions C62_assume_session.
Print Assumptions C62_login_restricted.
Print Assumptions C62_database_unrestricted_refuted.
Print Assumptions C62_widen_refuted.
Print Assumptions C56_token_login.
Print Assumptions C56_password_login.
Example C56_ex_refused : exists h, handle_at (fst (step ex_env (opened ex_admin ex_tokens) (ORestrict 0 []))) 1 = Some h /\
  allowed h (act_token ex_env 5) = false /\ In 0 (map u_id (users ex_admin)) /\ allowed root_handle (act_password ex_env 0) = true.
Proof. eexists. split; [reflexivity|]. split; [reflexivity|]. split; [left; reflexivity|reflexivity]. Qed.
