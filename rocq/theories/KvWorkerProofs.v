(* The invariant of the background worker: its target is never later than the work
   that is due. *)
From Coq Require Import List NArith Bool Lia ZifyBool Arith Sorting.Sorted.
From Verif Require Import Base Tree Kv KvSpec KvProofs KvSim KvDisk PropKvDisk KvWorker.
Import ListNotations.
Local Open Scope N_scope.
#[local] Arguments N.modulo : simpl never.
#[local] Arguments N.div : simpl never.

(* ---------- time ---------- *)
(* a reading of the system clock *)
Definition good (t : ts) : Prop := t_nano t < 1000000000 /\ t_sec t < u64_max.
(* a timestamp as the API makes them: adding a duration can leave 1_000_000_000 *)
Definition tnorm (t : ts) : Prop := t_nano t <= 1000000000.
Lemma leb_dur x t : tnorm x -> good t -> ts_leb x t = (ts_dur x <=? ts_dur t).
Proof. unfold tnorm, good, ts_leb, ts_dur. intros H [G _]. lia. Qed.
Lemma good_norm t : good t -> tnorm t. Proof. unfold good, tnorm. lia. Qed.
Lemma dur_split d : d = d / 1000000000 * 1000000000 + d mod 1000000000 /\ d mod 1000000000 < 1000000000.
Proof. split; [rewrite N.mul_comm; apply N.div_mod'|apply N.mod_lt; lia]. Qed.
Lemma ts_add_norm a d : good a -> tnorm (ts_add a d).
Proof. intros [G _]. unfold ts_add, tnorm. cbv zeta. destruct (dur_split d) as [_ M]. destruct (1000000000 <? t_nano a + d mod 1000000000) eqn:E; cbn; lia. Qed.
Lemma ts_add_le a t d : good a -> good t -> ts_dur a + d <= ts_dur t -> ts_leb (ts_add a d) t = true.
Proof.
  intros [G1 G2] [T1 T2] L. unfold ts_add, ts_leb, ts_dur, u64_max in *. cbv zeta. destruct (dur_split d) as [D M].
  set (q := d / 1000000000) in *. set (r := d mod 1000000000) in *. clearbody q r.
  destruct (1000000000 <? t_nano a + r) eqn:E; cbn [t_sec t_nano]; lia.
Qed.
Lemma ts_add_gt a d : good a -> 0 < d -> ts_leb (ts_add a d) a = false.
Proof.
  intros [G1 G2] L. unfold ts_add, ts_leb, ts_dur, u64_max in *. cbv zeta. destruct (dur_split d) as [D M].
  set (q := d / 1000000000) in *. set (r := d mod 1000000000) in *. clearbody q r.
  destruct (1000000000 <? t_nano a + r) eqn:E; cbn [t_sec t_nano]; lia.
Qed.
Lemma ts_min_l a b : ts_leb (ts_min a b) a = true. Proof. unfold ts_min. destruct (ts_leb a b) eqn:E; unfold ts_leb in *; lia. Qed.
Lemma ts_min_r a b : ts_leb (ts_min a b) b = true. Proof. unfold ts_min. destruct (ts_leb a b) eqn:E; unfold ts_leb in *; lia. Qed.
Lemma ts_min_or a b : ts_min a b = a \/ ts_min a b = b. Proof. unfold ts_min. destruct (ts_leb a b); auto. Qed.

(* ---------- persistence rules over time ---------- *)
Definition pol_ok (p : policy) : Prop := p = PImmediate \/ exists rules, p = lazy_policy rules.
Lemma until_mono p n el el0 : pol_ok p -> el < dur_max -> el0 <= el -> should_commit p n el = true -> exists d, until_commit p n el0 = Some d /\ d <= el - el0.
Proof.
  intros [->|[rules ->]] B L H.
  - apply C42_immediate in H. unfold until_commit. destruct (n =? 0) eqn:Z; [lia|]. exists 0. split; [reflexivity|lia].
  - apply C42_should_commit in H. destruct H as (Z & r & I & C & D). unfold until_commit, lazy_policy. destruct (n =? 0) eqn:Z'; [lia|].
    destruct (shortest_spec n el0 _ (sort_sorted rules) dur_max) as (_ & A2 & _). specialize (A2 r (proj2 (sort_In rules r) I) C). cbv zeta.
    exists (shortest n el0 dur_max (fold_right rule_insert [] rules)). destruct (_ <? dur_max) eqn:E; [split; [reflexivity|lia]|lia].
Qed.
Lemma until_zero p n el : should_commit p n el = true <-> until_commit p n el = Some 0.
Proof. unfold should_commit. destruct (until_commit p n el) as [d|]; [|split; discriminate]. split; [intros H; f_equal; lia|intros [= ->]; reflexivity]. Qed.

(* ---------- states ---------- *)
Definition onorm (o : option ts) : Prop := match o with Some x => tnorm x | None => True end.
Definition norms (s : kst) : Prop :=
  (forall k, onorm (t_get k (k_exp s))) /\ (forall k e, kv_get s k = Some e -> onorm (e_exp e)) /\ (forall k x, In (k, x) (k_load s) -> onorm x).
Definition cmd_norm (c : command) : Prop := match c with CSet sc => onorm (s_exp sc) | _ => True end.
Record xinv (c : N) (s : kst) : Prop := { x_kinv : kinv s; x_norms : norms s; x_pol : pol_ok (k_pol s); x_last : ts_dur (k_last s) <= c }.

Lemma norms_same s s2 : (forall k, kv_get s2 k = kv_get s k) -> k_exp s2 = k_exp s -> k_load s2 = k_load s -> norms s -> norms s2.
Proof. intros G X L (A & B & C). unfold norms. rewrite X, L. split; [exact A|]. split; [|exact C]. intros k e. rewrite G. apply B. Qed.

Lemma exec_x s k c now : kinv s -> norms s -> cmd_norm c -> exists r s2, exec s k c now = Some (r, s2) /\ kinv s2 /\ norms s2 /\ same_rest s s2 /\
  match r with KErr _ => s2 = s | KOk _ => True end.
Proof.
  intros I NS CN.
  assert (W : forall x e, onorm x -> (forall y, e = Some y -> e_exp y = x) -> exists s1, update_exp s k x = Some s1 /\
    let s2 := set_dirty (t_set k e (k_dirty s1)) s1 in kinv s2 /\ norms s2 /\ same_rest s s2 /\ (forall j, kv_get s1 j = kv_get s j)).
  { intros x e Ox He. destruct (write_ok s k x e I) as (s1 & U & I2 & R & G1 & _ & R1 & G & X). exists s1. split; [exact U|]. cbv zeta in *.
    split; [exact I2|]. split; [|split; [exact R|exact G1]]. destruct NS as (A & B & C). split; [|split].
    - intros j. rewrite X. destruct (bytes_eqb j k); [exact Ox|apply A].
    - intros j y. rewrite G. destruct (bytes_eqb j k); [intros E; rewrite (He _ E); exact Ox|apply B].
    - destruct R as (_ & _ & _ & _ & _ & _ & _ & L). rewrite L. exact C. }
  assert (Nm : forall a sat op, exists r s2, Some (exec_numeric s k a sat now op) = Some (r, s2) /\ kinv s2 /\ norms s2 /\ same_rest s s2 /\ match r with KErr _ => s2 = s | KOk _ => True end).
  { intros a sat op. unfold exec_numeric. cbv zeta. destruct (e_val _) as [b|y]; [do 2 eexists; split; [reflexivity|]; split; [exact I|]; split; [exact NS|]; split; [apply same_rest_refl|reflexivity]|].
    destruct (num_validate _) as [y'|]; [|do 2 eexists; split; [reflexivity|]; split; [exact I|]; split; [exact NS|]; split; [apply same_rest_refl|reflexivity]].
    do 2 eexists. split; [reflexivity|]. unfold kv_set. split; [apply kinv_dirty, I|]. split; [|split; [repeat split|exact Logic.I]].
    destruct NS as (A & B & C). split; [exact A|]. split; [|exact C]. intros j e. rewrite kv_get_dirty. destruct (bytes_eqb j k); [|apply B].
    intros [= <-]. cbn. destruct (kv_get s k) as [e0|] eqn:G; [exact (B _ _ G)|exact Logic.I]. }
  destruct c as [sc|dl| |a sat|a sat]; cbn [exec]; try apply Nm.
  - unfold exec_set. destruct (val_validate (s_val sc)) as [v|]; [|do 2 eexists; split; [reflexivity|]; split; [exact I|]; split; [exact NS|]; split; [apply same_rest_refl|reflexivity]].
    cbv zeta. destruct (match s_check sc with Some OnlyIfPresent => _ | Some OnlyIfVacant => _ | None => true end);
      [|do 2 eexists; split; [reflexivity|]; split; [exact I|]; split; [exact NS|]; split; [apply same_rest_refl|exact Logic.I]].
    set (x := if s_keep sc then _ else _).
    assert (Ox : onorm x).
    { unfold x. cbn in CN. destruct (s_keep sc); [|exact CN]. rewrite orb_true_r. cbn.
      destruct (kv_get s k) as [e|] eqn:K; [exact (proj1 (proj2 NS) _ _ K)|exact CN]. }
    destruct (W x (Some (Entry v x now)) Ox ltac:(intros y [= <-]; reflexivity)) as (s1 & U & I2 & N2 & R & G1). rewrite U.
    destruct (if (match s_check sc with Some _ => true | None => false end || s_ret sc || s_keep sc)%bool then Some (kv_get s k) else None).
    + do 2 eexists. split; [reflexivity|]. split; [exact I2|]. split; [exact N2|]. split; [exact R|exact Logic.I].
    + rewrite kv_replace_spec. do 2 eexists. split; [reflexivity|]. split; [exact I2|]. split; [exact N2|]. split; [exact R|exact Logic.I].
  - unfold exec_get. destruct dl; [|do 2 eexists; split; [reflexivity|]; split; [exact I|]; split; [exact NS|]; split; [apply same_rest_refl|exact Logic.I]].
    destruct (W None None Logic.I ltac:(discriminate)) as (s1 & U & I2 & N2 & R & G1).
    assert (K : exists e, kv_remove s k = Some (e, set_dirty (t_set k None (k_dirty s1)) s1)).
    { unfold kv_remove. rewrite U. destruct (t_get k (k_dirty s1)); [eexists; reflexivity|]. destruct (match k_pers s1 with Some p => t_get k p | None => None end); eexists; reflexivity. }
    destruct K as (e & ->). do 2 eexists. split; [reflexivity|]. split; [exact I2|]. split; [exact N2|]. split; [exact R|exact Logic.I].
  - unfold exec_delete. destruct (W None None Logic.I ltac:(discriminate)) as (s1 & U & I2 & N2 & R & G1).
    assert (K : exists e, kv_remove s k = Some (e, set_dirty (t_set k None (k_dirty s1)) s1)).
    { unfold kv_remove. rewrite U. destruct (t_get k (k_dirty s1)); [eexists; reflexivity|]. destruct (match k_pers s1 with Some p => t_get k p | None => None end); eexists; reflexivity. }
    destruct K as (e & ->). destruct e; do 2 eexists; (split; [reflexivity|]); (split; [exact I2|]); (split; [exact N2|]); (split; [exact R|exact Logic.I]).
Qed.

(* ---------- what is due ---------- *)
Definition key_due (s : kst) (t : ts) : Prop := exists k x, t_get k (k_exp s) = Some x /\ ts_leb x t = true.
Definition wdue (s : kst) (t : ts) : Prop := key_due s t \/ needs_commit s t = true.
Definition target_le (g : target) (t : ts) : Prop := match g with TNow => True | TAt x => ts_leb x t = true | TNever => False end.
Lemma target_le_mono g t t' : ts_leb t t' = true -> target_le g t -> target_le g t'.
Proof. destruct g; cbn; intros L; auto. intros H. exact (ts_leb_trans _ _ _ H L). Qed.

Lemma first_exp_ok s : kinv s -> exists o, first_expiration s = Some o /\
  match o with
  | None => k_order s = [] /\ forall k, t_get k (k_exp s) = None
  | Some x => (exists k, t_get k (k_exp s) = Some x) /\ forall k y, t_get k (k_exp s) = Some y -> ts_leb x y = true
  end.
Proof.
  intros (O & _). destruct O as (ND & M & SS). unfold first_expiration. destruct (k_order s) as [|k r] eqn:E.
  - exists None. split; [reflexivity|]. split; [reflexivity|]. intros k. destruct (t_get k (k_exp s)) eqn:G; [|reflexivity]. exfalso. apply (proj2 (M k)). congruence.
  - destruct (t_get k (k_exp s)) as [x|] eqn:G; [|exfalso; apply (proj1 (M k)); [left; reflexivity|exact G]]. exists (Some x). split; [reflexivity|].
    split; [exists k; exact G|]. intros j y Gj. assert (J : In j (k :: r)) by (apply M; congruence). destruct J as [->|J]; [rewrite G in Gj; injection Gj as <-; apply ts_leb_refl|].
    inversion SS as [|? ? _ F]; subst. rewrite Forall_forall in F. exact (F j J x y G Gj).
Qed.

Definition same_target (w w' : wst) (g : target) : Prop := w_target w' = g /\ w_phase w' = w_phase w /\ w_kv w' = w_kv w /\ w_ver w <= w_ver w' /\ (w_ver w' = w_ver w -> w_target w' = w_target w).
Lemma ts_eqb_eq a b : ts_eqb a b = true -> a = b.
Proof. unfold ts_eqb. destruct a, b. cbn. intros H. f_equal; lia. Qed.
Lemma target_eqb_eq a b : target_eqb a b = true -> a = b.
Proof. destruct a, b; cbn; try discriminate; try reflexivity. intros H. f_equal. apply ts_eqb_eq, H. Qed.
Lemma replace_same g w : same_target w (t_replace g w) g.
Proof. repeat split; cbn; lia. Qed.
Lemma update_same g w : same_target w (t_update g w) g.
Proof. unfold t_update. destruct (target_eqb (w_target w) g) eqn:E; [|apply replace_same]. apply target_eqb_eq in E. repeat split; [exact E|lia]. Qed.

(* the new target: no later than what is due, and not yet due when nothing is *)
Lemma retarget_ok s now w c : xinv c s -> good now -> c <= ts_dur now -> exists w' g, retarget s now w = Some w' /\ same_target w w' g /\
  match g with TAt x => tnorm x | _ => True end /\
  (forall t, good t -> ts_dur now <= ts_dur t -> wdue s t -> target_le g t) /\ (~ wdue s now -> ~ target_le g now).
Proof.
  intros X Gn Cn. destruct (first_exp_ok s (x_kinv _ _ X)) as (ke & FE & HK). unfold retarget. rewrite FE. cbv zeta.
  pose proof (x_last _ _ X) as HL. pose proof (x_pol _ _ X) as HP.
  assert (CT : forall t, good t -> ts_dur now <= ts_dur t -> needs_commit s t = true -> exists x, commit_target s now = Some x /\ ts_leb x t = true).
  { intros t Gt Lt H. unfold needs_commit in H. unfold commit_target. destruct (k_pers s); [discriminate|]. unfold ts_sub in *.
    destruct (ts_dur (k_last s) <=? ts_dur t) eqn:E1; [|lia]. destruct (ts_dur (k_last s) <=? ts_dur now) eqn:E2; [|lia].
    assert (B : ts_dur t < dur_max) by (clear - Gt; destruct Gt as [A B]; unfold ts_dur, dur_max, u64_max in *; lia).
    destruct (until_mono _ _ (ts_dur t - ts_dur (k_last s)) (ts_dur now - ts_dur (k_last s)) HP ltac:(lia) ltac:(lia) H) as (d & -> & Ld).
    exists (ts_add now d). split; [reflexivity|]. apply ts_add_le; [exact Gn|exact Gt|lia]. }
  assert (CN : forall x, commit_target s now = Some x -> tnorm x /\ (needs_commit s now = false -> ts_leb x now = false)).
  { unfold commit_target, needs_commit, should_commit. destruct (k_pers s); [discriminate|]. intros x.
    destruct (until_commit _ _ _) as [d|]; cbn; [|discriminate]. intros [= <-]. split; [apply ts_add_norm, Gn|]. intros Z. apply ts_add_gt; [exact Gn|lia]. }
  assert (KN : forall x, ke = Some x -> tnorm x).
  { intros x ->. destruct HK as ((k & G) & _). pose proof (proj1 (x_norms _ _ X) k) as Q. rewrite G in Q. exact Q. }
  assert (KD : forall t, key_due s t -> exists x, ke = Some x /\ ts_leb x t = true).
  { intros t (k & y & G & L). destruct ke as [x|]; [|destruct HK as (_ & HK); rewrite HK in G; discriminate]. exists x. split; [reflexivity|]. destruct HK as (_ & HK). exact (ts_leb_trans _ _ _ (HK _ _ G) L). }
  assert (KF : ~ wdue s now -> forall x, ke = Some x -> ts_leb x now = false).
  { intros H x ->. destruct (ts_leb x now) eqn:E; [|reflexivity]. exfalso. apply H. left. destruct HK as ((k & G) & _). exists k, x. auto. }
  assert (CF : ~ wdue s now -> forall x, commit_target s now = Some x -> ts_leb x now = false).
  { intros H x E. apply (CN x E). destruct (needs_commit s now) eqn:Z; [|reflexivity]. exfalso. apply H. right. exact Z. }
  destruct (_ || _) eqn:D.
  { exists (t_replace TNow w), TNow. split; [reflexivity|]. split; [apply replace_same|]. split; [exact Logic.I|]. split; [intros; exact Logic.I|].
    intros H _. apply orb_true_iff in D. destruct D as [D|D].
    - destruct (commit_target s now) as [x|]; [|discriminate]. rewrite (CF H x eq_refl) in D. discriminate.
    - destruct ke as [x|]; [|discriminate]. rewrite (KF H x eq_refl) in D. discriminate. }
  apply orb_false_iff in D. destruct D as [D1 D2].
  destruct (commit_target s now) as [ct|] eqn:EC; destruct ke as [kt|] eqn:EK.
  - exists (t_update (TAt (ts_min kt ct)) w), (TAt (ts_min kt ct)). split; [reflexivity|]. split; [apply update_same|]. split.
    { destruct (ts_min_or kt ct) as [-> | ->]; [apply KN; reflexivity|apply (CN ct eq_refl)]. }
    split; [|intros _; cbn; destruct (ts_min_or kt ct) as [-> | ->]; congruence]. intros t Gt Lt [H|H]; cbn.
    + destruct (KD t H) as (x & [= <-] & L). exact (ts_leb_trans _ _ _ (ts_min_l _ _) L).
    + destruct (CT t Gt Lt H) as (x & [= <-] & L). exact (ts_leb_trans _ _ _ (ts_min_r _ _) L).
  - exists (t_update (TAt ct) w), (TAt ct). split; [reflexivity|]. split; [apply update_same|]. split; [apply (CN ct eq_refl)|].
    split; [|intros _; cbn; congruence]. intros t Gt Lt [H|H]; cbn.
    + destruct (KD t H) as (x & ? & L). discriminate.
    + destruct (CT t Gt Lt H) as (x & [= <-] & L). exact L.
  - exists (t_update (TAt kt) w), (TAt kt). split; [reflexivity|]. split; [apply update_same|]. split; [apply KN; reflexivity|].
    split; [|intros _; cbn; congruence]. intros t Gt Lt [H|H]; cbn.
    + destruct (KD t H) as (x & [= <-] & L). exact L.
    + destruct (CT t Gt Lt H) as (x & ? & L). discriminate.
  - exists (t_update TNever w), TNever. split; [reflexivity|]. split; [apply update_same|]. split; [exact Logic.I|].
    split; [|intros _ []]. intros t Gt Lt [H|H]; cbn.
    + destruct (KD t H) as (x & ? & L). discriminate.
    + destruct (CT t Gt Lt H) as (x & ? & L). discriminate.
Qed.

(* ---------- the steps of the store ---------- *)
Definition ev_norm (e : event) : Prop := match e with EOp _ _ c _ => cmd_norm c | _ => True end.
(* the clock readings within an event lie between c and c' *)
Definition ev_times (c c' : N) (e : event) : Prop :=
  match e with EOp _ _ _ t | ETick t | EShutdown t => good t /\ c <= ts_dur t /\ ts_dur t <= c' | _ => c <= c' end.
Lemma xinv_later c c' s : c <= c' -> xinv c s -> xinv c' s.
Proof. intros L [A B C D]. constructor; auto. lia. Qed.
Lemma xinv_view c s s' : xinv c s -> kinv s' -> (forall k, kv_get s' k = kv_get s k) -> k_exp s' = k_exp s -> k_load s' = k_load s -> k_pol s' = k_pol s -> ts_dur (k_last s') <= c -> xinv c s'.
Proof. intros [A B C D] K G X L P T. constructor; [exact K|exact (norms_same _ _ G X L B)|rewrite P; exact C|exact T]. Qed.

Lemma expire_x c s now : xinv c s -> exists s1, kv_expire now s = Some s1 /\ xinv c s1 /\ (key_due s now \/ s1 = s) /\ ~ key_due s1 now /\
  (forall k, kv_get s1 k = if due (k_exp s) now k then None else kv_get s k) /\ k_pers s1 = k_pers s /\ k_disk s1 = k_disk s /\ k_thread s1 = k_thread s.
Proof.
  intros X. destruct (kv_expire_ok now s (x_kinv _ _ X)) as (s1 & E & K1 & G & XE & P & D & T & _ & _ & Po & La & Lo). exists s1. split; [exact E|]. split; [|split; [|split; [|split; [exact G|split; [exact P|split; [exact D|exact T]]]]]].
  - constructor; [exact K1| |rewrite Po; apply X|rewrite La; apply X]. destruct (x_norms _ _ X) as (A & B & C). split; [|split].
    + intros k. rewrite XE. destruct (due (k_exp s) now k); [exact I|apply A].
    + intros k e. rewrite G. destruct (due (k_exp s) now k); [discriminate|apply B].
    + rewrite Lo. exact C.
  - unfold kv_expire in E. destruct (k_order s) as [|k r] eqn:O.
    + cbn in E. injection E as <-. right. rewrite <- O. destruct s; reflexivity.
    + cbn [remove_expired] in E. destruct (t_get k (k_exp s)) as [x|] eqn:Gk; [|discriminate]. destruct (ts_leb x now) eqn:L.
      * left. exists k, x. auto.
      * injection E as <-. right. rewrite <- O. destruct s; reflexivity.
  - intros (k & x & Gk & L). rewrite XE in Gk. destruct (due (k_exp s) now k) eqn:Du; [discriminate|]. unfold due in Du. rewrite Gk in Du. congruence.
Qed.
Lemma commit_x c s now : xinv c s -> c <= ts_dur now -> xinv (ts_dur now) (snd (commit_dirty s now)) /\
  (fst (commit_dirty s now) = false -> snd (commit_dirty s now) = s) /\ k_exp (snd (commit_dirty s now)) = k_exp s /\ (forall k, kv_get (snd (commit_dirty s now)) k = kv_get s k) /\
  (fst (commit_dirty s now) = true -> k_pers (snd (commit_dirty s now)) <> None).
Proof.
  intros X L. unfold commit_dirty. destruct (stage s) as [[b s1]|] eqn:St; cbn [fst snd].
  - destruct (stage_ok s b s1 (x_kinv _ _ X) St) as (I1 & G & XE & Dd & P & Dk & B & Pn).
    split; [|split; [discriminate|split; [exact XE|split; [exact G|intros _; cbn; rewrite P; discriminate]]]].
    apply (xinv_view _ s); [exact (xinv_later _ _ _ L X)|exact I1|exact G|exact XE| | |cbn; lia].
    + unfold stage in St. destruct (k_dirty s); [discriminate|]. destruct (k_pers s); [discriminate|]. injection St as <- <-. reflexivity.
    + unfold stage in St. destruct (k_dirty s); [discriminate|]. destruct (k_pers s); [discriminate|]. injection St as <- <-. reflexivity.
  - split; [exact (xinv_later _ _ _ L X)|]. split; [reflexivity|]. split; [reflexivity|]. split; [reflexivity|discriminate].
Qed.
Lemma maybe_commit_x c s now (b : bool) : xinv c s -> c <= ts_dur now -> xinv (ts_dur now) (if b then snd (commit_dirty s now) else s).
Proof. intros X L. destruct b; [apply (commit_x c), L; exact X|exact (xinv_later _ _ _ L X)]. Qed.

Lemma needs_pers s t : k_pers s <> None -> needs_commit s t = false.
Proof. unfold needs_commit. destruct (k_pers s); [reflexivity|congruence]. Qed.
Lemma due_same s s' t : k_exp s' = k_exp s -> (needs_commit s' t = true -> needs_commit s t = true) -> wdue s' t -> wdue s t.
Proof. intros X N [(k & x & G & L)|H]; [left; exists k, x; rewrite <- X; auto|right; auto]. Qed.
Lemma needs_same s s' t : k_pers s' = k_pers s -> k_pol s' = k_pol s -> k_dirty s' = k_dirty s -> k_last s' = k_last s -> needs_commit s' t = needs_commit s t.
Proof. unfold needs_commit. intros -> -> -> ->. reflexivity. Qed.

(* the first expiration when update_key_expiration leaves it alone *)
Lemma head_remove i l k : find_index (bytes_eqb k) l = Some i -> i <> O -> exists j r r', l = j :: r /\ remove_at i l = j :: r' /\ j <> k.
Proof.
  destruct l as [|j r]; cbn; [discriminate|]. destruct (bytes_eqb k j) eqn:E; [intros [= <-]; congruence|]. destruct (find_index (bytes_eqb k) r) as [i'|] eqn:F; [|discriminate].
  intros [= <-] _. cbn. exists j, r, (remove_at i' r). split; [reflexivity|]. split; [reflexivity|]. apply bytes_eqb_neq in E. congruence.
Qed.
Lemma insert_head exps k t l o : order_insert exps k t l = Some o -> match insert_index exps t l with Some O => False | Some _ => True | None => l <> [] end ->
  exists j r r', l = j :: r /\ o = j :: r'.
Proof.
  destruct l as [|j r]; cbn; [intros _ H; congruence|]. destruct (t_get j exps) as [tj|]; [|discriminate]. destruct (ts_ltb t tj); [intros _ []|].
  destruct (order_insert exps k t r) as [r'|]; [|discriminate]. intros [= <-] _. exists j, r, r'. auto.
Qed.
Lemma unchanged_first s k x s' : kinv s -> update_exp s k x = Some s' -> changed_first s k x = false -> first_expiration s' = first_expiration s.
Proof.
  intros (O & _) U C. destruct O as (ND & M & SS). unfold update_exp in U. unfold changed_first in C. cbv zeta in C. destruct x as [t|].
  - destruct (t_get k (k_exp s)) as [x0|] eqn:G.
    + destruct (find_index (bytes_eqb k) (k_order s)) as [i|] eqn:F; [|discriminate].
      destruct (order_insert (k_exp s) k t (remove_at i (k_order s))) as [o2|] eqn:OI; [|discriminate]. injection U as <-.
      assert (Ni : i <> O) by (intros ->; destruct (insert_index _ _ _) as [[|]|]; discriminate).
      destruct (head_remove i _ k F Ni) as (j & r & r' & E1 & E2 & NE). rewrite E2 in *.
      destruct (insert_head _ _ _ _ _ OI) as (j2 & r2 & r3 & [= <- <-] & ->).
      { destruct i; [congruence|]. destruct (insert_index _ _ _) as [[|]|]; [discriminate|exact I|discriminate]. }
      unfold first_expiration. cbn. rewrite E1, get_set. apply bytes_eqb_neq in NE. rewrite NE. reflexivity.
    + destruct (order_insert (k_exp s) k t (k_order s)) as [o2|] eqn:OI; [|discriminate]. injection U as <-.
      destruct (insert_head _ _ _ _ _ OI) as (j & r & r' & E1 & ->).
      { destruct (insert_index _ _ _) as [[|]|]; [discriminate|exact I|]. destruct (k_order s); [discriminate|discriminate]. }
      assert (NE : j <> k) by (intros ->; apply (proj1 (M k)); [rewrite E1; left; reflexivity|exact G]).
      unfold first_expiration. cbn. rewrite E1, get_set. apply bytes_eqb_neq in NE. rewrite NE. reflexivity.
  - destruct (t_get k (k_exp s)) as [x0|] eqn:G; [|injection U as <-; reflexivity].
    destruct (find_index (bytes_eqb k) (k_order s)) as [i|] eqn:F; [|discriminate]. injection U as <-.
    assert (Ni : i <> O) by (intros ->; discriminate). destruct (head_remove i _ k F Ni) as (j & r & r' & E1 & E2 & NE).
    unfold first_expiration. cbn. rewrite E2, E1, get_remove. apply bytes_eqb_neq in NE. rewrite NE. reflexivity.
Qed.
Lemma first_due s t : kinv s -> (key_due s t <-> exists x, first_expiration s = Some (Some x) /\ ts_leb x t = true).
Proof.
  intros K. destruct (first_exp_ok s K) as (o & E & H). rewrite E. split.
  - intros (k & y & G & L). destruct o as [x|]; [|destruct H as (_ & H); rewrite H in G; discriminate]. exists x. split; [reflexivity|]. exact (ts_leb_trans _ _ _ (proj2 H _ _ G) L).
  - intros (x & [= ->] & L). destruct H as ((k & G) & _). exists k, x. auto.
Qed.

Lemma finish_x c s s' : xinv c s -> thread_finish s = Some s' ->
  let s1 := set_thread None (set_pers None s) in xinv c s1 /\ xinv c s' /\ (forall t, wdue s' t -> wdue s1 t).
Proof.
  intros X H. cbv zeta. pose proof H as H0. unfold thread_finish in H0. destruct (k_thread s) as [[b []]|] eqn:Th; try discriminate.
  destruct (unpersist_view s b (x_kinv _ _ X) Th) as (I1 & G1 & _). cbn zeta in *.
  assert (X1 : xinv c (set_thread None (set_pers None s))) by (apply (xinv_view _ s _ X I1 G1); try reflexivity; apply X).
  split; [exact X1|]. destruct (finish_view s s' (x_kinv _ _ X) H) as (I2 & G2 & E2). set (s1 := set_thread None (set_pers None s)) in *.
  destruct (k_shut s1) eqn:Sh.
  - destruct (stage s1) as [[b2 s2]|] eqn:St; injection H0 as <-.
    + assert (Q : s2 = set_dirty [] (set_pers (Some (k_dirty s1)) s1)) by (unfold stage in St; destruct (k_dirty s1); [discriminate|]; destruct (k_pers s1); [discriminate|]; injection St as <- <-; reflexivity). subst s2.
      split; [apply (xinv_view _ s _ X I2 G2 E2); try reflexivity; apply X|]. intros t. apply due_same; [reflexivity|]. rewrite needs_pers; [discriminate|]. cbn. discriminate.
    + split; [apply (xinv_view _ s _ X I2 G2 E2); try reflexivity; apply X|]. intros t. apply due_same; [reflexivity|auto].
  - injection H0 as <-. split; [exact X1|auto].
Qed.

Lemma snapshot_norm l c s : xinv c s -> xinv c (load_snapshot l s).
Proof.
  intros [K (A & B & C) P L]. constructor; [exact K| |exact P|exact L]. split; [exact A|]. split; [exact B|]. intros k x H. cbn in H. apply in_map_iff in H. destruct H as ([j e] & [= <- <-] & H).
  apply filter_In in H. destruct H as [H _]. apply (B j). rewrite <- (get_all_entries s j K). clear - H K.
  assert (W : t_wf (all_entries s)).
  { destruct K as (_ & Wd & Wk & Wp & _). unfold all_entries. apply wf_write_batch. destruct (k_pers s); [apply wf_write_batch|]; exact Wk. }
  apply In_get; assumption.
Qed.

(* ---------- the invariant ---------- *)
(* the system clock is off ahead of the monotonic clock *)
Definition clock_after (off : N) (ev : wevent) : N := match ev with WKv _ now => ts_dur now | WRead now _ => ts_dur now | WWake mono => off + mono end.
Definition wev_ok (off c : N) (ev : wevent) : Prop :=
  match ev with
  | WKv e now => good now /\ ev_times c (ts_dur now) e /\ ev_norm e
  | WRead now mono => good now /\ c <= ts_dur now /\ ts_dur now = off + mono
  | WWake mono => c <= off + mono
  end.
Definition phase_ok (off c : N) (w : wst) : Prop :=
  match w_phase w with
  | WNever v => v <= w_ver w /\ (w_ver w = v -> w_target w = TNever)
  | WSleep v from d => v <= w_ver w /\ (w_ver w = v -> exists x rem, w_target w = TAt x /\ ts_dur x = off + from + rem /\ d <= rem)
  | _ => True
  end.
Record winv (off c : N) (w : wst) : Prop := {
  i_x : xinv c (w_kv w);
  i_target : forall t, good t -> c <= ts_dur t -> wdue (w_kv w) t -> target_le (w_target w) t;
  i_norm : match w_target w with TAt x => tnorm x | _ => True end;
  i_phase : phase_ok off c w }.

Lemma phase_retarget off c c' w w' g : same_target w w' g -> phase_ok off c w -> phase_ok off c' w'.
Proof.
  intros (T & P & K & V & Q) H. unfold phase_ok in *. rewrite P. destruct (w_phase w) as [|v|v from d|]; try exact I.
  - destruct H as [H1 H2]. split; [lia|]. intros E. assert (E' : w_ver w = v) by lia. rewrite Q by lia. auto.
  - destruct H as [H1 H2]. split; [lia|]. intros E. assert (E' : w_ver w = v) by lia. rewrite Q by lia. auto.
Qed.
Lemma clock_le off c ev : wev_ok off c ev -> c <= clock_after off ev.
Proof. destruct ev as [e now|now mono|mono]; cbn; [intros (_ & H & _); destruct e; cbn in H; lia|lia|lia]. Qed.
Lemma ts_dur_leb a b : good a -> good b -> ts_dur a <= ts_dur b -> ts_leb a b = true.
Proof. intros A B L. rewrite leb_dur by (auto using good_norm). lia. Qed.

Lemma winv_later off c c' w : c <= c' -> winv off c w -> winv off c' w.
Proof.
  intros L [A B C D]. constructor; [exact (xinv_later _ _ _ L A)| |exact C|exact D]. intros t G Lt. apply B; [exact G|lia].
Qed.
(* a step that does not look for a new target *)
Lemma winv_keep off c c' w s : c <= c' -> winv off c w -> xinv c' s -> (forall t, good t -> c' <= ts_dur t -> wdue s t -> wdue (w_kv w) t \/ target_le (w_target w) t) -> winv off c' (w_set s w).
Proof.
  intros L [A B C D] X H. constructor; [exact X| |exact C|exact D]. intros t G Lt Du. destruct (H t G Lt Du) as [Du'|T]; [|exact T]. apply B; [exact G|lia|exact Du'].
Qed.
(* .. and one that does, from the state s1 *)
Lemma winv_retarget off c w p s s1 now : phase_ok off c (at_phase p w) -> c <= ts_dur now -> good now -> xinv (ts_dur now) s -> xinv (ts_dur now) s1 -> (forall t, wdue s t -> wdue s1 t) ->
  exists w', retarget s1 now (at_phase p (w_set s w)) = Some w' /\ winv off (ts_dur now) w' /\ w_kv w' = s /\ w_phase w' = p /\ (~ wdue s1 now -> ~ target_le (w_target w') now).
Proof.
  intros Ph L G X X1 Sd. destruct (retarget_ok s1 now (at_phase p (w_set s w)) _ X1 G (N.le_refl _)) as (w' & g & E & ST & N1 & T & NT). exists w'. split; [exact E|].
  pose proof ST as (T1 & P1 & K1 & V1 & Q1). cbn in K1, P1. split; [|split; [exact K1|split; [exact P1|rewrite T1; exact NT]]].
  constructor.
  - rewrite K1. exact X.
  - intros t Gt Lt. rewrite K1, T1. intros Du. apply T; auto.
  - rewrite T1. destruct g; auto.
  - exact (phase_retarget off c _ (at_phase p (w_set s w)) w' g ST Ph).
Qed.

Lemma winv_step off c w ev : winv off c w -> wev_ok off c ev ->
  match wstep w ev with WPanic => False | WDisabled => True | WOk _ w' => winv off (clock_after off ev) w' end.
Proof.
  intros Iv Ok. pose proof (clock_le _ _ _ Ok) as Lc. destruct Iv as [X T Nm Ph]. destruct ev as [e now|now mono|mono]; cbn [clock_after] in *.
  - destruct Ok as (Gn & Tm & En). assert (Pe : at_phase (w_phase w) w = w) by (destruct w; reflexivity).
    assert (RT : forall s s1, xinv (ts_dur now) s -> xinv (ts_dur now) s1 -> (forall t, wdue s t -> wdue s1 t) -> exists w', retarget s1 now (w_set s w) = Some w' /\ winv off (ts_dur now) w').
    { intros s s1 Xs X1 Sd. destruct (winv_retarget off c w (w_phase w) s s1 now ltac:(rewrite Pe; exact Ph) Lc Gn Xs X1 Sd) as (w' & E & W & _).
      exists w'. split; [|exact W]. rewrite <- E. reflexivity. }
    assert (KP : forall s, xinv (ts_dur now) s -> (forall t, good t -> ts_dur now <= ts_dur t -> wdue s t -> wdue (w_kv w) t \/ target_le (w_target w) t) -> winv off (ts_dur now) (w_set s w)).
    { intros s Xs H. apply (winv_keep off c); [exact Lc|constructor; assumption|exact Xs|exact H]. }
    destruct e as [ns key cm t|t| | | |t|l|]; cbn [ev_times] in Tm; cbn [wstep step lift liftp].
    + (* an operation *)
      destruct Tm as (Gt & L1 & L2). unfold perform. destruct (expire_x c (w_kv w) t X) as (s1 & E & X1 & Du & ND & _). rewrite E.
      destruct (exec_x s1 (full_key ns key) cm t (x_kinv _ _ X1) (x_norms _ _ X1) En) as (r & s2 & Ex & K2 & N2 & SR & Er). rewrite Ex.
      assert (X2 : xinv c s2) by (destruct SR as (_ & _ & _ & _ & _ & Po & La & _); constructor; [exact K2|exact N2|rewrite Po; apply X1|rewrite La; apply X1]).
      destruct r as [o|er].
      * assert (X3 : xinv (ts_dur now) (if needs_commit s2 t then snd (commit_dirty s2 t) else s2)) by (apply (xinv_later (ts_dur t)); [exact L2|]; apply (maybe_commit_x c); [exact X2|exact L1]).
        destruct (RT _ _ X3 X3 ltac:(auto)) as (w' & -> & W). exact W.
      * subst s2. apply KP; [apply (xinv_later c); [lia|exact X2]|]. intros t' Gt' Lt' D. destruct Du as [KD| ->]; [|left; exact D].
        right. apply (target_le_mono _ t); [apply ts_dur_leb; [exact Gt|exact Gt'|lia]|]. apply T; [exact Gt|exact L1|left; exact KD].
    + (* the worker *)
      destruct Tm as (Gt & L1 & L2). destruct (w_phase w) eqn:P; try exact I. unfold bg_round. destruct (expire_x c (w_kv w) t X) as (s1 & E & X1 & _). rewrite E. cbn [liftp].
      assert (X3 : xinv (ts_dur now) (if needs_commit s1 t then snd (commit_dirty s1 t) else s1)) by (apply (xinv_later (ts_dur t)); [exact L2|]; apply (maybe_commit_x c); [exact X1|exact L1]).
      destruct (winv_retarget off c w WTop _ _ now I Lc Gn X3 X3 ltac:(auto)) as (w' & -> & W & _). exact W.
    + unfold thread_write. destruct (k_thread (w_kv w)) as [[b []]|] eqn:Th; cbn [lift]; try exact I.
      assert (Wr : thread_write (w_kv w) = Some (set_thread (Some (b, true)) (set_disk (write_batch b (k_disk (w_kv w))) (w_kv w)))) by (unfold thread_write; rewrite Th; reflexivity).
      destruct (write_view _ _ (x_kinv _ _ X) Wr) as (K1 & G1 & E1). apply KP; [apply (xinv_view _ (w_kv w)); try reflexivity; [exact (xinv_later _ _ _ Lc X)|exact K1|exact G1|apply (xinv_later _ _ _ Lc X)]|].
      intros t _ _ D. left. exact (due_same (w_kv w) _ t (eq_refl) (fun H => H) D).
    + unfold thread_fail. destruct (k_thread (w_kv w)) as [[b []]|] eqn:Th; cbn [lift]; try exact I.
      assert (Wr : thread_fail (w_kv w) = Some (set_thread None (w_kv w))) by (unfold thread_fail; rewrite Th; reflexivity).
      destruct (fail_view _ _ (x_kinv _ _ X) Wr) as (K1 & G1 & E1). apply KP; [apply (xinv_view _ (w_kv w)); try reflexivity; [exact (xinv_later _ _ _ Lc X)|exact K1|apply (xinv_later _ _ _ Lc X)]|].
      intros t _ _ D. left. exact (due_same (w_kv w) _ t (eq_refl) (fun H => H) D).
    + destruct (thread_finish (w_kv w)) as [s'|] eqn:F; cbn [lift]; [|exact I].
      destruct (finish_x c _ _ X F) as (X1 & X2 & Sd). cbv zeta in *.
      destruct (RT _ _ (xinv_later _ _ _ Lc X2) (xinv_later _ _ _ Lc X1) Sd) as (w' & -> & W). exact W.
    + destruct Tm as (Gt & L1 & L2). unfold kv_shutdown. destruct (k_pers (w_kv w)) eqn:Pe'; cbn [snd].
      * apply KP; [exact (xinv_later _ _ _ Lc X)|auto].
      * destruct (commit_x c (w_kv w) t X L1) as (Xc & Cf & Ce & Cg & Cp). destruct (commit_dirty (w_kv w) t) as [[] s1]; cbn [fst snd] in *.
        -- apply KP; [apply (xinv_later (ts_dur t)); [exact L2|]; apply (xinv_view _ s1); try reflexivity; [exact Xc|apply Xc|apply Xc]|].
           intros t' _ _ D. left. apply (due_same (w_kv w) (set_shut true false s1)); [exact Ce| |exact D]. rewrite needs_pers; [discriminate|]. exact (Cp eq_refl).
        -- rewrite (Cf eq_refl). apply KP; [exact (xinv_later _ _ _ Lc X)|auto].
    + apply KP; [apply snapshot_norm; exact (xinv_later _ _ _ Lc X)|]. intros t _ _ D. left. exact (due_same (w_kv w) _ t (eq_refl) (fun H => H) D).
    + unfold load_one. destruct (k_load (w_kv w)) as [|[k x] r] eqn:Ld; cbn [liftp].
      { apply KP; [exact (xinv_later _ _ _ Lc X)|auto]. }
      pose proof (x_kinv _ _ X) as (O & Wd & Wk & Wp & Th). destruct (update_exp_ok (set_load r (w_kv w)) k x O) as (y & o & U & O' & XE). rewrite U. cbn [liftp].
      assert (X2 : xinv c (set_expo y o (set_load r (w_kv w)))).
      { destruct (x_norms _ _ X) as (A & B & C). constructor; [|split; [|split]|apply X|apply X].
        - split; [exact O'|]. split; [exact Wd|]. split; [exact Wk|]. split; [exact Wp|exact Th].
        - intros j. cbn. rewrite XE. destruct (bytes_eqb j k); [|apply A]. apply (C k). rewrite Ld. left. reflexivity.
        - exact B.
        - intros j z H. apply (C j). rewrite Ld. right. exact H. }
      assert (X3 := xinv_later _ _ _ Lc X2).
      change (changed_first (w_kv w) k x) with (changed_first (set_load r (w_kv w)) k x). destruct (changed_first (set_load r (w_kv w)) k x) eqn:CF.
      * destruct (RT _ _ X3 X3 ltac:(auto)) as (w' & -> & W). exact W.
      * apply KP; [exact X3|]. intros t _ _ [D|D]; [|left; right; exact D]. left. left.
        apply first_due; [apply X|]. apply (first_due (set_expo y o (set_load r (w_kv w)))) in D; [|apply X2].
        assert (KL : kinv (set_load r (w_kv w))) by apply X.
        rewrite (unchanged_first (set_load r (w_kv w)) k x _ KL U CF) in D. exact D.
  - destruct Ok as (Gn & _ & Off). cbn [wstep]. destruct (w_phase w) eqn:P; try exact I.
    assert (W0 : winv off (ts_dur now) w) by (apply (winv_later off c); [exact Lc|constructor; assumption]). destruct W0 as [A B C D].
    constructor; [exact A|exact B|exact C|]. unfold phase_ok. cbn. destruct (w_target w) as [|x|] eqn:Tg; try exact I; [|split; [lia|auto]].
    unfold ts_sub. destruct (ts_dur now <=? ts_dur x) eqn:E; [|exact I]. split; [lia|]. intros _. exists x, (ts_dur x - ts_dur now). split; [reflexivity|]. lia.
  - cbn [wstep]. assert (W0 : winv off (off + mono) w) by (apply (winv_later off c); [exact Lc|constructor; assumption]). destruct W0 as [A B C D].
    destruct (w_phase w) as [|v|v from d|] eqn:P; try exact I.
    + destruct (w_ver w =? v) eqn:E; [exact I|]. constructor; [exact A|exact B|exact C|exact I].
    + destruct ((w_ver w =? v) && (mono <? from + d)) eqn:E; [exact I|]. constructor; [exact A|exact B|exact C|exact I].
Qed.
