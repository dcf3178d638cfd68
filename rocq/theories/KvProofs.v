(* Facts about the key-value model of Kv.v. *)
From Coq Require Import Sorted ZifyBool.
From Verif Require Import Kv.

Lemma eqb_sub a b : bytes_eqb a b = true -> a = b. Proof. apply bytes_eqb_spec. Qed.
Ltac eqb_cases k j := let H := fresh "E" in
  destruct (bytes_eqb k j) eqn:H; [apply bytes_eqb_spec in H; subst|apply bytes_eqb_neq in H].

(* ---------- timestamps ---------- *)
Lemma ts_leb_refl a : ts_leb a a = true. Proof. unfold ts_leb. lia. Qed.
Lemma ts_leb_trans a b c : ts_leb a b = true -> ts_leb b c = true -> ts_leb a c = true.
Proof. unfold ts_leb. lia. Qed.
Lemma ts_leb_total a b : ts_leb a b = true \/ ts_leb b a = true.
Proof. unfold ts_leb. lia. Qed.
Lemma ts_ltb_leb a b : ts_ltb a b = true -> ts_leb a b = true.
Proof. unfold ts_ltb, ts_leb. lia. Qed.
Lemma ts_ltb_false a b : ts_ltb a b = false -> ts_leb b a = true.
Proof. unfold ts_ltb, ts_leb. lia. Qed.

(* ---------- batches ---------- *)
Lemma get_cas d k e j : t_get j (cas_one d k e) = if bytes_eqb j k then e else t_get j d.
Proof.
  unfold cas_one. destruct e as [e|]; [apply get_set|].
  destruct (t_get k d) eqn:G; [apply get_remove|]. eqb_cases j k; [exact G|reflexivity].
Qed.
Lemma wf_cas d k e : t_wf d -> t_wf (cas_one d k e).
Proof. intros W. unfold cas_one. destruct e; [apply wf_set, W|]. destruct (t_get k d); [apply wf_remove, W|exact W]. Qed.
Lemma get_write_batch b d k : t_wf b ->
  t_get k (write_batch b d) = match t_get k b with Some e => e | None => t_get k d end.
Proof.
  revert d; induction b as [|[j e] r IH]; intros d W; [reflexivity|]. cbn [write_batch t_get].
  assert (Wr : t_wf r) by exact (sorted_above_sorted _ _ W).
  rewrite (IH _ Wr), get_cas. eqb_cases k j; [|reflexivity].
  assert (G : t_get j r = None).
  { apply get_none. intros I. apply (lex_lt_irrefl j). exact (sorted_above_In _ _ _ W I). }
  rewrite G. reflexivity.
Qed.
Lemma wf_write_batch b d : t_wf d -> t_wf (write_batch b d).
Proof. revert d; induction b as [|[j e] r IH]; intros d W; [exact W|]. cbn. apply IH, wf_cas, W. Qed.
Lemma get_nil {V} k : t_get k ([] : tree V) = None. Proof. reflexivity. Qed.

(* ---------- the expiration order ---------- *)
Definition exp_rel (x : tree ts) (a b : bytes) : Prop :=
  forall ta tb, t_get a x = Some ta -> t_get b x = Some tb -> ts_leb ta tb = true.
Definition ord_inv (x : tree ts) (o : list bytes) : Prop :=
  NoDup o /\ (forall k, In k o <-> t_get k x <> None) /\ StronglySorted (exp_rel x) o.

Lemma find_remove k o : NoDup o -> In k o ->
  exists i, find_index (bytes_eqb k) o = Some i /\ remove_at i o = filter (fun j => negb (bytes_eqb k j)) o.
Proof.
  induction o as [|x r IH]; intros N I; [destruct I|]. inversion N as [|? ? Nx Nr]; subst. cbn [find_index filter].
  eqb_cases k x.
  - exists O. split; [reflexivity|]. cbn. clear IH N Nr I. induction r as [|y r IH]; [reflexivity|]. cbn.
    eqb_cases x y; [exfalso; apply Nx; left; reflexivity|]. cbn. f_equal. apply IH. intros I; apply Nx; right; exact I.
  - destruct I as [->|I]; [congruence|]. destruct (IH Nr I) as (i & F & R). exists (S i). rewrite F. cbn. rewrite R. split; reflexivity.
Qed.
Lemma StronglySorted_filter {A} (R : A -> A -> Prop) f l : StronglySorted R l -> StronglySorted R (filter f l).
Proof.
  induction 1 as [|a l S IH F]; [constructor|]. cbn. destruct (f a); [|exact IH]. constructor; [exact IH|].
  apply Forall_forall. intros b B. apply filter_In in B. rewrite Forall_forall in F. apply F, B.
Qed.
Lemma StronglySorted_mono {A} (R R' : A -> A -> Prop) l :
  (forall a b, In a l -> In b l -> R a b -> R' a b) -> StronglySorted R l -> StronglySorted R' l.
Proof.
  intros H S. induction S as [|a l S IH F]; [constructor|]. constructor.
  - apply IH. intros; apply H; try (right; assumption); assumption.
  - apply Forall_forall. intros b B. rewrite Forall_forall in F. apply H; [left; reflexivity|right; exact B|apply F, B].
Qed.
Lemma ord_inv_drop x o k : ord_inv x o -> ord_inv (t_remove k x) (filter (fun j => negb (bytes_eqb k j)) o).
Proof.
  intros (N & M & S). repeat split.
  - apply NoDup_filter, N.
  - intros I. apply filter_In in I. destruct I as [I B]. rewrite get_remove.
    eqb_cases k0 k; [rewrite bytes_eqb_refl in B; discriminate|]. apply M, I.
  - rewrite get_remove. eqb_cases k0 k; [congruence|]. intros G. apply filter_In. split; [apply M, G|].
    apply bytes_eqb_neq in E. rewrite bytes_eqb_sym, E. reflexivity.
  - eapply StronglySorted_mono; [|apply StronglySorted_filter, S].
    intros a b _ _ R ta tb. rewrite !get_remove. destruct (bytes_eqb a k); [discriminate|].
    destruct (bytes_eqb b k); [discriminate|]. apply R.
Qed.
Lemma filter_not_in k o : ~ In k o -> filter (fun j => negb (bytes_eqb k j)) o = o.
Proof.
  induction o as [|x r IH]; intros N; [reflexivity|]. cbn. eqb_cases k x; [exfalso; apply N; left; reflexivity|].
  cbn. f_equal. apply IH. intros I; apply N; right; exact I.
Qed.
Lemma order_insert_ok x k t o : (forall j, In j o -> t_get j x <> None) -> StronglySorted (exp_rel x) o ->
  exists a b, o = a ++ b /\ order_insert x k t o = Some (a ++ k :: b) /\
    (forall j tj, In j a -> t_get j x = Some tj -> ts_leb tj t = true) /\
    (forall j tj, In j b -> t_get j x = Some tj -> ts_leb t tj = true).
Proof.
  induction o as [|j r IH]; intros M S.
  - exists [], []. repeat split; intros ? ? [].
  - cbn. destruct (t_get j x) as [tj|] eqn:G; [|exfalso; apply (M j); [left; reflexivity|exact G]].
    inversion S as [|? ? Sr F]; subst. destruct (ts_ltb t tj) eqn:L.
    + exists [], (j :: r). repeat split; [intros ? ? []|]. intros i ti [->|I] Gi.
      * rewrite G in Gi; injection Gi as <-. apply ts_ltb_leb, L.
      * apply (ts_leb_trans _ tj); [apply ts_ltb_leb, L|]. rewrite Forall_forall in F. apply (F i I); assumption.
    + destruct IH as (a & b & -> & O & A & B); [intros i I; apply M; right; exact I|exact Sr|].
      exists (j :: a), b. rewrite O. repeat split; [|exact B].
      intros i ti [->|I] Gi; [rewrite G in Gi; injection Gi as <-; apply ts_ltb_false, L|apply (A i); assumption].
Qed.
Lemma StronglySorted_insert {A} (R : A -> A -> Prop) a b k :
  StronglySorted R (a ++ b) -> (forall j, In j a -> R j k) -> (forall j, In j b -> R k j) -> StronglySorted R (a ++ k :: b).
Proof.
  induction a as [|x a IH]; cbn; intros S HA HB.
  - constructor; [exact S|]. apply Forall_forall. exact HB.
  - inversion S as [|? ? Sr F]; subst. constructor.
    + apply IH; [exact Sr|intros; apply HA; right; assumption|exact HB].
    + rewrite Forall_forall in *. intros y I. apply in_app_iff in I. destruct I as [I|[<-|I]].
      * apply F, in_app_iff; left; exact I.
      * apply HA; left; reflexivity.
      * apply F, in_app_iff; right; exact I.
Qed.
Lemma ord_inv_add x o k t : ord_inv x o -> ~ In k o ->
  exists o', order_insert x k t o = Some o' /\ ord_inv (t_set k t x) o'.
Proof.
  intros (N & M & S) NI.
  assert (Gk : t_get k x = None) by (destruct (t_get k x) eqn:G; [exfalso; apply NI, M; congruence|reflexivity]).
  destruct (order_insert_ok x k t o) as (a & b & -> & O & A & B); [intros j I; apply M, I|exact S|].
  exists (a ++ k :: b). split; [exact O|]. split; [|split].
  - apply NoDup_Add with (a := k) (l := a ++ b); [apply Add_app|]. split; assumption.
  - intros j. rewrite get_set. eqb_cases j k.
    + split; [congruence|]. intros _. apply in_app_iff. right; left; reflexivity.
    + rewrite <- M, !in_app_iff. cbn. split; intros H; [destruct H as [H|[H|H]]|destruct H as [H|H]]; auto; congruence.
  - assert (KE : forall j, In j (a ++ b) -> bytes_eqb j k = false).
    { intros j I. apply bytes_eqb_neq. intros ->. apply NI, I. }
    apply StronglySorted_insert.
    + eapply StronglySorted_mono; [|exact S]. intros i j Ii Ij R ti tj. rewrite !get_set, (KE i Ii), (KE j Ij). apply R.
    + intros j I ta tb. rewrite !get_set, bytes_eqb_refl, (KE j). 2: { apply in_app_iff; left; exact I. }
      intros G1 G2. injection G2 as <-. apply (A j); assumption.
    + intros j I ta tb. rewrite !get_set, bytes_eqb_refl, (KE j). 2: { apply in_app_iff; right; exact I. }
      intros G1 G2. injection G1 as <-. apply (B j); assumption.
Qed.
Lemma ord_inv_ext x y o : (forall k, t_get k x = t_get k y) -> ord_inv x o -> ord_inv y o.
Proof.
  intros H (N & M & S). split; [exact N|split].
  - intros k. rewrite <- H. apply M.
  - eapply StronglySorted_mono; [|exact S]. intros a b _ _ R ta tb. rewrite <- !H. apply R.
Qed.

(* update_key_expiration never panics and records exactly the new expiration *)
Lemma update_exp_ok s k e : ord_inv (k_exp s) (k_order s) ->
  exists x o, update_exp s k e = Some (set_expo x o s) /\ ord_inv x o /\
    (forall j, t_get j x = if bytes_eqb j k then e else t_get j (k_exp s)).
Proof.
  intros I. pose proof I as (N & M & S). unfold update_exp. destruct e as [t|].
  - destruct (t_get k (k_exp s)) as [t0|] eqn:G.
    + destruct (find_remove k (k_order s) N) as (i & -> & R); [apply M; congruence|]. rewrite R.
      pose proof (ord_inv_drop _ _ k I) as D.
      destruct (ord_inv_add _ _ k t D) as (o' & O & I').
      { intros B. apply filter_In in B. rewrite bytes_eqb_refl in B. destruct B; discriminate. }
      assert (OE : order_insert (k_exp s) k t (filter (fun j => negb (bytes_eqb k j)) (k_order s)) = Some o').
      { rewrite <- O. clear. induction (k_order s) as [|j r IH]; [reflexivity|]. cbn.
        destruct (bytes_eqb k j) eqn:E; cbn; [exact IH|].
        rewrite get_remove, bytes_eqb_sym, E. destruct (t_get j (k_exp s)); [|reflexivity].
        destruct (ts_ltb t t0); [reflexivity|]. rewrite IH. reflexivity. }
      rewrite OE. exists (t_set k t (k_exp s)), o'. split; [reflexivity|]. split.
      * eapply ord_inv_ext; [|exact I']. intros j. rewrite !get_set, get_remove. destruct (bytes_eqb j k); reflexivity.
      * intros j. apply get_set.
    + destruct (ord_inv_add _ _ k t I) as (o' & O & I').
      { intros B. apply M in B. congruence. }
      rewrite O. exists (t_set k t (k_exp s)), o'. split; [reflexivity|]. split; [exact I'|]. intros j. apply get_set.
  - destruct (t_get k (k_exp s)) as [t0|] eqn:G.
    + destruct (find_remove k (k_order s) N) as (i & -> & R); [apply M; congruence|]. rewrite R.
      eexists _, _. split; [reflexivity|]. split; [apply ord_inv_drop, I|]. intros j. apply get_remove.
    + exists (k_exp s), (k_order s). split; [destruct s; reflexivity|]. split; [exact I|].
      intros j. eqb_cases j k; [exact G|reflexivity].
Qed.

(* remove_expired_keys removes exactly the keys that expire by [now] *)
Definition due (x : tree ts) (now : ts) (k : bytes) : bool :=
  match t_get k x with Some t => ts_leb t now | None => false end.
Lemma remove_expired_ok now o x d : ord_inv x o -> t_wf d ->
  exists o' x' d', remove_expired now o x d = Some (o', x', d') /\ ord_inv x' o' /\ t_wf d' /\
    (forall k, t_get k x' = if due x now k then None else t_get k x) /\
    (forall k, t_get k d' = if due x now k then Some None else t_get k d).
Proof.
  revert x d; induction o as [|k r IH]; intros x d I W; pose proof I as (N & M & S); cbn.
  - exists [], x, d. split; [reflexivity|]. split; [exact I|]. split; [exact W|].
    assert (E : forall k, t_get k x = None).
    { intros k. destruct (t_get k x) eqn:G; [|reflexivity]. assert (In k []) as [] by (apply M; congruence). }
    unfold due. split; intros k; rewrite (E k); reflexivity.
  - destruct (t_get k x) as [t|] eqn:G; [|exfalso; apply (M k); [left; reflexivity|exact G]].
    inversion N as [|? ? Nk Nr]; subst. inversion S as [|? ? Sr F]; subst.
    destruct (ts_leb t now) eqn:L.
    + assert (I' : ord_inv (t_remove k x) r).
      { pose proof (ord_inv_drop x (k :: r) k I) as D. cbn in D. rewrite bytes_eqb_refl in D. cbn in D.
        rewrite filter_not_in in D by exact Nk. exact D. }
      destruct (IH (t_remove k x) (t_set k None d) I' (wf_set _ _ _ W)) as (o' & x' & d' & R & I2 & W2 & X & D).
      exists o', x', d'. split; [exact R|]. split; [exact I2|]. split; [exact W2|]. split; intros j; [rewrite X|rewrite D]; unfold due;
        rewrite get_remove; [|rewrite get_set]; eqb_cases j k; try rewrite G, L; reflexivity.
    + exists (k :: r), x, d. split; [reflexivity|]. split; [exact I|]. split; [exact W|].
      assert (ND : forall j, due x now j = false).
      { intros j. unfold due. destruct (t_get j x) as [tj|] eqn:Gj; [|reflexivity].
        assert (J : In j (k :: r)) by (apply M; congruence). destruct J as [->|J].
        - rewrite G in Gj; injection Gj as <-. exact L.
        - rewrite Forall_forall in F. pose proof (F j J t tj G Gj) as LE.
          destruct (ts_leb tj now) eqn:B; [|reflexivity]. rewrite (ts_leb_trans _ _ _ LE B) in L. discriminate. }
      split; intros j; rewrite ND; reflexivity.
Qed.

(* ---------- the state invariant ---------- *)
(* the batch being written agrees with the writer thread *)
Definition thread_ok (s : kst) : Prop :=
  match k_thread s with
  | Some (b, w) => k_pers s = Some b /\ (w = true -> forall k e, t_get k b = Some e -> t_get k (k_disk s) = e)
  | None => True
  end.
Definition kinv (s : kst) : Prop :=
  ord_inv (k_exp s) (k_order s) /\ t_wf (k_dirty s) /\ t_wf (k_disk s) /\
  (forall p, k_pers s = Some p -> t_wf p) /\ thread_ok s.
(* the known expirations are those of the entries *)
Definition synced (s : kst) : Prop :=
  forall k, t_get k (k_exp s) = match kv_get s k with Some e => e_exp e | None => None end.

Lemma ord_inv_nil : ord_inv [] [].
Proof. split; [constructor|split; [|constructor]]. intros k. split; [intros []|]. cbn. congruence. Qed.
Lemma kinv_open p now d : t_wf d -> kinv (kv_open p now d).
Proof. intros W. split; [exact ord_inv_nil|]. split; [exact wf_nil|]. split; [exact W|]. split; [intros q H; discriminate H|]. exact I. Qed.

Lemma get_all_entries s k : kinv s -> t_get k (all_entries s) = kv_get s k.
Proof.
  intros (_ & Wd & _ & Wp & _). unfold all_entries, kv_get. rewrite get_write_batch by exact Wd.
  destruct (t_get k (k_dirty s)); [reflexivity|]. destruct (k_pers s) as [p|]; [|reflexivity].
  rewrite get_write_batch by (apply Wp; reflexivity). reflexivity.
Qed.

(* expiring *)
Lemma kv_expire_ok now s : kinv s -> exists s1, kv_expire now s = Some s1 /\ kinv s1 /\
  (forall k, kv_get s1 k = if due (k_exp s) now k then None else kv_get s k) /\
  (forall k, t_get k (k_exp s1) = if due (k_exp s) now k then None else t_get k (k_exp s)) /\
  k_pers s1 = k_pers s /\ k_disk s1 = k_disk s /\ k_thread s1 = k_thread s /\ k_shut s1 = k_shut s /\ k_down s1 = k_down s
  /\ k_pol s1 = k_pol s /\ k_last s1 = k_last s /\ k_load s1 = k_load s.
Proof.
  intros (O & Wd & Wk & Wp & T). unfold kv_expire.
  destruct (remove_expired_ok now _ _ _ O Wd) as (o' & x' & d' & -> & O' & W' & X & D).
  eexists; split; [reflexivity|]. split; [|split; [|split; [exact X|repeat split]]].
  - split; [exact O'|]. split; [exact W'|]. split; [exact Wk|]. split; [exact Wp|exact T].
  - intros k. unfold kv_get. cbn. rewrite D. destruct (due (k_exp s) now k); reflexivity.
Qed.

(* writing one key of the overlay *)
Lemma kv_get_dirty s k e j : kv_get (set_dirty (t_set k e (k_dirty s)) s) j = if bytes_eqb j k then e else kv_get s j.
Proof. unfold kv_get. cbn. rewrite get_set. eqb_cases j k; reflexivity. Qed.
Lemma kinv_dirty s k e : kinv s -> kinv (set_dirty (t_set k e (k_dirty s)) s).
Proof. intros (O & Wd & Wk & Wp & T). split; [exact O|]. split; [apply wf_set, Wd|]. split; [exact Wk|]. split; [exact Wp|exact T]. Qed.
Lemma kv_get_expo x o s k : kv_get (set_expo x o s) k = kv_get s k. Proof. reflexivity. Qed.
Lemma kv_replace_spec s k e : kv_replace s k e = (kv_get s k, kv_set s k e).
Proof. unfold kv_replace, kv_get, kv_set. destruct (t_get k (k_dirty s)); reflexivity. Qed.

(* everything an operation leaves alone *)
Definition same_rest (a b : kst) : Prop :=
  k_pers b = k_pers a /\ k_disk b = k_disk a /\ k_thread b = k_thread a /\ k_shut b = k_shut a /\ k_down b = k_down a /\
  k_pol b = k_pol a /\ k_last b = k_last a /\ k_load b = k_load a.
Lemma same_rest_refl a : same_rest a a. Proof. repeat split. Qed.

(* a write of one key together with its expiration *)
Lemma write_ok s k x e : kinv s -> exists s1, update_exp s k x = Some s1 /\
  let s2 := set_dirty (t_set k e (k_dirty s1)) s1 in
  kinv s2 /\ same_rest s s2 /\ (forall j, kv_get s1 j = kv_get s j) /\ k_dirty s1 = k_dirty s /\
  same_rest s s1 /\
  (forall j, kv_get s2 j = if bytes_eqb j k then e else kv_get s j) /\
  (forall j, t_get j (k_exp s2) = if bytes_eqb j k then x else t_get j (k_exp s)).
Proof.
  intros (O & Wd & Wk & Wp & T). destruct (update_exp_ok s k x O) as (y & o & U & O' & X).
  exists (set_expo y o s). split; [exact U|]. cbn zeta. split; [|split; [repeat split|split; [|split; [reflexivity|split; [repeat split|split; [|exact X]]]]]].
  - split; [exact O'|]. split; [apply wf_set, Wd|]. split; [exact Wk|]. split; [exact Wp|exact T].
  - intros j. reflexivity.
  - intros j. rewrite kv_get_dirty. reflexivity.
Qed.

(* what a command does to its key *)
Definition sync_at (s : kst) (k : bytes) : Prop :=
  t_get k (k_exp s) = match kv_get s k with Some e => e_exp e | None => None end.
Definition exec_post (s : kst) (k : bytes) (s2 : kst) (e : option entry) : Prop :=
  kinv s2 /\ same_rest s s2 /\ (forall j, kv_get s2 j = if bytes_eqb j k then e else kv_get s j) /\
  (sync_at s k -> sync_at s2 k) /\
  (forall j, j <> k -> t_get j (k_exp s2) = t_get j (k_exp s)).
Lemma post_synced s k s2 e : exec_post s k s2 e -> synced s -> synced s2.
Proof.
  intros (_ & _ & G & Sy & X) S j. destruct (bytes_dec j k) as [->|NE]; [apply Sy; exact (S k)|].
  rewrite (X j NE), G. apply bytes_eqb_neq in NE. rewrite NE. apply S.
Qed.
Lemma post_self s k : kinv s -> exec_post s k s (kv_get s k).
Proof. intros I. split; [exact I|]. split; [apply same_rest_refl|]. split; [|split; [auto|auto]].
  intros j. eqb_cases j k; reflexivity. Qed.

Lemma write_post s k x e : kinv s -> x = match e with Some e => e_exp e | None => None end ->
  exists s1, update_exp s k x = Some s1 /\ exec_post s k (set_dirty (t_set k e (k_dirty s1)) s1) e /\
    (forall j, kv_get s1 j = kv_get s j) /\ same_rest s s1.
Proof.
  intros I HX. destruct (write_ok s k x e I) as (s1 & U & I2 & R & G1 & _ & R1 & G & X).
  exists s1. split; [exact U|]. split; [|split; assumption]. split; [exact I2|]. split; [exact R|]. split; [exact G|].
  split; [intros _; unfold sync_at; rewrite G, X, bytes_eqb_refl; exact HX|].
  intros j H. rewrite X. apply bytes_eqb_neq in H. rewrite H. reflexivity.
Qed.
Lemma kv_remove_ok s k : kinv s -> exists s2, kv_remove s k = Some (kv_get s k, s2) /\ exec_post s k s2 None.
Proof.
  intros I. destruct (write_post s k None None I eq_refl) as (s1 & U & P & G & R).
  unfold kv_remove. rewrite U. exists (set_dirty (t_set k None (k_dirty s1)) s1). split; [|exact P].
  rewrite <- G. unfold kv_get. destruct (t_get k (k_dirty s1)); [reflexivity|].
  destruct (k_pers s1) as [p|]; [destruct (t_get k p)|]; reflexivity.
Qed.

(* ---------- committing ---------- *)
Lemma stage_ok s b s1 : kinv s -> stage s = Some (b, s1) ->
  kinv (set_thread (Some (b, false)) s1) /\ (forall k, kv_get s1 k = kv_get s k) /\ k_exp s1 = k_exp s /\
  k_dirty s1 = [] /\ k_pers s1 = Some b /\ k_disk s1 = k_disk s /\ b = k_dirty s /\ k_pers s = None.
Proof.
  intros (O & Wd & Wk & Wp & T) H. unfold stage in H. destruct (k_dirty s) as [|p r] eqn:D; [discriminate|].
  destruct (k_pers s) eqn:P; [discriminate|]. injection H as <- <-.
  split; [|repeat split].
  - split; [exact O|]. split; [exact wf_nil|]. split; [exact Wk|]. split; [intros q Q; cbn in Q; injection Q as <-; exact Wd|].
    cbn. split; [reflexivity|discriminate].
  - intros k. unfold kv_get. cbn [k_dirty k_pers k_disk set_dirty set_pers]. rewrite D, P. cbn [t_get]. reflexivity.
Qed.
