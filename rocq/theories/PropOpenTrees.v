(* C92: every operation of a transaction uses its own collection's trees, opened once, with
   the at-rest settings of its collection; what is encrypted, and what is not. *)
From Coq Require Import Lia Arith.
From Verif Require Import Base Utf8 Names NamesProofs Schematic SchematicProofs PropSchematic Vault PropVault OpenTrees OpenTreesProofs.
Local Open Scope nat_scope.

(* e is a database whose schema was built from the declarations l, every view type once *)
Record opened_with (e : env) (l : list act) : Prop := {
  ow_checked : forallb checked l = true;
  ow_schema : from_schema l = inl (e_schema e);
  ow_types : NoDup (map vi_type (vws (declares l)));
  ow_named : named e (declares l) }.
Definition known (l : list act) (c : N) : Prop := In c (map ci_name (colls (declares l))).

Lemma ow_views e l : opened_with e l -> forall c, views_in_collection c (e_schema e) = views_of (declares l) c.
Proof. intros [C F T _]. exact (proj1 (proj2 (proj2 (proj2 (C67_views l _ C F T))))). Qed.
Lemma ow_key e l c : opened_with e l -> write_settings (e_storage e) (own_key e c) = at_rest e (declares l) c.
Proof.
  intros [C F _ _]. pose proof (C67_answers l _ C F) as A. unfold at_rest, own_key.
  assert (K : encryption_key c (e_schema e) = match find (fun i => (ci_name i =? c)%N) (colls (declares l)) with Some i => ci_enc i | None => None end).
  { destruct (find _ (colls (declares l))) as [i|] eqn:E.
    - apply find_some in E. destruct E as (I & Q). apply N.eqb_eq in Q. subst c. apply (an_collection _ _ A i I).
    - apply (an_no_collection _ _ A). intros X. apply in_map_iff in X. destruct X as (i & Q & I). pose proof (find_none _ _ E i I) as Z. cbn in Z. subst c. rewrite N.eqb_refl in Z. discriminate Z. }
  rewrite K. destruct (find _ (colls (declares l))) as [i|]; [destruct (ci_enc i) as [k|]|]; cbv zeta;
    unfold write_settings, new_if_needed; destruct (e_storage e) as [[k0|] [z|]]; cbn; reflexivity.
Qed.
Lemma known_key e l c : opened_with e l -> (known l c <-> key_description c (e_schema e) <> None).
Proof.
  intros [C F _ _]. pose proof (C67_answers l _ C F) as A. split.
  - intros X. apply in_map_iff in X. destruct X as (i & <- & I). rewrite (proj1 (an_collection _ _ A i I)). discriminate.
  - intros X. destruct (in_dec N.eq_dec c (map ci_name (colls (declares l)))) as [Y|Y]; [exact Y|]. exfalso. apply X, (an_no_collection _ _ A c Y).
Qed.
Lemma lookups_spec e l c b : opened_with e l -> forall k x, In (k, x) (lookups e c b) <-> k = kind_of x /\ uses e (declares l) c b x.
Proof.
  intros W k x. pose proof W as [C F T _]. destruct (C67_views l _ C F T) as (_ & _ & _ & V & EV & _).
  unfold lookups, uses. cbn [In]. destruct b.
  - rewrite V, EV, in_app_iff, in_flat_map, in_map_iff. split.
    + intros [[= <- <-]|[(v & Iv & X)|(v & [= <- <-] & X)]].
      * split; [reflexivity|left; reflexivity].
      * apply filter_In in Iv. destruct Iv as (Iv & Q). apply andb_prop in Q. destruct Q as (Q1 & Q2).
        assert (In v (views_of (declares l) c)) by (apply filter_In; split; assumption).
        destruct X as [[= <- <-]|[[= <- <-]|[]]]; (split; [reflexivity|]; right; split; [reflexivity|]; exists v; split; [assumption|]; destruct (vi_policy v); [discriminate Q2| |]); auto.
      * apply filter_In in X. destruct X as (X & Q). split; [reflexivity|]. right. split; [reflexivity|]. exists v. split; [exact X|]. destruct (vi_policy v); [reflexivity|discriminate Q|discriminate Q].
    + intros (-> & [->|(_ & v & Iv & X)]); [left; reflexivity|]. right. pose proof Iv as Iv'. apply filter_In in Iv'. destruct Iv' as (I1 & I2). destruct (vi_policy v) eqn:Pv.
      * right. exists v. subst x. split; [reflexivity|]. apply filter_In. split; [exact Iv|]. rewrite Pv. reflexivity.
      * left. exists v. split; [apply filter_In; split; [exact I1|rewrite I2, Pv; reflexivity]|]. destruct X as [->| ->]; cbn; auto.
      * left. exists v. split; [apply filter_In; split; [exact I1|rewrite I2, Pv; reflexivity]|]. destruct X as [->| ->]; cbn; auto.
  - split; [intros [[= <- <-]|[]]; split; [reflexivity|left; reflexivity]|intros (-> & [->|([=] & _)]); left; reflexivity].
Qed.
Lemma find_trees_spec o : forall l, (forall k x, In (k, x) l -> exists t, find_tree o k x = Done t) ->
  exists ts, find_trees o l = Done ts /\ forall t, In t ts <-> exists k x, In (k, x) l /\ find_tree o k x = Done t.
Proof.
  induction l as [|[k x] l IH]; intros H; [exists []; split; [reflexivity|]; intros t; split; [intros []|intros (k & x & [] & _)]|].
  cbn [find_trees]. destruct (H k x (or_introl eq_refl)) as (t & E). rewrite E. destruct (IH ltac:(intros k' x' I; apply H; right; exact I)) as (ts & -> & S).
  exists (t :: ts). split; [reflexivity|]. intros u. cbn [In]. rewrite S. split.
  - intros [<-|(k' & x' & I & Q)]; [exists k, x; split; [left; reflexivity|exact E]|exists k', x'; split; [right; exact I|exact Q]].
  - intros (k' & x' & [[= <- <-]|I] & Q); [left; congruence|right; exists k', x'; split; assumption].
Qed.

Notation tree_of e l c x := (TRoot (tree_name x) (kind_of x) (at_rest e (declares l) c)).

(* A transaction on known collections finds every tree it looks for (it never panics), locks
   each tree once, and each operation works on exactly the trees of its own collection, with
   that collection's settings. *)
Theorem C92_trees e l ops : opened_with e l -> (forall c b, In (c, b) ops -> known l c) ->
  exists opened found, apply_trees e ops = Done (opened, found) /\ NoDup (map t_name opened) /\
    Forall2 (fun op ts => forall t, In t ts <-> exists x, uses e (declares l) (fst op) (snd op) x /\ t = tree_of e l (fst op) x) ops found /\
    (forall t, In t opened <-> exists c b x, In (c, b) ops /\ uses e (declares l) c true x /\ t = tree_of e l c x).
Proof.
  intros W K. pose proof (ow_views e l W) as HV. pose proof (ow_named e l W) as HN.
  destruct (open_all e (declares l) HN HV (map fst ops) no_trees (fun _ => False)) as (o & E & I & _ & U).
  { intros c Hc. apply in_map_iff in Hc. destruct Hc as ([c' b] & Q & Hc). cbn in Q. subst c'. apply (known_key e l c W). exact (K c b Hc). }
  { apply oinv_none. }
  assert (FT : forall c b x, In c (map fst ops) -> uses e (declares l) c b x -> find_tree o (kind_of x) x = Done (tree_of e l c x) /\ In (tree_of e l c x) (trees o)).
  { intros c b x Hc Hu. pose proof (uses_obj e (declares l) HN c b x Hu) as (Ax & Ox). rewrite <- (ow_key e l c W).
    exact (find_tree_ok e (declares l) HN _ o c b x I (U c b x Hc Hu) Ax Ox Hu). }
  assert (FA : forall l', incl l' ops -> exists found, find_all e o l' = Done found /\
    Forall2 (fun op ts => forall t, In t ts <-> exists x, uses e (declares l) (fst op) (snd op) x /\ t = tree_of e l (fst op) x) l' found).
  { induction l' as [|[c b] l' IH]; intros Hi; [exists []; split; [reflexivity|constructor]|]. cbn [find_all].
    assert (Hc : In c (map fst ops)) by (apply in_map_iff; exists (c, b); split; [reflexivity|apply Hi; left; reflexivity]).
    destruct (find_trees_spec o (lookups e c b)) as (ts & -> & S).
    { intros k x Hx. apply (lookups_spec e l c b W) in Hx. destruct Hx as (-> & Hu). exists (tree_of e l c x). exact (proj1 (FT c b x Hc Hu)). }
    destruct (IH ltac:(intros y Hy; apply Hi; right; exact Hy)) as (found & -> & F2). exists (ts :: found). split; [reflexivity|]. constructor; [|exact F2].
    cbn [fst snd]. intros t. rewrite S. split.
    - intros (k & x & Hx & Q). apply (lookups_spec e l c b W) in Hx. destruct Hx as (-> & Hu). exists x. split; [exact Hu|]. rewrite (proj1 (FT c b x Hc Hu)) in Q. congruence.
    - intros (x & Hu & ->). exists (kind_of x), x. split; [apply (lookups_spec e l c b W); split; [reflexivity|exact Hu]|exact (proj1 (FT c b x Hc Hu))]. }
  destruct (FA ops (fun y h => h)) as (found & EF & F2). exists (trees o), found. unfold apply_trees. rewrite E, EF. split; [reflexivity|].
  split; [exact (oi_nodup _ _ _ _ I)|]. split; [exact F2|]. intros t. split.
  - intros Ht. pose proof (oi_owned _ _ _ _ I) as O. rewrite Forall_forall in O. destruct (O t Ht) as (c & x & [[]|Hc] & Ax & Ox & -> & Hu).
    apply in_map_iff in Hc. destruct Hc as ([c' b] & Q & Hc). cbn in Q. subst c'. exists c, b, x. split; [exact Hc|]. split; [exact Hu|]. unfold settings_of. rewrite (ow_key e l c W). reflexivity.
  - intros (c & b & x & Hc & Hu & ->). apply (FT c true x); [apply in_map_iff; exists (c, b); split; [reflexivity|exact Hc]|exact Hu].
Qed.

(* An operation on an unknown collection: nothing is opened, the transaction is refused. *)
Theorem C92_unknown e l ops c b : opened_with e l -> In (c, b) ops -> ~ known l c -> apply_trees e ops = Fail CollectionNotFound.
Proof.
  intros W Hc Hk. unfold apply_trees.
  assert (G : forall cs o, In c cs -> open_for_transaction e cs o = Fail CollectionNotFound).
  { induction cs as [|d cs IH]; intros o Hi; [destruct Hi|]. cbn [open_for_transaction]. destruct (key_description d (e_schema e)) eqn:E; [|reflexivity].
    destruct Hi as [->|Hi]; [exfalso; apply Hk, (known_key e l c W); congruence|apply IH, Hi]. }
  rewrite G; [reflexivity|]. apply in_map_iff. exists (c, b). split; [reflexivity|exact Hc].
Qed.

(* Transactions on different collections lock no tree in common. *)
Theorem C92_disjoint e l ops ops' opened opened' found found' : opened_with e l ->
  (forall c b, In (c, b) ops -> known l c) -> (forall c b, In (c, b) ops' -> known l c) ->
  (forall c b b', In (c, b) ops -> ~ In (c, b') ops') ->
  apply_trees e ops = Done (opened, found) -> apply_trees e ops' = Done (opened', found') ->
  forall t t', In t opened -> In t' opened' -> t_name t <> t_name t'.
Proof.
  intros W K K' D E E' t t' Ht Ht' Q. pose proof (ow_named e l W) as HN.
  destruct (C92_trees e l ops W K) as (o1 & f1 & E1 & _ & _ & S1). rewrite E in E1. injection E1 as <- <-.
  destruct (C92_trees e l ops' W K') as (o2 & f2 & E2 & _ & _ & S2). rewrite E' in E2. injection E2 as <- <-.
  apply S1 in Ht. destruct Ht as (c & b & x & Hc & Hu & ->). apply S2 in Ht'. destruct Ht' as (c' & b' & x' & Hc' & Hu' & ->).
  pose proof (uses_obj e (declares l) HN c true x Hu) as (A1 & O1). pose proof (uses_obj e (declares l) HN c' true x' Hu') as (A2 & O2).
  cbn in Q. apply tree_name_inj in Q; [|exact A1|exact A2]. subst x'. assert (c = c') as <- by (apply (nm_inj _ _ HN); congruence). exact (D c b b' Hc Hc').
Qed.

(* Reads, view queries, the view mapper and the integrity scanner open the same trees with the
   same settings. *)
Theorem C92_readers e l c x : opened_with e l -> collection_tree e c (kind_of x) x = tree_of e l c x.
Proof. intros W. unfold collection_tree. rewrite C52_same_settings, (ow_key e l c W). reflexivity. Qed.

(* ---- what is on disk *)
Definition sealed_block (P : primitives) (b : bytes) : Prop :=
  exists h nonce m, (128 <= h)%N /\ b = trv ++ h :: to_vec (VPayload KMaster 0 (seal P nonce m) nonce).
Definition keyed (e : env) (l : list act) (c : N) : Prop := exists s, at_rest e (declares l) c = Some s /\ s_key s <> None.
(* every key in use is the master key (any other panics, C52) *)
Definition keys_ok (e : env) : Prop := key_ok (s_key (e_storage e)) /\ forall k, e_key e k = KMaster.
Definition own_trees (e : env) (v : devent) : Prop :=
  match v with DWrite c x _ _ => api_object x /\ owner x = Some (e_cn e c) | DCompact x _ => api_object x | DLog _ _ => True end.
Definition not_compacted (x : object) (l : list devent) : Prop := forall n, ~ In (DCompact x n) l.

Lemma own_ok e c : keys_ok e -> key_ok (own_key e c).
Proof. intros (A & B). unfold own_key. destruct (encryption_key c (e_schema e)); [right; rewrite B; reflexivity|exact A]. Qed.
Lemma keyed_iff e l c : opened_with e l -> keyed e l c -> own_key e c <> None \/ s_key (e_storage e) <> None.
Proof.
  intros W (s & A & K). rewrite <- (ow_key e l c W) in A. unfold write_settings, new_if_needed in A.
  destruct (own_key e c); [left; discriminate|]. right. destruct (s_key (e_storage e)) eqn:Q; [discriminate|]. destruct (s_comp (e_storage e)); [|discriminate A]. injection A as <-. congruence.
Qed.
Lemma encrypted_block P e own p nonce b : keys_ok e -> key_ok own -> (own <> None \/ s_key (e_storage e) <> None) ->
  store_block P (write_settings (e_storage e) own) nonce p = Done b -> sealed_block P b.
Proof.
  intros (A & _) Ko H E. destruct (C52_encrypted P (e_storage e) own p nonce A Ko H) as (h & m & Q & _ & L). rewrite Q in E. injection E as <-. exists h, nonce, m. split; [exact L|reflexivity].
Qed.
Lemma roots_as_write e : roots_settings e = write_settings (e_storage e) None.
Proof. reflexivity. Qed.
Lemma roots_as_read e : roots_settings e = read_settings (e_storage e) None.
Proof. unfold roots_settings, read_settings. destruct (new_if_needed (e_storage e)); reflexivity. Qed.
Lemma compact_sealed P e : keys_ok e -> s_key (e_storage e) <> None -> forall l bs, compact_chunks P (roots_settings e) l = Done bs -> Forall (sealed_block P) bs.
Proof.
  intros K S l. induction l as [|[n b] l IH]; intros bs; cbn [compact_chunks]; [intros [= <-]; constructor|].
  destruct (load_block P (roots_settings e) b) as [p|f|]; try discriminate. destruct (store_block P (roots_settings e) n p) as [b'|f|] eqn:B; try discriminate.
  destruct (compact_chunks P (roots_settings e) l) as [bs'|f|]; try discriminate. intros [= <-]. constructor; [|apply IH; reflexivity].
  rewrite roots_as_write in B. exact (encrypted_block P e None p n b' K (or_introl eq_refl) (or_intror S) B).
Qed.

(* Every chunk in a tree of a collection with a key (its own or the storage's default) is
   encrypted, if the tree was never compacted or the storage has a default key. *)
Theorem C92_sealed P e l evs d : opened_with e l -> keys_ok e -> Forall (own_trees e) evs -> drun P e empty_disk evs = Done d ->
  forall c x, keyed e l c -> api_object x -> owner x = Some (e_cn e c) ->
  (not_compacted x evs \/ s_key (e_storage e) <> None) -> Forall (sealed_block P) (d_trees d x).
Proof.
  intros W K O R c x Kc Ax Ox N.
  assert (G : forall evs d0, Forall (own_trees e) evs -> (not_compacted x evs \/ s_key (e_storage e) <> None) -> drun P e d0 evs = Done d ->
    Forall (sealed_block P) (d_trees d0 x) -> Forall (sealed_block P) (d_trees d x)).
  { clear evs O N R. induction evs as [|v evs IH]; intros d0 O N R F; cbn [drun] in R; [injection R as <-; exact F|].
    destruct (dstep P e d0 v) as [d1|f|] eqn:S; try discriminate. inversion O as [|? ? O1 O2]; subst.
    apply (IH d1 O2); [destruct N as [N|N]; [left; intros n I; apply (N n); right; exact I|right; exact N]|exact R|].
    destruct v as [c' y nonce p|nonce p|y nonces]; cbn [dstep] in S.
    - destruct (store_block P (write_settings (e_storage e) (own_key e c')) nonce p) as [b|f|] eqn:B; try discriminate. injection S as <-. cbn [d_trees]. unfold upd.
      destruct (bytes_eqb (tree_name y) (tree_name x)) eqn:Q; [|exact F]. apply bytes_eqb_spec in Q. destruct O1 as (Ay & Oy). apply tree_name_inj in Q; [|exact Ay|exact Ax]. subst y.
      assert (c' = c) as -> by (apply (nm_inj _ _ (ow_named e l W)); congruence). apply Forall_app. split; [exact F|]. constructor; [|constructor].
      exact (encrypted_block P e _ p nonce b K (own_ok e c K) (keyed_iff e l c W Kc) B).
    - destruct (store_block P (roots_settings e) nonce p) as [b|f|]; try discriminate. injection S as <-. exact F.
    - destruct (compact_chunks P (roots_settings e) _) as [bs|f|] eqn:B; try discriminate. injection S as <-. cbn [d_trees]. unfold upd.
      destruct (bytes_eqb (tree_name y) (tree_name x)) eqn:Q; [|exact F]. destruct N as [N|N]; [|exact (compact_sealed P e K N _ _ B)].
      exfalso. apply bytes_eqb_spec in Q. apply tree_name_inj in Q; [|exact O1|exact Ax]. subst y. apply (N nonces). left. reflexivity. }
  exact (G evs empty_disk O N R (Forall_nil _)).
Qed.

(* Compacting a tree keeps its content: if the storage has a default key or compression (or
   the collection is stored as it is), every chunk reads back as before. *)
Theorem C92_compact_content P e l c chunks : opened_with e l -> lawful P -> keys_ok e ->
  (roots_settings e <> None \/ at_rest e (declares l) c = None) ->
  Forall (fun q => let '(nonce, p, nonce', b) := q in
    length nonce = 24 /\ length nonce' = 24 /\ bytes_ok p /\ sized 32 p /\ (s_key (e_storage e) <> None \/ unmistakable p) /\
    store_block P (at_rest e (declares l) c) nonce p = Done b) chunks ->
  exists bs, compact_chunks P (roots_settings e) (map (fun q => let '(_, _, nonce', b) := q in (nonce', b)) chunks) = Done bs /\
    Forall2 (fun q b' => let '(_, p, _, _) := q in load_block P (at_rest e (declares l) c) b' = Done p) chunks bs.
Proof.
  intros W L (Ks & Kk) R. rewrite <- (ow_key e l c W) in *. pose proof (own_ok e c (conj Ks Kk)) as Ko.
  induction chunks as [|[[[n p] n'] b] chunks IH]; intros F; [exists []; split; [reflexivity|constructor]|].
  inversion F as [|? ? F1 F']; subst. cbv beta iota in F1. destruct F1 as (Ln & Ln' & Op & Sp & U & Sb). destruct (IH F') as (bs & E & F2). cbn [map compact_chunks].
  assert (NR : roots_settings e = None -> own_key e c = None).
  { intros X. destruct R as [R|R]; [congruence|]. unfold write_settings, new_if_needed in R. unfold roots_settings, new_if_needed in X.
    destruct (own_key e c); [|reflexivity]. destruct (s_key (e_storage e)), (s_comp (e_storage e)); discriminate. }
  destruct (C52_roundtrip P (e_storage e) (own_key e c) (e_storage e) None p n L Ks Ko Op Sp Ln) as (b0 & B1 & B2).
  { intros T X. rewrite <- roots_as_read in X. rewrite (NR X) in T. rewrite <- roots_as_write, X in T. destruct T as (v & [=] & _). }
  { destruct U as [U|U]; [left|right; exact U]. unfold transformed, write_settings, new_if_needed. destruct (own_key e c) as [k|]; destruct (s_key (e_storage e)) as [k0|] eqn:Q; try congruence; destruct (s_comp (e_storage e));
      (eexists; split; [reflexivity|left; eexists; cbn; try reflexivity; exact Q]). }
  rewrite B1 in Sb. injection Sb as <-. rewrite <- roots_as_read in B2. rewrite B2.
  destruct (C52_roundtrip P (e_storage e) None (e_storage e) (own_key e c) p n' L Ks (or_introl eq_refl) Op Sp Ln') as (b' & B3 & B4).
  { intros T X. rewrite C52_same_settings in X. rewrite <- roots_as_write in T. destruct (own_key e c) eqn:Q; [unfold write_settings, new_if_needed in X; destruct (s_key (e_storage e)), (s_comp (e_storage e)); discriminate X|].
    rewrite <- roots_as_write in X. rewrite X in T. destruct T as (v & [=] & _). }
  { destruct U as [U|U]; [left|right; exact U]. unfold transformed, write_settings, new_if_needed. destruct (s_key (e_storage e)) as [k0|] eqn:Q; [|congruence]. eexists. split; [reflexivity|]. left. exists k0. exact Q. }
  rewrite roots_as_write in *. rewrite B3, E. exists (b' :: bs). split; [reflexivity|]. constructor; [|exact F2]. rewrite <- C52_same_settings. exact B4.
Qed.

(* ---- examples *)
Lemma repeat_inj (a b : nat) (x : N) : repeat x a = repeat x b -> a = b.
Proof. intros H. apply (f_equal (@length N)) in H. rewrite !repeat_length in H. exact H. Qed.
Lemma utf8_repeat n : utf8 (repeat 97%N n) = repeat 97%N n.
Proof. induction n as [|n IH]; [reflexivity|]. change (utf8 (repeat 97%N (S n))) with (97%N :: utf8 (repeat 97%N n)). rewrite IH. reflexivity. Qed.
Definition ex_name (n : nat) : name := name_of (utf8 (repeat 97%N n)).
Lemma ex_name_api n : api_name (ex_name n).
Proof. exists (repeat 97%N n). split; [|reflexivity]. apply Forall_forall. intros x Hx. apply repeat_spec in Hx. subst x. reflexivity. Qed.
Definition ex_cn (c : N) : qname := mk_qname (ex_name 3) (ex_name (N.to_nat c)).
Definition ex_vn (n : N) : vname := mk_vname (ex_cn 1) (ex_name (N.to_nat n)).
Definition ex_env (st : settings) (l : list act) : env := Env (match from_schema l with inl s => s | inr _ => empty_schematic end) ex_cn ex_vn (fun _ => KMaster) st.
Lemma ex_opened st : opened_with (ex_env st ex_schema) ex_schema.
Proof.
  constructor; [reflexivity|reflexivity|apply C67_example|]. constructor; cbn [ex_env e_cn e_vn].
  - intros c. split; apply ex_name_api.
  - intros a b H. injection H as H. rewrite !utf8_repeat in H. apply repeat_inj in H. lia.
  - intros n. split; [split; apply ex_name_api|apply ex_name_api].
  - cbn. intros v [<-|[<-|[]]]; reflexivity.
Qed.
Example C92_example st : opened_with (ex_env st ex_schema) ex_schema /\ (forall c b, In (c, b) [(1%N, true); (2%N, false); (1%N, false)] -> known ex_schema c) /\ ~ known ex_schema 3%N /\
  uses (ex_env st ex_schema) (declares ex_schema) 1 true (ViewInvalidated (ex_vn 30)) /\
  uses (ex_env st ex_schema) (declares ex_schema) 1 true (ViewEntries (ex_vn 31)).
Proof.
  split; [apply ex_opened|]. split; [intros c b [[= <- <-]|[[= <- <-]|[[= <- <-]|[]]]]; cbn; tauto|]. split; [cbn; intuition discriminate|].
  split; right; (split; [reflexivity|]).
  - exists (ex_v 20 30 Lazy 0). split; [cbn; tauto|reflexivity].
  - exists (ex_v 21 31 Unique 0). split; [cbn; tauto|right; reflexivity].
Qed.
Definition ex_trees := match apply_trees (ex_env (Settings None (Some tt)) ex_schema) [(1%N, true); (2%N, false); (1%N, false)] with Done (o, f) => (length o, map (@length troot) f) | _ => (0, []) end.
Example C92_count : ex_trees = (5, [4; 1; 1]).
Proof. vm_compute. reflexivity. Qed.
(* the hypotheses of C92_sealed and C92_compact_content *)
Definition ex_evs : list devent := [DWrite 1 (Documents (ex_cn 1)) (zeros 24) [1; 2; 3]%N; DLog (zeros 24) [4]%N; DWrite 2 (Documents (ex_cn 2)) (zeros 24) [5]%N].
Example C92_sealed_example : let e := ex_env (Settings None (Some tt)) ex_schema in
  keys_ok e /\ Forall (own_trees e) ex_evs /\ not_compacted (Documents (ex_cn 1)) ex_evs /\ keyed e ex_schema 1 /\ ~ keyed e ex_schema 2 /\
  exists d, drun toy2 e empty_disk ex_evs = Done d /\ length (d_trees d (Documents (ex_cn 1))) = 1 /\ d_trees d (Documents (ex_cn 2)) = [[5]]%N.
Proof.
  cbv zeta. split; [split; [left; reflexivity|reflexivity]|]. split.
  { repeat constructor; apply ex_name_api. }
  split; [intros n [H|[H|[H|[]]]]; discriminate H|]. split; [eexists; split; [reflexivity|discriminate]|]. split; [intros (s & [= <-] & H); apply H; reflexivity|].
  eexists. split; [reflexivity|]. split; vm_compute; reflexivity.
Qed.

(* ---- where it fails *)
(* One view type registered under two names, as an eager and as a lazy view, is accepted (C67);
   then every write to the collection panics. *)
Theorem C92_same_type_refuted st : exists l s, forallb checked l = true /\ from_schema l = inl s /\
  apply_trees (ex_env st l) [(1%N, true)] = Panic /\ exists o f, apply_trees (ex_env st l) [(1%N, false)] = Done (o, f).
Proof.
  exists [DefCollection (CollInfo 10 1 3 None) [DefView (ex_v 20 30 Unique 0) false; DefView (ex_v 20 31 Lazy 1) false] false]. eexists.
  split; [reflexivity|]. split; [reflexivity|]. split; [destruct st as [[k|] [[]|]]; vm_compute; reflexivity|]. eexists. eexists. reflexivity.
Qed.
(* A collection with its own key in a storage with compression but no default key: compacting
   it stores its chunks without encryption. *)
Theorem C92_compact_plain_refuted P : lawful P -> let e := ex_env (Settings None (Some tt)) ex_schema in let x := Documents (ex_cn 1) in
  opened_with e ex_schema /\ keys_ok e /\ keyed e ex_schema 1 /\
  exists b d, drun P e empty_disk [DWrite 1 x (zeros 24) [1; 2; 3]%N] = Done b /\ Forall (sealed_block P) (d_trees b x) /\
    drun P e empty_disk [DWrite 1 x (zeros 24) [1; 2; 3]%N; DCompact x (fun _ => zeros 24)] = Done d /\ d_trees d x = [[1; 2; 3]]%N.
Proof.
  intros L. cbv zeta. split; [apply ex_opened|]. split; [split; [left; reflexivity|reflexivity]|]. split; [eexists; split; [reflexivity|discriminate]|].
  destruct (C52_roundtrip P (Settings None (Some tt)) (Some KMaster) (Settings None (Some tt)) None [1; 2; 3]%N (zeros 24) L) as (b & B1 & B2).
  { left. reflexivity. } { right. reflexivity. } { repeat constructor. } { reflexivity. } { reflexivity. } { discriminate. } { left. eexists. split; [reflexivity|]. left. exists KMaster. reflexivity. }
  eexists. exists (Disk (upd (Documents (ex_cn 1)) [[1; 2; 3]%N] (upd (Documents (ex_cn 1)) [b] (fun _ => []))) []).
  assert (D : dstep P (ex_env (Settings None (Some tt)) ex_schema) empty_disk (DWrite 1 (Documents (ex_cn 1)) (zeros 24) [1; 2; 3]%N) = Done (Disk (upd (Documents (ex_cn 1)) [b] (fun _ => [])) [])).
  { cbn [dstep]. change (write_settings (e_storage (ex_env (Settings None (Some tt)) ex_schema)) (own_key (ex_env (Settings None (Some tt)) ex_schema) 1)) with (write_settings (Settings None (Some tt)) (Some KMaster)). rewrite B1. reflexivity. }
  assert (U : forall l f, upd (Documents (ex_cn 1)) l f (Documents (ex_cn 1)) = l) by (intros l f; unfold upd; rewrite (proj2 (bytes_eqb_spec _ _) eq_refl); reflexivity).
  cbn [drun]. rewrite D. split; [reflexivity|]. cbn [d_trees]. rewrite U. split.
  { constructor; [|constructor]. eapply (encrypted_block P (ex_env (Settings None (Some tt)) ex_schema) (Some KMaster)); [split; [left; reflexivity|reflexivity]|right; reflexivity|left; discriminate|exact B1]. }
  cbn [dstep d_trees]. rewrite U. cbn [length seq map combine compact_chunks].
  change (roots_settings (ex_env (Settings None (Some tt)) ex_schema)) with (read_settings (Settings None (Some tt)) None). rewrite B2.
  change (read_settings (Settings None (Some tt)) None) with (Some (Settings None (Some tt))). cbn [store_block]. change (encrypt P (Settings None (Some tt)) (zeros 24) [1; 2; 3]%N) with (Done (E := verr) [1; 2; 3]%N).
  cbn [d_log]. split; [reflexivity|]. apply U.
Qed.
(* Without compression and default key, compaction of such a collection takes the encrypted
   bytes themselves for the tree's data. *)
Theorem C92_compact_raw_refuted P nonce p : let e := ex_env (Settings None None) ex_schema in
  keyed e ex_schema 1 /\ exists b, store_block P (at_rest e (declares ex_schema) 1) nonce p = Done b /\ sealed_block P b /\
    load_block P (roots_settings e) b = Done b /\ compact_chunks P (roots_settings e) [(nonce, b)] = Done [b].
Proof.
  cbv zeta. split; [eexists; split; [reflexivity|discriminate]|]. destruct (C52_encrypted P (Settings None None) (Some KMaster) p nonce) as (h & m & Q & _ & L); [left; reflexivity|right; reflexivity|left; discriminate|].
  eexists. split; [exact Q|]. split; [exists h, nonce, m; split; [exact L|reflexivity]|]. split; reflexivity.
Qed.
(* The transaction log is stored with the storage's settings: without a default key the entries
   of transactions on encrypted collections, with the ids of the documents, are in plain. *)
Theorem C92_log_refuted P nonce p : let e := ex_env (Settings None None) ex_schema in
  keyed e ex_schema 1 /\ exists d, drun P e empty_disk [DLog nonce p] = Done d /\ d_log d = [p].
Proof. cbv zeta. split; [eexists; split; [reflexivity|discriminate]|]. eexists. split; reflexivity. Qed.

Print Assumptions C92_trees.
Print Assumptions C92_unknown.
Print Assumptions C92_disjoint.
Print Assumptions C92_readers.
Print Assumptions C92_sealed.
Print Assumptions C92_compact_content.
Print Assumptions C92_same_type_refuted.
Print Assumptions C92_compact_plain_refuted.
Print Assumptions C92_compact_raw_refuted.
Print Assumptions C92_log_refuted.
