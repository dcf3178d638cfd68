(* C93: a derived collection, view or schema is what its attributes say. *)
From Verif Require Import Base Names Schematic SchematicProofs PropSchematic Vault Derive DeriveProofs.
From Coq Require Import Relations.
From Coq Require Import Lia Arith.
Local Open Scope nat_scope.

(* the macro accepts exactly the acceptable attributes (DeriveProofs.acceptable) *)
Theorem C93_compiles a d : (exists i, derive_collection a d = Done i) <-> acceptable a d.
Proof. split; [intros (i & H); exact (proj1 (derive_done _ _ _ H))|apply derive_acceptable]. Qed.

(* and what it then generates: the name, the primary key's type (the one given, else that of the
   marked field, else u64), the views in order, the key, and the natural id *)
Theorem C93_collection a d i : derive_collection a d = Done i ->
  i_name i = qualified (a_auth a) (a_name a) /\
  (forall p, a_pk a = Some p -> i_pk i = p) /\
  (forall fs k f, d = Struct fs -> a_pk a = None -> marked d = [k] -> nth_error fs k = Some f -> i_pk i = f_ty f) /\
  (a_pk a = None -> marked d = [] -> i_pk i = ty_u64) /\
  i_views i = a_views a /\
  (forall enabled, key_of enabled i = match a_key a with
     | Some k => if a_required a || negb (a_optional a) || enabled then k else None
     | None => None end) /\
  (forall expr self, natural_id expr i self = match marked d, a_natural a with
     | [k], _ => nth_error self k
     | [], Some e => expr e self
     | _, _ => None end).
Proof.
  intros H. destruct (derive_done _ _ _ H) as ([One Ei Gk Hd] & ->). cbn [i_name i_pk i_views].
  split; [reflexivity|]. split; [intros p E; unfold pk_of; rewrite E; reflexivity|].
  split; [intros fs k f -> E M Nf; unfold pk_of; rewrite E, M, Nf; reflexivity|].
  split; [intros E M; unfold pk_of; rewrite E; destruct d; [rewrite M|]; reflexivity|]. split; [reflexivity|]. split.
  - intros enabled. unfold key_of. cbn [i_key]. unfold key_expr. destruct (a_key a); [|reflexivity]. destruct (a_required a), (a_optional a), enabled; reflexivity.
  - intros expr self. unfold natural_id. cbn [i_serial]. unfold ser_of, nat_of.
    destruct (a_serial a) as [[| |ty]|] eqn:Se; [destruct (Hd eq_refl) as [-> ->]; reflexivity| | |];
      destruct (marked d) as [|k [|k' r]]; try (destruct (a_natural a); reflexivity); cbn in One; lia.
Qed.

(* a derived view has the collection and key given, the value type given or (), and the name
   given or its type's; its schema the view, mapped key, version and policy given, or itself, its
   own key, 0 and Lazy *)
Theorem C93_view wa self xa :
  let v := derive_view wa in let x := derive_vschema self (o_key v) xa in
  o_coll v = w_coll wa /\ o_key v = w_key wa /\
  (forall t, w_value wa = Some t -> o_value v = t) /\ (w_value wa = None -> o_value v = ty_unit) /\
  (forall n, w_name wa = Some n -> nm_text (o_name v) = n) /\ (w_name wa = None -> nm_text (o_name v) = w_ident wa) /\
  (forall t, x_view xa = Some t -> u_view x = t) /\ (x_view xa = None -> u_view x = self) /\
  (forall t, x_mapped xa = Some t -> u_mapped x = t) /\ (x_mapped xa = None -> u_mapped x = w_key wa) /\
  (forall n, x_version xa = Some n -> u_version x = n) /\ (x_version xa = None -> u_version x = 0%N) /\
  (forall p, x_policy xa = Some p -> u_policy x = p) /\ (x_policy xa = None -> u_policy x = Lazy).
Proof.
  cbv zeta. unfold derive_view, derive_vschema. cbn [o_coll o_key o_value o_name u_view u_mapped u_version u_policy].
  repeat match goal with |- _ /\ _ => split end; try reflexivity; intros; repeat match goal with H : _ = _ |- _ => rewrite H end; reflexivity.
Qed.
(* the name of a schema: its attributes', its collection's, or empty for () *)
Theorem C93_schema_name P t :
  (forall a, p_schema P t = Some a -> exists q, schema_name P t = Some q /\ nm_text (q_name q) = h_name a /\ nm_text (q_auth q) = match h_auth a with Some x => x | None => s_private end) /\
  (forall ts s d e, p_schema P t = None -> t <> ty_unit -> brings P t ts -> define_collections P d t empty_schematic = Returned s e -> ts = [t] /\ schema_name P t = coll_name P t).
Proof.
  split.
  - intros a Pa. unfold schema_name. rewrite Pa. eexists. split; [reflexivity|]. unfold qualified. destruct (h_auth a); split; reflexivity.
  - intros ts s d e Pn Ne B H. split; [inversion B; [congruence|congruence|reflexivity]|]. destruct d as [|d]; [discriminate H|]. cbn [define_collections] in H. rewrite Pn in H. apply N.eqb_neq in Ne. rewrite Ne in H.
    destruct (define_act P t) as [x|] eqn:D; [|discriminate H]. destruct (define_act_shape _ _ _ D) as (i & vs & C & _ & _). unfold schema_name. rewrite Pn, Ne, C.
    destruct (collection_of_shape _ _ _ C) as (a & dd & Pa & _ & _ & ->). unfold coll_name. rewrite Pa. reflexivity.
Qed.
(* A schema whose inclusions end registers its own collections and then those of the schemas it
   includes, in order, and is accepted exactly if all their names and all their views' names
   differ. The result does not depend on how deep calls may nest, once deep enough. *)
Theorem C93_schema P t ts : numbered P -> brings P t ts -> compiled P ts ->
  exists depth s e, (forall d, depth <= d -> define_collections P d t empty_schematic = Returned s e) /\
    (e = None <-> NoDup (map (coll_name P) ts) /\ NoDup (map (full_name P) (flat_map (listed P) ts))).
Proof.
  intros Nb B C. destruct (brings_runs _ _ _ B) as (depth & R). destruct (all_some_in (define_act P) ts C) as (acts & A).
  exists depth, (fst (run_acts acts empty_schematic)), (snd (run_acts acts empty_schematic)). split; [intros d L; rewrite (R d L acts _ A); reflexivity|].
  rewrite <- (distinct_iff _ _ _ Nb A). destruct (declares_of _ _ _ A) as (Ch & _ & _). rewrite <- (C67_accepted _ Ch). unfold from_schema.
  destruct (run_acts acts empty_schematic) as [s [e|]]; cbn [fst snd]; split; try discriminate; [intros (s0 & [=])|intros _; exists s; reflexivity|reflexivity].
Qed.
(* Once accepted, every collection is there under its declared name with its declared key type
   and encryption key, every view under its collection's and its own declared name, and a
   collection's views are exactly the listed views that are declared to be of it. *)
Theorem C93_answers P t ts d s : numbered P -> brings P t ts -> compiled P ts -> define_collections P d t empty_schematic = Returned s None ->
  (forall c, contains_collection c s = true <-> In c ts) /\
  (forall c a x, In c ts -> p_coll P c = Some (a, x) ->
     key_description (code P (qualified (a_auth a) (a_name a))) s = Some (pk_of a x) /\
     encryption_key (code P (qualified (a_auth a) (a_name a))) s = wanted_key (p_enabled P) a) /\
  (forall c v, In c ts -> In v (listed P c) -> exists wa xa q vi, p_view P v = Some (wa, xa) /\ coll_name P (w_coll wa) = Some q /\
     view_by_name (vcode P q (short_name wa)) s = Some vi /\ view_of_type v s = Some vi /\
     vi_key vi = w_key wa /\ vi_policy vi = match x_policy xa with Some p => p | None => Lazy end /\
     vi_version vi = match x_version xa with Some n => n | None => 0%N end) /\
  (forall q, map vi_type (views_in_collection (code P q) s) =
     filter (fun v => match p_view P v with Some (wa, _) => match coll_name P (w_coll wa) with Some r => (code P r =? code P q)%N | None => false end | None => false end)
       (flat_map (listed P) ts)).
Proof.
  intros Nb B C H. destruct (brings_runs _ _ _ B) as (depth & R). destruct (all_some_in (define_act P) ts C) as (acts & A).
  assert (E : Returned s None = returned (run_acts acts empty_schematic)).
  { rewrite <- (R (depth + d) ltac:(lia) acts _ A), <- H. symmetry. apply depth_mono; [rewrite H; discriminate|lia]. }
  assert (F : from_schema acts = inl s). { unfold from_schema. destruct (run_acts acts empty_schematic) as [s' [e|]]; unfold returned in E; cbn [fst snd] in E; [discriminate E|]. inversion E. reflexivity. }
  destruct (declares_of _ _ _ A) as (Ch & Fc & Fv). pose proof (C67_answers _ _ Ch F) as An.
  pose proof (proj1 (C67_accepted _ Ch) (ex_intro _ s F)) as Di. pose proof (proj1 (distinct_iff _ _ _ Nb A) Di) as (Nc & Nv).
  pose proof (types_of _ _ _ Fv) as Ty. assert (Nt : NoDup (map vi_type (vws (declares acts)))) by (rewrite Ty; exact (NoDup_map_inv _ _ Nv)).
  destruct (C67_views _ _ Ch F Nt) as (Vn & _ & _ & Vc & _ & _).
  assert (Tc : map ci_type (colls (declares acts)) = ts). { clear -Fc. induction Fc as [|t c ts cs (a & d & Pa & ->) _ IH]; [reflexivity|]. cbn [map ci_type]. rewrite IH. reflexivity. }
  split; [intros c; rewrite (an_contains _ _ An), Tc; reflexivity|]. split; [|split].
  - intros c a x I Pc. assert (Ic : exists ci, In ci (colls (declares acts)) /\ info_says P c ci).
    { clear -I Fc. induction Fc as [|t ci ts cs X _ IH]; [destruct I|]. destruct I as [<-|I]; [exists ci; split; [left; reflexivity|exact X]|]. destruct (IH I) as (cj & J & Y). exists cj. split; [right; exact J|exact Y]. }
    destruct Ic as (ci & Ici & (a' & d' & Pa & ->)). rewrite Pc in Pa. inversion Pa; subst a' d'. destruct (an_collection _ _ An _ Ici) as (K & _ & Ek). cbn [ci_name ci_key ci_enc] in K, Ek. split; assumption.
  - intros c v I Iv. assert (Il : In v (flat_map (listed P) ts)) by (apply in_flat_map; exists c; auto).
    assert (Ix : exists x, In x (vws (declares acts)) /\ view_says P v x).
    { clear -Il Fv. induction Fv as [|w x ws xs X _ IH]; [destruct Il|]. destruct Il as [<-|I]; [exists x; split; [left; reflexivity|exact X]|]. destruct (IH I) as (y & J & Y). exists y. split; [right; exact J|exact Y]. }
    destruct Ix as (x & Ix & [T (wa & xa & q & Pv & Q & Nm & Co & Ke & Po & Ve)]). destruct (Vn x Ix) as (V1 & V2). rewrite Nm in V1. rewrite T in V2. exists wa, xa, q, x. repeat split; assumption.
  - intros q. rewrite Vc. clear -Fv. induction Fv as [|v x vs xs X _ IH]; [reflexivity|]. destruct X as [T (wa & xa & r & Pv & Q & _ & Co & _)]. cbn [filter]. rewrite Pv, Q, Co.
    destruct (code P r =? code P q)%N; [cbn [map]; rewrite T, IH; reflexivity|exact IH].
Qed.
(* inclusions that go down a ranking end *)
Theorem C93_ranked P (rank : N -> nat) : (forall t u, includes_directly P t u -> rank u < rank t) -> forall t, exists ts, brings P t ts.
Proof. apply ranked_brings. Qed.
(* a schema that includes, however indirectly, one that includes itself is never accepted *)
Theorem C93_cycle P t u d s s' : t = u \/ clos_trans _ (includes_directly P) t u -> clos_trans _ (includes_directly P) u u ->
  define_collections P d t s <> Returned s' None.
Proof.
  intros [->|R] C; [apply cycle_fails; exact C|]. intros H. destruct (success_reach _ _ _ R _ _ _ H) as (d' & s1 & s2 & _ & X). exact (cycle_fails _ _ C _ _ _ X).
Qed.
(* nor one that brings the same collection twice, say through two included schemas *)
Theorem C93_twice P t ts c l1 l2 l3 : numbered P -> brings P t ts -> compiled P ts -> ts = l1 ++ c :: l2 ++ c :: l3 ->
  forall d s, define_collections P d t empty_schematic <> Returned s None.
Proof.
  intros Nb B C E d s H. destruct (C93_schema P t ts Nb B C) as (depth & s1 & e & R & Ac).
  assert (X : e = None). { pose proof (R (depth + d) ltac:(lia)) as X. rewrite (depth_mono P d t empty_schematic ltac:(rewrite H; discriminate) (depth + d) ltac:(lia)), H in X. inversion X. reflexivity. }
  apply Ac in X. destruct X as (X & _). rewrite E, map_app in X. cbn [map] in X. rewrite map_app in X. cbn [map] in X. apply NoDup_remove_2 in X. apply X. apply in_or_app. right. apply in_or_app. right. left. reflexivity.
Qed.

(* #[derive(FileConfig)]: both names or neither, and an authority only with names; then the names
   are the ones given under that authority ("private" without one), or the built-in ones. Its two
   collections can be registered together exactly if the two names differ. *)
Definition text (q : qname) : bytes * bytes := (nm_text (q_auth q), nm_text (q_name q)).
Theorem C93_file_config meta a :
  ((exists i, derive_file_config meta a = Done i) <-> (g_files a = None <-> g_blocks a = None) /\ (g_auth a <> None -> g_files a <> None)) /\
  forall i, derive_file_config meta a = Done i ->
    (forall f b, g_files a = Some f -> g_blocks a = Some b ->
       text (j_files i) = (match g_auth a with Some u => u | None => s_private end, f) /\ text (j_blocks i) = (match g_auth a with Some u => u | None => s_private end, b)) /\
    (g_files a = None -> text (j_files i) = (s_bonsaidb_, s_files) /\ text (j_blocks i) = (s_bonsaidb_, s_blocks)) /\
    (forall n, g_block a = Some n -> j_block i = n) /\ (g_block a = None -> j_block i = 65536%N) /\
    (forall m, g_meta a = Some m -> j_meta i = m) /\ (g_meta a = None -> j_meta i = meta).
Proof.
  unfold derive_file_config. destruct a as [m bl au f b]. cbn [g_meta g_block g_auth g_files g_blocks]. split.
  - destruct au, f, b; split; try (intros (i & [=])); try (intros _; eexists; reflexivity); try (split; [split; discriminate|]; intros _; discriminate); try (split; [split; reflexivity|]; intros X; destruct (X eq_refl)).
    all: intros [[X Y] Z]; try discriminate (X eq_refl); try discriminate (Y eq_refl). all: exfalso; apply Z; [discriminate|reflexivity].
  - intros i H. destruct au as [u|], f as [f|], b as [b|]; try discriminate H; inversion H; subst i; cbn [j_meta j_block j_files j_blocks];
      (split; [intros f0 b0 [=] [=]; subst; split; reflexivity|]); (split; [intros [=]; split; reflexivity|]);
      (split; [intros n ->; reflexivity|]); (split; [intros ->; reflexivity|]); (split; [intros n ->; reflexivity|intros ->; reflexivity]).
Qed.
Theorem C93_file_registered meta a i (cd : qname -> N) tf tb kf kb vf vb : (forall q r, cd q = cd r -> q = r) -> derive_file_config meta a = Done i ->
  (exists s, from_schema (register_files cd tf tb kf kb (map (fun v => DefView v false) vf) (map (fun v => DefView v false) vb) i) = inl s) <->
  (g_files a <> g_blocks a \/ g_files a = None) /\ NoDup (map vi_name (vf ++ vb)).
Proof.
  intros Cd H. assert (Ch : forallb checked (register_files cd tf tb kf kb (map (fun v => DefView v false) vf) (map (fun v => DefView v false) vb) i) = true) by (unfold register_files; cbn [forallb checked negb]; rewrite !checked_views; reflexivity).
  rewrite (C67_accepted _ Ch). unfold distinct_names, declares, register_files. cbn [flat_map]. rewrite !declared_coll. cbn [app].
  rewrite app_nil_r. cbn [colls vws]. rewrite colls_app, vws_app, colls_views, vws_views. cbn [colls vws app map ci_name]. rewrite colls_views, vws_views. cbn [map].
  assert (X : NoDup [cd (j_files i); cd (j_blocks i)] <-> (g_files a <> g_blocks a \/ g_files a = None)); [|rewrite X; reflexivity].
  assert (Y : j_files i = j_blocks i <-> ~ (g_files a <> g_blocks a \/ g_files a = None)).
  { unfold derive_file_config in H. destruct a as [m bl au f b]. cbn [g_meta g_block g_auth g_files g_blocks] in *. destruct au as [u|], f as [f|], b as [b|]; try discriminate H; inversion H; subst i; cbn [j_files j_blocks qualified].
    - split; [intros E; inversion E; subst; intros [Z|Z]; [destruct (Z eq_refl)|discriminate Z]|]. intros Z. destruct (list_eq_dec N.eq_dec f b) as [->|Ne]; [reflexivity|]. destruct Z. left. congruence.
    - split; [intros E; inversion E; subst; intros [Z|Z]; [destruct (Z eq_refl)|discriminate Z]|]. intros Z. destruct (list_eq_dec N.eq_dec f b) as [->|Ne]; [reflexivity|]. destruct Z. left. congruence.
    - split; [intros E; discriminate E|]. intros Z. destruct Z. right. reflexivity. }
  assert (De : (g_files a <> g_blocks a \/ g_files a = None) \/ ~ (g_files a <> g_blocks a \/ g_files a = None)).
  { destruct (g_files a) as [f|]; [|left; right; reflexivity]. destruct (g_blocks a) as [b|]; [|left; left; discriminate]. destruct (list_eq_dec N.eq_dec f b) as [->|Ne]; [right; intros [Z|Z]; [destruct (Z eq_refl)|discriminate Z]|left; left; congruence]. }
  split.
  - intros Nd. destruct De as [D|D]; [exact D|]. apply Y in D. rewrite D in Nd. inversion Nd; subst. exfalso. match goal with K : ~ In _ _ |- _ => apply K; left; reflexivity end.
  - intros D. constructor; [intros [E|[]]|constructor; [intros []|constructor]]. apply Cd in E. symmetry in E. apply Y in E. exact (E D).
Qed.
(* #[derive(Api)] *)
Theorem C93_api inf a : let '(q, r, e) := derive_api inf a in
  text q = (match k_auth a with Some u => u | None => s_private end, k_name a) /\
  (forall t, k_response a = Some t -> r = t) /\ (k_response a = None -> r = ty_unit) /\ (forall t, k_error a = Some t -> e = t) /\ (k_error a = None -> e = inf).
Proof. unfold derive_api. destruct a as [n [u|] [r|] [e|]]; cbn; repeat split; intros; congruence. Qed.
Example C93_file_example : (exists i, derive_file_config 9 (FileAttr None (Some 10%N) None (Some [97]%N) (Some [98]%N)) = Done i /\ j_block i = 10%N /\ text (j_files i) = (s_private, [97]%N)) /\
  derive_file_config 9 (FileAttr None None (Some [97]%N) None None) = Fail AuthorityAlone /\ derive_file_config 9 (FileAttr None None None (Some [97]%N) None) = Fail FilesAlone /\
  derive_file_config 9 (FileAttr None None None None (Some [97]%N)) = Fail BlocksAlone.
Proof. split; [eexists; vm_compute; repeat split; reflexivity|]. repeat split; vm_compute; reflexivity. Qed.

(* ---------- encryption, build by build ---------- *)
(* With at least one of the two features: reading and writing agree; a collection with an
   effective key is sealed with it if the build can, and refused otherwise; without one its trees
   have no key. *)
Theorem C93_builds b s own : b_encryption b || b_compression b = true ->
  change_settings b s own = tree_settings b s own /\
  match effective_key b s own with
  | Some k => if b_encryption b then exists c, change_settings b s own = Done (Some (Settings (Some k) c)) else change_settings b s own = Fail EncryptionDisabled
  | None => exists v, change_settings b s own = Done v /\ forall x, v = Some x -> s_key x = None
  end.
Proof.
  intros F. unfold change_settings, tree_settings. rewrite F. unfold effective_key, storage_of. destruct b as [en co]. cbn [b_encryption b_compression] in *. destruct s as [sk sc]. cbn [s_key s_comp].
  destruct en.
  - destruct own as [k|], sk as [k'|], co, sc; cbn; split; try reflexivity; try (eexists; reflexivity); eexists; (split; [reflexivity|]); intros x [=]; subst; reflexivity.
  - cbn in F. subst co. destruct own as [k|], sk as [k'|], sc; cbn; split; try reflexivity; eexists; (split; [reflexivity|]); intros x [=]; subst; reflexivity.
Qed.
(* with both features these are the settings of Vault.v *)
Theorem C93_full_build s own : change_settings (Build true true) s own = Done (write_settings s (effective_key (Build true true) s own)) /\
  tree_settings (Build true true) s own = Done (read_settings s (effective_key (Build true true) s own)).
Proof.
  unfold change_settings, tree_settings, effective_key, storage_of, write_settings, read_settings, new_if_needed. destruct s as [sk sc]. cbn.
  destruct own as [k|], sk as [k'|], sc; split; reflexivity.
Qed.
(* encryption_optional: whatever the build, the collection can be stored, and it is sealed if the
   build can. keys gives the numbered keys of the schema. *)
Theorem C93_optional a d i b s (keys : N -> keyid) : derive_collection a d = Done i -> a_optional a = true -> a_required a = false ->
  let own := match key_of (b_encryption b) i with Some k => Some (keys k) | None => None end in
  (exists v, change_settings b s own = Done v) /\
  (forall k, a_key a = Some (Some k) -> b_encryption b = true -> exists c, change_settings b s own = Done (Some (Settings (Some (keys k)) c))).
Proof.
  intros H O R own. destruct (C93_collection _ _ _ H) as (_ & _ & _ & _ & _ & K & _). specialize (K (b_encryption b)). rewrite R, O in K. cbn [orb negb] in K. split.
  - destruct (b_encryption b || b_compression b) eqn:F; [|unfold change_settings; rewrite F; eexists; reflexivity].
    destruct (C93_builds b s own F) as (_ & X). destruct (effective_key b s own) as [k|] eqn:E; [|destruct X as (v & X & _); eexists; exact X].
    destruct (b_encryption b) eqn:En; [destruct X as (c & X); eexists; exact X|]. exfalso. unfold own in E. rewrite K in E. unfold effective_key, storage_of in E. rewrite En in E. destruct (a_key a); discriminate E.
  - intros k Ak En. assert (F : b_encryption b || b_compression b = true) by (rewrite En; reflexivity). destruct (C93_builds b s own F) as (_ & X).
    assert (Eo : own = Some (keys k)). { unfold own. rewrite K, Ak, En. reflexivity. } unfold effective_key in X. rewrite Eo in X |- *. rewrite En in X. exact X.
Qed.
(* a key that is not optional: sealed with it or refused -- if one of the features is there *)
Theorem C93_required a d i b s (keys : N -> keyid) k : derive_collection a d = Done i -> a_key a = Some (Some k) -> a_required a = true \/ a_optional a = false ->
  b_encryption b || b_compression b = true ->
  (exists c, change_settings b s (match key_of (b_encryption b) i with Some k => Some (keys k) | None => None end) = Done (Some (Settings (Some (keys k)) c))) \/
  change_settings b s (match key_of (b_encryption b) i with Some k => Some (keys k) | None => None end) = Fail EncryptionDisabled.
Proof.
  intros H Ak Rq F. destruct (C93_collection _ _ _ H) as (_ & _ & _ & _ & _ & K & _). specialize (K (b_encryption b)). rewrite Ak in K.
  assert (K' : key_of (b_encryption b) i = Some k) by (destruct Rq as [Q|Q]; rewrite Q in K; destruct (a_required a); exact K).
  rewrite K'. destruct (C93_builds b s (Some (keys k)) F) as (_ & X). cbn [effective_key] in X. destruct (b_encryption b); [left; exact X|right; exact X].
Qed.

(* ---------- examples ---------- *)
Definition ex_attr (n : bytes) (views : list N) : coll_attr := CollAttr None n views None None false false None None.
(* types: 10 and 11 collections, 20 and 21 views of 10 (21 without a name, called by its type's
   name "V"), 30 a schema with 10 that includes the collection 11 and (); 31 and 32 both include
   30; 33 includes 31 and 32; 34 and 35 include each other and have no collection; 36 includes
   itself; 12 lists view 20, which is a view of 10 *)
Definition ex_coll (t : N) : option (coll_attr * data) :=
  match t with
  | 10%N => Some (CollAttr (Some [97]%N) [98]%N [20; 21]%N (Some PKey) (Some (Some 5%N)) false false None None, Struct [Field 7 0; Field 8 2; Field 9 0])
  | 11%N => Some (CollAttr None [99]%N [] None (Some (Some 6%N)) false true (Some 7%N) (Some 77%N), Struct [Field 7 0])
  | 12%N => Some (ex_attr [100]%N [20]%N, Variants [[Field 7 1]])
  | _ => None
  end%N.
Definition ex_view (t : N) : option (view_attr * vschema_attr) :=
  match t with
  | 20%N => Some (ViewAttr [86]%N 10 7 (Some [118]%N) None, VSchemaAttr None None (Some 3%N) (Some Unique))
  | 21%N => Some (ViewAttr [86]%N 10 8 None (Some 7%N), VSchemaAttr None None None None)
  | _ => None
  end.
Definition ex_schemas (t : N) : option schema_attr :=
  match t with
  | 30%N => Some (SchemaAttr [115]%N None [10]%N [11; 1]%N)
  | 31%N => Some (SchemaAttr [116]%N None [] [30]%N)
  | 32%N => Some (SchemaAttr [117]%N None [] [30]%N)
  | 33%N => Some (SchemaAttr [118]%N None [] [31; 32]%N)
  | 34%N => Some (SchemaAttr [119]%N None [] [35]%N)
  | 35%N => Some (SchemaAttr [119]%N None [] [34]%N)
  | 36%N => Some (SchemaAttr [120]%N None [11]%N [36]%N)
  | 37%N => Some (SchemaAttr [121]%N None [12]%N [])
  | _ => None
  end.
(* a numbering of the names: twice Cantor's pairing, applied to the bytes one after another *)
Definition pair_code (a b : N) : N := ((a + b) * (a + b + 1) + 2 * b)%N.
Lemma pair_code_inj a b c d : pair_code a b = pair_code c d -> a = c /\ b = d.
Proof.
  unfold pair_code. intros H.
  assert (X : forall x y z w, (x + y < z + w)%N -> ((x + y) * (x + y + 1) + 2 * y < (z + w) * (z + w + 1) + 2 * w)%N) by (intros; nia).
  destruct (N.lt_trichotomy (a + b) (c + d)) as [L|[L|L]].
  - specialize (X _ _ _ _ L). lia.
  - rewrite L in H. lia.
  - specialize (X _ _ _ _ L). lia.
Qed.
Fixpoint text_code (l : bytes) : N := match l with [] => 0 | b :: r => 1 + pair_code b (text_code r) end%N.
Lemma text_code_inj l m : text_code l = text_code m -> l = m.
Proof.
  revert m. induction l as [|b l IH]; intros [|c m] H; [reflexivity| | |]; cbn [text_code] in H; [lia|lia|].
  assert (E : pair_code b (text_code l) = pair_code c (text_code m)) by lia. apply pair_code_inj in E. destruct E as [-> E]. rewrite (IH m E). reflexivity.
Qed.
Definition name_code (n : name) : N := pair_code (text_code (nm_text n)) (if nm_escape n then 1 else 0).
Definition q_code (q : qname) : N := pair_code (name_code (q_auth q)) (name_code (q_name q)).
Definition v_code (q : qname) (n : name) : N := pair_code (q_code q) (name_code n).
Lemma name_code_inj n m : name_code n = name_code m -> n = m.
Proof. unfold name_code. intros H. apply pair_code_inj in H. destruct H as [A B]. apply text_code_inj in A. destruct n as [x [|]], m as [y [|]]; cbn in A, B; subst; try discriminate B; reflexivity. Qed.
Lemma q_code_inj q r : q_code q = q_code r -> q = r.
Proof. unfold q_code. intros H. apply pair_code_inj in H. destruct H as [A B]. apply name_code_inj in A. apply name_code_inj in B. destruct q, r. cbn in *. subst. reflexivity. Qed.
Definition ex_prog : program := Program ex_coll ex_view ex_schemas q_code v_code false.
Example C93_numbered_example : numbered ex_prog.
Proof.
  constructor; [exact q_code_inj|]. intros q n r m H. unfold vcode, ex_prog, v_code in H. apply pair_code_inj in H. destruct H as [A B]. split; [exact (q_code_inj _ _ A)|exact (name_code_inj _ _ B)].
Qed.
Example C93_collection_example :
  (exists i, derive_collection (CollAttr (Some [97]%N) [98]%N [20; 21]%N (Some PKey) (Some (Some 5%N)) false false None None) (Struct [Field 7 0; Field 8 2; Field 9 0]) = Done i /\
     i_pk i = 8%N /\ natural_id (fun _ _ => None) i [100; 101; 102]%N = Some 101%N /\ key_of false i = Some 5%N) /\
  derive_collection (CollAttr None [98]%N [] None None false false None None) (Struct [Field 7 1; Field 8 1]) = Fail TwoNaturalFields /\
  derive_collection (CollAttr None [98]%N [] None None false false None (Some 77%N)) (Struct [Field 7 1]) = Fail FieldAndExpression /\
  derive_collection (CollAttr None [98]%N [] None None true true None None) (Struct []) = Fail KeyMissing /\
  derive_collection (CollAttr None [98]%N [] (Some PNone) None false false None None) (Struct [Field 7 1]) = Fail NaturalByHand.
Proof. split; [eexists; vm_compute; repeat split; reflexivity|]. repeat split; vm_compute; reflexivity. Qed.
Example C93_view_example : derive_view (ViewAttr [86]%N 10 8 None (Some 7%N)) = ViewImpl 10 8 7 (name_of [86]%N) /\ schema_name ex_prog 30 = Some (mk_qname (name_of s_private) (name_of [115]%N)) /\ schema_name ex_prog 10 = coll_name ex_prog 10.
Proof. repeat split; vm_compute; reflexivity. Qed.
Example C93_schema_example : brings ex_prog 30 [10; 11]%N /\ compiled ex_prog [10; 11]%N /\
  (exists s, define_collections ex_prog 2 30 empty_schematic = Returned s None /\ collections s = map q_code [mk_qname (name_of [97]%N) (name_of [98]%N); mk_qname (name_of s_private) (name_of [99]%N)] /\
     map vi_policy (views_in_collection (q_code (mk_qname (name_of [97]%N) (name_of [98]%N))) s) = [Unique; Lazy] /\ map vi_version (views_in_collection (q_code (mk_qname (name_of [97]%N) (name_of [98]%N))) s) = [3; 0]%N) /\
  define_collections ex_prog 1 30 empty_schematic = Running.
Proof.
  split; [|split; [|split]].
  - apply (BrSchema ex_prog 30%N (SchemaAttr [115]%N None [10]%N [11; 1]%N) [11]%N); [reflexivity|]. apply (BrCons ex_prog 11%N [1]%N [11]%N []); [constructor; [reflexivity|discriminate]|].
    apply (BrCons ex_prog 1%N [] [] []); [apply BrUnit; reflexivity|constructor].
  - intros t [<-|[<-|[]]]; vm_compute; discriminate.
  - remember (define_collections ex_prog 2 30 empty_schematic) as r eqn:E. vm_compute in E. subst r. eexists. split; [reflexivity|]. repeat split; vm_compute; reflexivity.
  - vm_compute; reflexivity.
Qed.
Definition ex_ranked : program := Program ex_coll ex_view (fun t => if (t =? 33)%N then Some (SchemaAttr [118]%N None [] [30; 11]%N) else if (t =? 30)%N then Some (SchemaAttr [115]%N None [10]%N [11; 1]%N) else None) q_code v_code false.
Example C93_ranked_example : (forall t u, includes_directly ex_ranked t u -> N.to_nat u < N.to_nat t) /\ includes_directly ex_ranked 33 30.
Proof.
  split.
  - intros t u (a & Pa & I). cbn [p_schema ex_ranked] in Pa. destruct (N.eqb_spec t 33) as [->|_]; [|destruct (N.eqb_spec t 30) as [->|_]; [|discriminate Pa]]; inversion Pa; subst a; cbn in I;
      repeat (destruct I as [<-|I]; [lia|]); destruct I.
  - eexists. split; [reflexivity|left; reflexivity].
Qed.
Example C93_twice_example : brings ex_prog 33 [10; 11; 10; 11]%N /\ exists s, define_collections ex_prog 5 33 empty_schematic = Returned s (Some CollectionAlreadyDefined).
Proof.
  assert (B : brings ex_prog 30 ([10] ++ [11])%N) by exact (proj1 C93_schema_example). split.
  - apply (BrSchema ex_prog 33%N (SchemaAttr [118]%N None [] [31; 32]%N) ([10; 11] ++ [10; 11])%N); [reflexivity|].
    apply (BrCons ex_prog 31%N [32]%N [10; 11]%N [10; 11]%N).
    + apply (BrSchema ex_prog 31%N (SchemaAttr [116]%N None [] [30]%N) [10; 11]%N); [reflexivity|]. apply (BrCons ex_prog 30%N [] [10; 11]%N []); [exact B|constructor].
    + apply (BrCons ex_prog 32%N [] [10; 11]%N []); [|constructor]. apply (BrSchema ex_prog 32%N (SchemaAttr [117]%N None [] [30]%N) [10; 11]%N); [reflexivity|]. apply (BrCons ex_prog 30%N [] [10; 11]%N []); [exact B|constructor].
  - remember (define_collections ex_prog 5 33 empty_schematic) as r eqn:E. vm_compute in E. subst r. eexists. reflexivity.
Qed.
(* two schemas without collections that include each other: registering never returns *)
Theorem C93_endless_refuted : exists P t u, includes_directly P t u /\ includes_directly P u t /\ forall d, define_collections P d t empty_schematic = Running.
Proof.
  exists ex_prog, 34%N, 35%N. split; [eexists; split; [reflexivity|left; reflexivity]|]. split; [eexists; split; [reflexivity|left; reflexivity]|].
  assert (X : forall d, define_collections ex_prog d 34 empty_schematic = Running /\ define_collections ex_prog d 35 empty_schematic = Running).
  { induction d as [|d [H1 H2]]; [split; reflexivity|]. split; cbn [define_collections]; cbn [p_schema ex_prog ex_schemas h_colls h_include all_some run_acts includes]; [rewrite H2|rewrite H1]; reflexivity. }
  intros d. exact (proj1 (X d)).
Qed.
Example C93_cycle_example : clos_trans _ (includes_directly ex_prog) 36%N 36%N /\ exists s, define_collections ex_prog 9 36 empty_schematic = Returned s (Some CollectionAlreadyDefined).
Proof.
  split; [apply t_step; eexists; split; [reflexivity|left; reflexivity]|]. remember (define_collections ex_prog 9 36 empty_schematic) as r eqn:E. vm_compute in E. subst r. eexists. reflexivity.
Qed.
(* a view is registered for the collection it names itself: listing it under another one gives
   that one no view, and the schema a view of a collection it does not have *)
Theorem C93_listed_elsewhere_refuted : exists P t c v s, listed P c = [v] /\ brings P t [c] /\ define_collections P 2 t empty_schematic = Returned s None /\
  (exists q, coll_name P c = Some q /\ views_in_collection (code P q) s = []) /\
  exists wa xa q x, p_view P v = Some (wa, xa) /\ coll_name P (w_coll wa) = Some q /\ views_in_collection (code P q) s = [x] /\ key_description (code P q) s = None.
Proof.
  exists ex_prog, 37%N, 12%N, 20%N. remember (define_collections ex_prog 2 37 empty_schematic) as r eqn:E. vm_compute in E. subst r. eexists.
  split; [reflexivity|]. split; [apply (BrSchema ex_prog 37%N (SchemaAttr [121]%N None [12]%N []) []); [reflexivity|constructor]|]. split; [reflexivity|].
  split; [eexists; split; [reflexivity|vm_compute; reflexivity]|]. do 4 eexists. split; [reflexivity|]. split; [reflexivity|]. split; vm_compute; reflexivity.
Qed.
(* #[natural_id] on a field of an enum's variant is not looked at: the type compiles, without a
   natural id and with u64 as its key *)
Theorem C93_enum_natural_refuted : exists a f i, f_natural f = 1 /\ f_ty f <> ty_u64 /\ derive_collection a (Variants [[f]]) = Done i /\ i_pk i = ty_u64 /\ forall expr self, natural_id expr i self = None.
Proof. exists (ex_attr [100]%N []), (Field 7 1). eexists. split; [reflexivity|]. split; [discriminate|]. split; [vm_compute; reflexivity|]. split; reflexivity. Qed.
(* no authority and the authority "private" are the same: two collections can clash without
   either naming the other's authority *)
Theorem C93_private_refuted : exists n, qualified None n = qualified (Some s_private) n.
Proof. exists [100]%N. reflexivity. Qed.
(* In a build with neither feature the checks are not compiled: a collection whose key is
   encryption_required is stored as it is. *)
Theorem C93_plain_build_refuted : exists a d i k, derive_collection a d = Done i /\ a_required a = true /\ a_key a = Some (Some k) /\ key_of false i = Some k /\
  forall s keys, change_settings (Build false false) s (match key_of false i with Some k => Some (keys k) | None => None end) = Done None /\
    forall (P : primitives) nonce p, store_block P None nonce p = Done p.
Proof.
  exists (CollAttr None [98]%N [] None (Some (Some 5%N)) true false None None), (Struct []). eexists. exists 5%N. split; [vm_compute; reflexivity|]. split; [reflexivity|]. split; [reflexivity|]. split; [reflexivity|].
  intros s keys. split; [reflexivity|]. intros P nonce p. reflexivity.
Qed.
Example C93_builds_example : change_settings (Build true false) (Settings None (Some tt)) (Some KMaster) = Done (Some (Settings (Some KMaster) None)) /\
  change_settings (Build false true) (Settings None (Some tt)) (Some KMaster) = Fail EncryptionDisabled /\ tree_settings (Build false true) (Settings None None) (Some KMaster) = Fail EncryptionDisabled.
Proof. repeat split; vm_compute; reflexivity. Qed.

Print Assumptions C93_compiles.
Print Assumptions C93_collection.
Print Assumptions C93_view.
Print Assumptions C93_schema_name.
Print Assumptions C93_schema.
Print Assumptions C93_answers.
Print Assumptions C93_ranked.
Print Assumptions C93_cycle.
Print Assumptions C93_twice.
Print Assumptions C93_file_config.
Print Assumptions C93_file_registered.
Print Assumptions C93_api.
Print Assumptions C93_builds.
Print Assumptions C93_full_build.
Print Assumptions C93_optional.
Print Assumptions C93_required.
Print Assumptions C93_endless_refuted.
Print Assumptions C93_listed_elsewhere_refuted.
Print Assumptions C93_enum_natural_refuted.
Print Assumptions C93_private_refuted.
Print Assumptions C93_plain_build_refuted.
