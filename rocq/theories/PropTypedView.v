(* Property theorems C81: typed view queries. *)
From Verif Require Import Base Key KeySpec KeyProofs KeyOrder KeyMore KeyPrefix DocId Tree View ViewProofs ViewMap Docs DocsProofs DocsSpec DocsMore DocsHist PropDocs
  PropKey Query ViewTotal PropViews PropQuery Typed TypedSpec TypedProofs PropTyped TypedView.
From Coq Require Import ZifyBool Lia Permutation Sorting.Sorted Arith.
Local Open Scope N_scope.

(* ---------- what a map function collects ---------- *)
(* the mappings of a document, however they are put together, are the list of everything
   put in, in that order *)
Lemma push_iter {X} (m : mappings X) x : m_iter (m_push m x) = m_iter m ++ [x].
Proof. destruct m as [[y|]|l]; reflexivity. Qed.
Lemma extend_iter {X} l : forall m : mappings X, m_iter (m_extend m l) = m_iter m ++ l.
Proof.
  unfold m_extend. induction l as [|x l IH]; intros m; cbn [fold_left]; [rewrite app_nil_r; reflexivity|].
  rewrite IH, push_iter, <- app_assoc. reflexivity.
Qed.
Theorem C81_mappings : forall X (m n : mappings X) (x : X) (l : list X) (ms : list (mappings X)),
  m_iter (@m_none X) = [] /\ m_iter (emit x) = [x] /\ (forall b, m_iter (emit_if b x) = if b then [x] else []) /\
  m_iter (m_push m x) = m_iter m ++ [x] /\ m_iter (m_and m n) = m_iter m ++ m_iter n /\ m_iter (m_extend m l) = m_iter m ++ l /\
  m_iter (m_of_list l) = l /\ m_iter (m_concat ms) = concat (map m_iter ms) /\
  m_len m = N.of_nat (length (m_iter m)) /\ (m_is_empty m = true <-> m_iter m = []).
Proof.
  intros X m n x l ms. split; [reflexivity|]. split; [reflexivity|]. split; [intros []; reflexivity|]. split; [apply push_iter|].
  split; [apply extend_iter|]. split; [apply extend_iter|]. split; [apply (extend_iter l m_none)|]. split; [|split].
  - destruct ms as [|m0 ms]; [reflexivity|]. cbn [m_concat map concat]. revert m0. induction ms as [|m1 ms IH]; intros m0; cbn [fold_left map concat]; [rewrite app_nil_r; reflexivity|].
    rewrite IH. unfold m_and. rewrite extend_iter, <- app_assoc. reflexivity.
  - destruct m as [[y|]|k]; reflexivity.
  - unfold m_is_empty. destruct m as [[y|]|[|y k]]; cbn; split; try discriminate; auto; try lia.
Qed.
Example C81_mappings_ex : m_iter (m_concat [emit 1; m_and (emit_if false 2) (m_of_list [3; 4]); m_push m_none 5]) = [1; 3; 4; 5].
Proof. reflexivity. Qed.

(* ---------- vocabulary ---------- *)
(* [e] is the encoding of the view key [k]; its order is the byte order *)
Definition vkey {A B} (V : tview A B) (k : kval) (e : bytes) : Prop :=
  typed (tv_key V) k = true /\ orderable false (tv_key V) k = true /\ encode (tv_key V) k = Done e /\ N.of_nat (length e) < 2 ^ 63.
(* the map function of the view emits the key with the value for the document *)
Definition maps_to {A B} (V : tview A B) (x : tdoc A) (k : kval) (b : B) : Prop := exists m, tv_map V x = Some m /\ In (k, b) (m_iter m).
(* the map function works for all stored documents, with keys and values that can be stored
   and no key twice for one document *)
Definition mappable {A B} (V : tview A B) (s : dbstate) : Prop := forall x, stored (tv_coll V) s x ->
  exists m, tv_map V x = Some m /\ NoDup (map fst (m_iter m)) /\
    forall k b, In (k, b) (m_iter m) -> (exists e, vkey V k e) /\ exists y, tv_ser V b = Some y.
Record usable {A B} (E : env) (V : tview A B) (s : dbstate) : Prop := {
  u_known : known E (tv_coll V);
  u_key : no_sized_option (tv_key V) = true;
  u_value : forall b y, tv_ser V b = Some y -> tv_de V y = Some b;
  u_docs : readable (tv_coll V) s;
  u_maps : mappable V s;
  u_view : In (to_view V) (ev_views E);
  u_current : forall id, ~ pending s (to_view V) id
}.
(* the keys a query asks for *)
Definition from_lo (lo : kbound) (k : kval) : Prop := match lo with KIncluded v => kcmp v k <> Gt | KExcluded v => kcmp v k = Lt | KUnbounded => True end.
Definition to_hi (hi : kbound) (k : kval) : Prop := match hi with KIncluded v => kcmp k v <> Gt | KExcluded v => kcmp k v = Lt | KUnbounded => True end.
Definition wants (q : option tkey) (k : kval) : Prop :=
  match q with
  | None => True
  | Some (TMatches v) => k = v
  | Some (TMultiple vs) => In k vs
  | Some (TRange lo hi) => from_lo lo k /\ to_hi hi k
  end.
Definition bound_key (b : kbound) : list kval := match b with KIncluded v | KExcluded v => [v] | KUnbounded => [] end.
Definition query_keys (q : option tkey) : list kval :=
  match q with None => [] | Some (TMatches v) => [v] | Some (TMultiple vs) => vs | Some (TRange lo hi) => bound_key lo ++ bound_key hi end.
Definition query_ok {A B} (V : tview A B) (q : option tkey) : Prop :=
  (forall v, In v (query_keys q) -> exists e, vkey V v e) /\ match q with Some (TMultiple vs) => NoDup vs | _ => True end.
Definition by_range (q : option tkey) : bool := match q with None | Some (TRange _ _) => true | _ => false end.

(* exactly the keys and values that the stored documents map to and the query asks for,
   each once, in the order of their keys *)
Definition answer {A B} (V : tview A B) (s : dbstate) (q : option tkey) (asc : bool) (all : list (tmap B)) : Prop :=
  (forall t, In t all <-> wants q (tm_key t) /\ exists x, stored (tv_coll V) s x /\ td_header x = tm_src t /\ maps_to V x (tm_key t) (tm_value t)) /\
  NoDup (map (fun t => (tm_key t, th_id (tm_src t))) all) /\
  StronglySorted (fun t u => if asc || negb (by_range q) then kcmp (tm_key t) (tm_key u) <> Gt else kcmp (tm_key u) (tm_key t) <> Gt) all.

(* ---------- lemmas ---------- *)
Lemma vrd {A B} (V : tview A B) k e : no_sized_option (tv_key V) = true -> vkey V k e -> decode (tv_key V) e = Done k.
Proof. intros NS (T & _ & X & L). exact (roundtrip _ _ _ NS T X L). Qed.
Lemma vinj {A B} (V : tview A B) k k' e : no_sized_option (tv_key V) = true -> vkey V k e -> vkey V k' e -> k = k'.
Proof. intros NS X Y. pose proof (vrd V _ _ NS X). pose proof (vrd V _ _ NS Y). congruence. Qed.
Lemma vfun {A B} (V : tview A B) k e e' : vkey V k e -> vkey V k e' -> e = e'.
Proof. intros (_ & _ & X & _) (_ & _ & Y & _). congruence. Qed.
Lemma vcmp {A B} (V : tview A B) k k' e e' : vkey V k e -> vkey V k' e' -> lex e e' = kcmp k k'.
Proof. intros (T & O & X & _) (T' & O' & X' & _). exact (C04_key_order _ _ _ _ _ T T' O O' X X'). Qed.
Lemma collect_ok {X Y F} (R : X -> Y -> Prop) (f : X -> outcome Y F) l : (forall x, In x l -> exists y, R x y) -> (forall x y, R x y -> f x = Done y) ->
  exists ys, collect f l = Done ys /\ Forall2 R l ys.
Proof.
  intros H G. induction l as [|x l IH]; [exists []; split; [reflexivity|constructor]|]. destruct (H x (or_introl eq_refl)) as [y Q].
  destruct IH as (ys & C & F2); [intros z I; apply H; right; exact I|]. exists (y :: ys). cbn [collect]. rewrite (G _ _ Q), C. split; [reflexivity|constructor; assumption].
Qed.
Lemma collect_eq {X Y F} (R : X -> Y -> Prop) (f : X -> outcome Y F) l ys : Forall2 R l ys -> (forall x y, R x y -> f x = Done y) -> collect f l = Done ys.
Proof. intros F2 G. induction F2 as [|x y l ys Q F2 IH]; [reflexivity|]. cbn [collect]. rewrite (G _ _ Q), IH. reflexivity. Qed.
Lemma collect_inv {X Y F} (f : X -> outcome Y F) l : forall ys, collect f l = Done ys -> Forall2 (fun x y => f x = Done y) l ys.
Proof.
  induction l as [|x l IH]; intros ys H; cbn [collect] in H; [injection H as <-; constructor|].
  destruct (f x) as [y| |] eqn:Q; try discriminate. destruct (collect f l) as [zs| |]; try discriminate. injection H as <-. constructor; auto.
Qed.
Lemma stored_doc {A} E (C : collection A) s i d : env_ok E -> reach E s -> known E C -> readable C s -> doc_at s (co_name C) i = Some d ->
  exists x, typed_doc C d = Done x /\ stored C s x /\ is_id C (th_id (td_header x)) i /\ orderable false (co_key C) (th_id (td_header x)) = true /\ d_header d = mk_header i (th_rev (td_header x)).
Proof.
  intros EO R KN RD G. destruct (RD i d G) as (v & a & I & O & DE). pose proof (at_id _ _ _ _ _ EO R G) as W.
  exists (mk_td (mk_th v (rev_of d)) a). cbn [td_header th_id th_rev td_contents]. split; [|split; [|split; [exact I|split; [exact O|rewrite W; reflexivity]]]].
  - unfold typed_doc. rewrite DE, W. cbn [d_header]. rewrite (th_ok C v i _ (proj2 KN) I). reflexivity.
  - exists i, (d_contents d). cbn [td_header th_id td_contents th_rev]. split; [exact I|]. split; [exact DE|]. rewrite G. f_equal. exact W.
Qed.
Lemma doc_stored {A} E (C : collection A) s x : known E C -> stored C s x ->
  exists i d, doc_at s (co_name C) i = Some d /\ typed_doc C d = Done x /\ is_id C (th_id (td_header x)) i /\ d_header d = mk_header i (th_rev (td_header x)).
Proof.
  intros KN (i & b & I & DE & G). eexists i, _. split; [exact G|]. split; [|split; [exact I|reflexivity]]. unfold typed_doc. cbn [d_contents d_header].
  rewrite DE, (th_ok C _ i _ (proj2 KN) I). destruct x as [[v r] a]. reflexivity.
Qed.

Section Query.
  Context {A B : Type} (E : env) (V : tview A B) (s : dbstate) (EO : env_ok E) (R : reach E s) (U : usable E V s).
  Let C := tv_coll V.
  Let v := to_view V.
  Lemma ser_ok x m d : typed_doc C d = Done x -> tv_map V x = Some m -> (forall k b, In (k, b) (m_iter m) -> (exists e, vkey V k e) /\ exists y, tv_ser V b = Some y) ->
    exists l, vd_map (vw_def v) d = Some l /\ Forall2 (fun p q => vkey V (fst p) (fst q) /\ tv_ser V (snd p) = Some (snd q)) (m_iter m) l.
  Proof.
    intros T M K. cbn [v to_view vw_def vd_map]. unfold ser_map. fold C. rewrite T, M.
    destruct (collect_ok (fun p q => vkey V (fst p) (fst q) /\ tv_ser V (snd p) = Some (snd q)) (ser_pair V) (m_iter m)) as (l & X & F).
    - intros [k b] I. destruct (K k b I) as ((e & X) & (y & Y)). exists (e, y). auto.
    - intros [k b] [e y] [(X1 & X2 & X3 & X4) Y]. cbn [fst snd] in *. unfold ser_pair. cbn [fst snd]. rewrite X3, Y. reflexivity.
    - rewrite X. eauto.
  Qed.
  Lemma once : emits_once v s.
  Proof.
    intros i d G. change (vw_coll v) with (co_name C) in G. destruct (stored_doc E C s i d EO R (u_known _ _ _ U) (u_docs _ _ _ U) G) as (x & T & ST & _).
    destruct (u_maps _ _ _ U x ST) as (m & M & ND & K). destruct (ser_ok x m d T M K) as (l & X & F). exists l. split; [exact X|].
    clear - F ND U. induction F as [|p q ps qs [X Y] F IH]; [constructor|]. cbn [map] in *. inversion_clear ND as [|? ? N1 N2]. constructor; [|apply IH, N2].
    intros I. apply N1. apply in_map_iff in I. destruct I as (q' & Z & I). destruct (Forall2_in_r _ _ _ _ F I) as (p' & J & W & _). rewrite Z in W.
    rewrite (vinj V _ _ _ (u_key _ _ _ U) X W). apply in_map, J.
  Qed.
  (* a stored mapping and what the caller gets for it *)
  Definition rel (m : emission) (t : tmap B) : Prop :=
    (exists x, stored C s x /\ td_header x = tm_src t /\ maps_to V x (tm_key t) (tm_value t)) /\
    vkey V (tm_key t) (em_key m) /\ tv_ser V (tm_value t) = Some (em_value m) /\
    is_id C (th_id (tm_src t)) (h_id (em_src m)) /\ th_rev (tm_src t) = h_rev (em_src m) /\ orderable false (co_key C) (th_id (tm_src t)) = true.
  Lemma rel_done m t : rel m t -> typed_mapping V m = Done t.
  Proof.
    intros (_ & K & VA & I & RV & _). unfold typed_mapping. rewrite (vrd V _ _ (u_key _ _ _ U) K), (u_value _ _ _ U _ _ VA).
    destruct (em_src m) as [i r]. cbn [h_id h_rev] in *. fold C. rewrite (th_ok C _ i r (proj2 (u_known _ _ _ U)) I). destruct t as [[id rv] k b]. cbn in *. subst. reflexivity.
  Qed.
  Lemma rel_fun m m' t : rel m t -> rel m' t -> m = m'.
  Proof.
    intros (_ & K & VA & I & RV & _) (_ & K' & VA' & I' & RV' & _). destruct m as [e [i r] y], m' as [e' [i' r'] y']. cbn [em_key em_src em_value h_id h_rev] in *.
    pose proof (vfun V _ _ _ K K'). pose proof (same_id C _ _ _ I (proj1 (proj2 I'))). congruence.
  Qed.
  Lemma rel_inj m t t' : rel m t -> rel m t' -> t = t'.
  Proof. intros X Y. apply rel_done in X, Y. congruence. Qed.
  Lemma raw_all : exists raw, query anyone s v None true None = Done raw /\
    (forall m, In m raw -> exists t, rel m t) /\
    (forall x k b, stored C s x -> maps_to V x k b -> exists m, In m raw /\ rel m (mk_tm (td_header x) k b)) /\
    NoDup (map (fun m => (em_key m, h_id (em_src m))) raw).
  Proof.
    eexists. split; [reflexivity|]. set (raw := flat_map _ _).
    destruct (C28_exact E s v raw EO R (u_view _ _ _ U) (u_current _ _ _ U) once eq_refl) as [X ND].
    change (vw_coll v) with (co_name C) in X. split; [|split; [|exact ND]].
    - intros [e h y] I. apply X in I. destruct I as (d & G & HD & l & M & J).
      destruct (stored_doc E C s _ d EO R (u_known _ _ _ U) (u_docs _ _ _ U) G) as (x & T & ST & ID & O & HX).
      destruct (u_maps _ _ _ U x ST) as (m & TM & _ & K). destruct (ser_ok x m d T TM K) as (l' & M' & F). rewrite M in M'. injection M' as <-.
      destruct (Forall2_in_r _ _ _ _ F J) as ([k b] & I & VK & VS). cbn [fst snd] in *.
      exists (mk_tm (td_header x) k b). unfold rel. cbn [tm_src tm_key tm_value em_key em_src em_value]. split; [exists x; split; [exact ST|split; [reflexivity|exists m; auto]]|].
      split; [exact VK|]. split; [exact VS|]. split; [exact ID|]. split; [|exact O]. rewrite <- HD, HX. reflexivity.
    - intros x k b ST (m & TM & I). destruct (doc_stored E C s x (u_known _ _ _ U) ST) as (i & d & G & T & ID & HX).
      destruct (u_maps _ _ _ U x ST) as (m' & TM' & _ & K). rewrite TM in TM'. injection TM' as <-. destruct (ser_ok x m d T TM K) as (l & M & F).
      destruct (Forall2_in_l _ _ _ _ F I) as ([e y] & J & VK & VS). cbn [fst snd] in *.
      exists (mk_em e (d_header d) y). split.
      + apply X. exists d. rewrite HX. cbn [h_id]. split; [exact G|]. split; [reflexivity|]. exists l. auto.
      + unfold rel. cbn [tm_src tm_key tm_value em_key em_src em_value]. split; [exists x; split; [exact ST|split; [reflexivity|exists m; auto]]|].
        split; [exact VK|]. split; [exact VS|]. rewrite HX. cbn [h_id h_rev]. split; [exact ID|]. split; [reflexivity|].
        destruct (u_docs _ _ _ U i d G) as (w & a & IW & OW & _). pose proof (rd C _ _ (proj2 (u_known _ _ _ U)) ID) as Z1. pose proof (rd C _ _ (proj2 (u_known _ _ _ U)) IW) as Z2.
        assert (Z : th_id (td_header x) = w) by congruence. rewrite Z. exact OW.
  Qed.
  Lemma nodup_groups (l : list emission) : (forall k, NoDup (map (fun m => (em_key m, h_id (em_src m))) (at_k k l))) -> NoDup (map (fun m => (em_key m, h_id (em_src m))) l).
  Proof.
    induction l as [|m l IH]; intros H; [constructor|]. cbn [map]. constructor.
    - intros I. specialize (H (em_key m)). unfold at_k in H. cbn [filter] in H. rewrite bytes_eqb_refl in H. inversion_clear H as [|? ? H1 _]. apply H1.
      apply in_map_iff in I. destruct I as (m' & X & I). rewrite <- X. apply in_map_iff. exists m'. split; [reflexivity|]. apply filter_In. split; [exact I|].
      injection X as X _. rewrite X. apply bytes_eqb_refl.
    - apply IH. intros k. specialize (H k). unfold at_k in H. cbn [filter] in H. destruct (bytes_eqb k (em_key m)); [|exact H]. inversion_clear H. assumption.
  Qed.
  (* the query in bytes *)
  Lemma key_bytes_ok k e : vkey V k e -> key_bytes (tv_key V) k = Done e.
  Proof. intros (_ & _ & X & _). unfold key_bytes. rewrite X. reflexivity. Qed.
  Lemma query_bytes q : query_ok V q -> exists q', with_query (tv_key V) q (fun q' => Done q') = Done q' /\ distinct q' /\ is_range q' = by_range q /\
    forall k e, vkey V k e -> (asks q' e = true <-> wants q k).
  Proof.
    intros [K ND]. destruct q as [[u|us|lo hi]|]; cbn [with_query serialize_key query_keys] in *.
    - destruct (K u (or_introl eq_refl)) as [e X]. rewrite (key_bytes_ok _ _ X). eexists. split; [reflexivity|]. split; [exact Logic.I|]. split; [reflexivity|].
      intros k e' Y. cbn [asks wants]. rewrite bytes_eqb_spec. split; [intros ->; exact (vinj V _ _ _ (u_key _ _ _ U) Y X)|intros ->; exact (vfun V _ _ _ Y X)].
    - destruct (collect_ok (fun k e => vkey V k e) (key_bytes (tv_key V)) us K key_bytes_ok) as (es & X & F). rewrite X. eexists. split; [reflexivity|]. split; [|split; [reflexivity|]].
      + cbn [distinct]. clear K X. induction F as [|k e ks es X F IH]; [constructor|]. inversion_clear ND as [|? ? N1 N2]. constructor; [|apply IH, N2].
        intros I. apply N1. destruct (Forall2_in_r _ _ _ _ F I) as (k' & J & Y). rewrite (vinj V _ _ _ (u_key _ _ _ U) X Y). exact J.
      + intros k e Y. cbn [asks wants]. rewrite mem_In. split; intros I.
        * destruct (Forall2_in_r _ _ _ _ F I) as (k' & J & Z). rewrite (vinj V _ _ _ (u_key _ _ _ U) Y Z). exact J.
        * destruct (Forall2_in_l _ _ _ _ F I) as (e' & J & Z). rewrite (vfun V _ _ _ Y Z). exact J.
    - assert (LEB : forall k e k' e', vkey V k e -> vkey V k' e' -> (lex_leb e e' = true <-> kcmp k k' <> Gt) /\ (lex_ltb e e' = true <-> kcmp k k' = Lt)).
      { intros k e k' e' X Y. unfold lex_leb, lex_ltb. rewrite (vcmp V _ _ _ _ X Y). destruct (kcmp k k'); split; split; congruence. }
      assert (LO : exists l, bound_bytes (tv_key V) lo = Done l /\ forall k e, vkey V k e -> (match l with Unbounded => True | Included b => lex_leb b e = true | Excluded b => lex_ltb b e = true end <-> from_lo lo k)).
      { destruct lo as [u|u|]; cbn [bound_bytes bound_key] in *; [| |exists Unbounded; split; [reflexivity|intros; cbn; tauto]];
        destruct (K u (or_introl eq_refl)) as [e X]; rewrite (key_bytes_ok _ _ X); eexists; (split; [reflexivity|]); intros k e' Y; cbn [from_lo]; apply (LEB _ _ _ _ X Y). }
      assert (HI : exists h, bound_bytes (tv_key V) hi = Done h /\ forall k e, vkey V k e -> (match h with Unbounded => True | Included b => lex_leb e b = true | Excluded b => lex_ltb e b = true end <-> to_hi hi k)).
      { assert (K' : forall u, In u (bound_key hi) -> exists e, vkey V u e) by (intros u I; apply K, in_or_app; right; exact I).
        destruct hi as [u|u|]; cbn [bound_bytes bound_key] in *; [| |exists Unbounded; split; [reflexivity|intros; cbn; tauto]];
        destruct (K' u (or_introl eq_refl)) as [e X]; rewrite (key_bytes_ok _ _ X); eexists; (split; [reflexivity|]); intros k e' Y; cbn [to_hi]; apply (LEB _ _ _ _ Y X). }
      destruct LO as (l & -> & L), HI as (h & -> & HH). eexists. split; [reflexivity|]. split; [exact Logic.I|]. split; [reflexivity|].
      intros k e Y. cbn [asks wants]. rewrite <- (L k e Y), <- (HH k e Y). unfold in_bounds. rewrite andb_true_iff. destruct l, h; intuition auto.
    - exists None. split; [reflexivity|]. split; [exact Logic.I|]. split; [reflexivity|]. intros; cbn; tauto.
  Qed.
  Lemma with_query_ok {T} q q' (f : option qkey -> outcome T cerr) : with_query (tv_key V) q (fun q' => Done q') = Done q' -> with_query (tv_key V) q f = f q'.
  Proof. destruct q as [k|]; cbn [with_query]; [|intros [= <-]; reflexivity]. destruct (serialize_key (tv_key V) k); intros [=]; subst; reflexivity. Qed.
  Lemma query_full q q' asc : query_ok V q -> with_query (tv_key V) q (fun q' => Done q') = Done q' -> distinct q' -> is_range q' = by_range q ->
    (forall k e, vkey V k e -> (asks q' e = true <-> wants q k)) ->
    exists ms all, query anyone s v q' asc None = Done ms /\ Forall2 rel ms all /\ answer V s q asc all.
  Proof.
    intros QO WQ D IR AS. destruct raw_all as (raw & RW & R1 & R2 & ND).
    eexists. set (ms := flat_map entry_mappings (view_entries (entries_of s v) q' asc None)).
    assert (Q : query anyone s v q' asc None = Done ms) by reflexivity.
    pose proof (C31_exact E s v q' asc ms raw EO R (u_view _ _ _ U) D Q RW) as EX.
    pose proof (C31_order E s v q' asc ms EO R (u_view _ _ _ U) D Q) as OR.
    assert (IN : forall m, In m ms <-> In m raw /\ asks q' (em_key m) = true).
    { intros m. assert (W : forall l, In m l <-> In m (at_k (em_key m) l)).
      { intros l. unfold at_k. rewrite filter_In, bytes_eqb_refl. tauto. }
      rewrite (W ms), (W raw), EX. destruct (asks q' (em_key m)); [tauto|]. cbn. split; [tauto|intros [_ [=]]]. }
    assert (NDM : NoDup (map (fun m => (em_key m, h_id (em_src m))) ms)).
    { apply nodup_groups. intros k. rewrite EX. destruct (asks q' k); [|constructor]. clear - ND. unfold at_k. induction raw as [|m r IH]; [constructor|].
      cbn [map filter] in *. inversion_clear ND as [|? ? N1 N2]. destruct (bytes_eqb k (em_key m)); [|auto]. cbn [map]. constructor; [|auto].
      intros I. apply N1. apply in_map_iff in I. destruct I as (m' & X & I). apply filter_In in I. rewrite <- X. apply (in_map (fun m => (em_key m, h_id (em_src m)))), I. }
    destruct (collect_ok rel (typed_mapping V) ms) as (all & _ & F); [intros m I; apply IN in I; apply R1, I|apply rel_done|].
    exists all. split; [exact Q|]. split; [exact F|]. split; [|split].
    - intros t. split.
      + intros I. destruct (Forall2_in_r _ _ _ _ F I) as (m & J & RL). pose proof RL as (X & K & _). split; [|exact X]. apply (AS _ _ K), IN, J.
      + intros [W (x & ST & HX & MT)]. destruct (R2 x (tm_key t) (tm_value t) ST MT) as (m & J & RL). rewrite HX in RL. replace (mk_tm (tm_src t) (tm_key t) (tm_value t)) with t in RL by (destruct t; reflexivity).
        assert (I : In m ms) by (apply IN; split; [exact J|]; apply (AS _ _ (proj1 (proj2 RL))), W).
        destruct (Forall2_in_l _ _ _ _ F I) as (t' & K & RL'). rewrite (rel_inj m t t' RL RL'). exact K.
    - clear - F NDM U. induction F as [|m t ms all X F IH]; [constructor|]. cbn [map] in *. inversion_clear NDM as [|? ? N1 N2]. constructor; [|apply IH, N2].
      intros I. apply N1. apply in_map_iff in I. destruct I as (t' & Z & I). injection Z as Z1 Z2. destruct (Forall2_in_r _ _ _ _ F I) as (m' & J & Y).
      destruct X as (_ & K & _ & ID & _). destruct Y as (_ & K' & _ & ID' & _). rewrite Z1 in K'. rewrite Z2 in ID'.
      apply in_map_iff. exists m'. split; [|exact J]. rewrite (vfun V _ _ _ K K'), (same_id C _ _ _ ID' (proj1 (proj2 ID))). reflexivity.
    - rewrite IR in OR. clear - F OR. induction F as [|m t ms all X F IH]; [constructor|]. cbn [map] in OR. inversion_clear OR as [|? ? O1 O2]. constructor; [apply IH, O1|].
      apply Forall_forall. intros t' I. destruct (Forall2_in_r _ _ _ _ F I) as (m' & J & Y). rewrite Forall_forall in O2. specialize (O2 (em_key m') (in_map em_key _ _ J)).
      destruct X as (_ & K & _). destruct Y as (_ & K' & _). rewrite <- (vcmp V _ _ _ _ K K'), <- (vcmp V _ _ _ _ K' K). exact O2.
  Qed.
End Query.

(* ---------- queries ---------- *)
Theorem C81_query : forall A B E (V : tview A B) s q asc, env_ok E -> reach E s -> usable E V s -> query_ok V q ->
  exists all, tquery anyone V s q asc None = Done all /\ answer V s q asc all.
Proof.
  intros A B E V s q asc EO R U QO. destruct (query_bytes E V s U q QO) as (q' & WQ & D & IR & AS).
  destruct (query_full E V s EO R U q q' asc QO WQ D IR AS) as (ms & all & Q & F & AN). exists all. split; [|exact AN].
  unfold tquery. rewrite (with_query_ok V q q' _ WQ), Q. apply (collect_eq _ _ _ _ F). intros m t. apply (rel_done E V s U).
Qed.
(* a limit on a range keeps the results of the first n keys *)
Theorem C81_limit : forall A B E (V : tview A B) s q asc n all, env_ok E -> reach E s -> usable E V s -> query_ok V q -> by_range q = true ->
  tquery anyone V s q asc None = Done all ->
  exists ml rest ks, tquery anyone V s q asc (Some n) = Done ml /\ all = ml ++ rest /\
    NoDup ks /\ (forall k, In k ks <-> In k (map tm_key ml)) /\ (length ks <= N.to_nat n)%nat /\ (rest <> [] -> length ks = N.to_nat n) /\
    (forall t, In t rest -> ~ In (tm_key t) ks).
Proof.
  intros A B E V s q asc n all EO R U QO BR TQ. destruct (query_bytes E V s U q QO) as (q' & WQ & D & IR & AS).
  destruct (query_full E V s EO R U q q' asc QO WQ D IR AS) as (ms & all' & Q & F & AN).
  assert (all' = all).
  { unfold tquery in TQ. rewrite (with_query_ok V q q' _ WQ), Q in TQ. rewrite (collect_eq _ _ _ _ F (fun m t => rel_done E V s U m t)) in TQ. congruence. }
  subst all'. rewrite BR in IR.
  set (ml0 := flat_map entry_mappings (view_entries (entries_of s (to_view V)) q' asc (Some n))).
  assert (QL : query anyone s (to_view V) q' asc (Some n) = Done ml0) by reflexivity.
  destruct (C31_limit_keys E s (to_view V) q' asc n ml0 ms EO R (u_view _ _ _ U) IR QL Q) as (rest0 & ks0 & SP & ND & KS & LE & FU & DJ).
  clearbody ml0. subst ms. apply Forall2_app_inv_l in F. destruct F as (ml & rest & F1 & F2 & ->).
  assert (FK : exists ks, Forall2 (fun e k => vkey V k e /\ In k (map tm_key ml)) ks0 ks).
  { clear - KS F1. assert (H : forall e, In e ks0 -> exists k, vkey V k e /\ In k (map tm_key ml)).
    { intros e I. apply KS in I. apply in_map_iff in I. destruct I as (m & <- & I). destruct (Forall2_in_l _ _ _ _ F1 I) as (t & J & RL). exists (tm_key t). split; [apply RL|apply in_map, J]. }
    clear KS. induction ks0 as [|e r IH]; [exists []; constructor|]. destruct (H e (or_introl eq_refl)) as [k K]. destruct IH as [ks X]; [intros; apply H; right; assumption|]. exists (k :: ks). constructor; assumption. }
  destruct FK as [ks FK]. exists ml, rest, ks.
  assert (LEN : length ks = length ks0) by (clear - FK; induction FK; cbn; congruence).
  assert (INK : forall k e, vkey V k e -> (In k ks <-> In e ks0)).
  { intros k e K. split; intros I.
    - destruct (Forall2_in_r _ _ _ _ FK I) as (e' & J & K' & _). rewrite (vfun V _ _ _ K K'). exact J.
    - destruct (Forall2_in_l _ _ _ _ FK I) as (k' & J & K' & _). rewrite (vinj V _ _ _ (u_key _ _ _ U) K K'). exact J. }
  split; [|split; [reflexivity|split; [|split; [|split; [lia|split]]]]].
  - unfold tquery. rewrite (with_query_ok V q q' _ WQ), QL. apply (collect_eq _ _ _ _ F1). intros m t. apply (rel_done E V s U).
  - clear - FK ND U. induction FK as [|e k es ks [K _] F IH]; [constructor|]. inversion_clear ND as [|? ? N1 N2]. constructor; [|apply IH, N2].
    intros I. apply N1. destruct (Forall2_in_r _ _ _ _ F I) as (e' & J & K' & _). rewrite (vfun V _ _ _ K K'). exact J.
  - intros k. split; intros I.
    + destruct (Forall2_in_r _ _ _ _ FK I) as (e & _ & _ & J). exact J.
    + apply in_map_iff in I. destruct I as (t & <- & I). destruct (Forall2_in_r _ _ _ _ F1 I) as (m & J & RL). apply (INK _ _ (proj1 (proj2 RL))), KS, in_map, J.
  - intros NE. rewrite LEN. apply FU. intros ->. apply NE. inversion F2. reflexivity.
  - intros t I J. destruct (Forall2_in_r _ _ _ _ F2 I) as (m & K & RL). apply (DJ m K). apply (INK _ _ (proj1 (proj2 RL))), J.
Qed.
(* the builder: of several settings the last one of a kind counts *)
Theorem C81_configure : forall A B p (V : tview A B) s l x, ventries p V s (l ++ [x]) =
  let c := vconfigure l in
  match x with
  | WithKey k => tquery p V s (Some (TMatches k)) (vq_asc c) (vq_limit c)
  | WithKeys ks => tquery p V s (Some (TMultiple ks)) (vq_asc c) (vq_limit c)
  | WithRange r => tquery p V s (Some (TRange (fst (range_bounds r)) (snd (range_bounds r)))) (vq_asc c) (vq_limit c)
  | InOrder b => tquery p V s (vq_key c) b (vq_limit c)
  | AtMost n => tquery p V s (vq_key c) (vq_asc c) (Some n)
  end.
Proof. intros A B p V s l x. unfold ventries, vconfigure. rewrite fold_left_app. destruct x; reflexivity. Qed.
Theorem C81_range : forall r k, wants (Some (TRange (fst (range_bounds r)) (snd (range_bounds r)))) k <-> in_range r k.
Proof. intros [a b|a|b|a b|b|] k; cbn; tauto. Qed.
Theorem C81_entries : forall A B p (V : tview A B) s, ventries p V s [] = tquery p V s None true None.
Proof. reflexivity. Qed.

(* ---------- with documents ---------- *)
Definition good_keys (K : kval -> Prop) : Prop := forall x y, K x -> K y -> (kcmp x y = Eq <-> x = y).
Lemma bt_insert_keys {D} (K : kval -> Prop) k (d : D) l : K k -> Forall (fun p => K (fst p)) l -> Forall (fun p => K (fst p)) (bt_insert k d l).
Proof.
  intros KK. induction 1 as [|[j e] l X F IH]; cbn [bt_insert]; [constructor; [exact KK|constructor]|]. destruct (kcmp k j); constructor; try assumption; constructor; assumption.
Qed.
Lemma bt_get_insert {D} (K : kval -> Prop) k j (d : D) l : good_keys K -> K k -> K j -> Forall (fun p => K (fst p)) l ->
  (k = j -> bt_get k (bt_insert j d l) = Some d) /\ (k <> j -> bt_get k (bt_insert j d l) = bt_get k l).
Proof.
  intros GK KK KJ. induction 1 as [|[i e] l X F IH]; cbn [bt_insert].
  - split; intros H; cbn [bt_get].
    + rewrite (proj2 (GK k j KK KJ) H). reflexivity.
    + destruct (kcmp k j) eqn:Q; [|reflexivity..]. apply (GK k j KK KJ) in Q. contradiction.
  - cbn [fst] in X. destruct IH as [I1 I2]. destruct (kcmp j i) eqn:Q.
    + apply (GK j i KJ X) in Q. subst i. split; intros H; cbn [bt_get].
      * rewrite (proj2 (GK k j KK KJ) H). reflexivity.
      * destruct (kcmp k j) eqn:Q; [|reflexivity..]. apply (GK k j KK KJ) in Q. contradiction.
    + split; intros H; cbn [bt_get].
      * rewrite (proj2 (GK k j KK KJ) H). reflexivity.
      * destruct (kcmp k j) eqn:Q'; [|reflexivity..]. apply (GK k j KK KJ) in Q'. contradiction.
    + split; intros H; cbn [bt_get].
      * destruct (kcmp k i) eqn:Q'; [|apply I1, H..]. subst k. rewrite Q' in Q. discriminate.
      * destruct (kcmp k i); [reflexivity|apply I2, H..].
Qed.
Lemma bt_of_get {D} (K : kval -> Prop) (l : list (kval * D)) k d : good_keys K -> Forall (fun p => K (fst p)) l ->
  (forall j e e', In (j, e) l -> In (j, e') l -> e = e') -> In (k, d) l -> bt_get k (bt_of l) = Some d.
Proof.
  intros GK F FU I. unfold bt_of.
  assert (G : forall t, Forall (fun p => K (fst p)) t -> (In (k, d) l \/ bt_get k t = Some d) ->
    bt_get k (fold_left (fun t p => bt_insert (fst p) (snd p) t) l t) = Some d).
  { assert (KK : K k) by (rewrite Forall_forall in F; apply (F _ I)). assert (FU' : forall e, In (k, e) l -> e = d) by (intros e J; eapply FU; eassumption). clear FU I.
    induction F as [|[j e] l X F IH]; intros t T H; cbn [fold_left fst snd].
    - destruct H as [[]|H]. exact H.
    - cbn [fst] in X. apply IH; [intros e' J; apply FU'; right; exact J|apply bt_insert_keys; assumption|]. destruct (bt_get_insert K k j e t GK KK X T) as [B1 B2].
      destruct H as [[H|H]|H].
      + injection H as -> ->. right. apply B1. reflexivity.
      + left. exact H.
      + right. assert (Q : kcmp k j = Eq \/ kcmp k j <> Eq) by (destruct (kcmp k j); [left; reflexivity|right; discriminate..]).
        destruct Q as [Q|Q].
        * apply (GK k j KK X) in Q. subst j. rewrite B1 by reflexivity. f_equal. apply FU'. left. reflexivity.
        * rewrite B2; [exact H|]. intros ->. apply Q, (GK j j KK KK). reflexivity. }
  apply G; [constructor|left; exact I].
Qed.
Lemma drain_spec {D B} (m : mapped_docs D B) (P : tmap B -> kval * B * D -> Prop) :
  (forall i t, nth_error (md_maps m) i = Some t -> exists x, md_get m i = Done (Some x) /\ P t x) ->
  exists l, md_iter m = Done l /\ Forall2 P (md_maps m) l.
Proof.
  intros H. unfold md_iter.
  assert (G : forall r i pre, md_maps m = pre ++ r -> length pre = i -> exists l, md_drain (S (length r)) m i = Done l /\ Forall2 P r l).
  { induction r as [|t r IH]; intros i pre X L.
    - exists []. split; [|constructor]. cbn [md_drain length]. unfold md_get. rewrite app_nil_r in X. rewrite X, (proj2 (nth_error_None pre i)) by lia. reflexivity.
    - destruct (H i t) as (x & G & PX). { rewrite X, nth_error_app2 by lia. replace (i - length pre)%nat with 0%nat by lia. reflexivity. }
      destruct (IH (S i) (pre ++ [t])) as (l & DL & F). { rewrite <- app_assoc. exact X. } { rewrite app_length. cbn. lia. }
      exists (x :: l). split; [|constructor; assumption]. change (length (t :: r)) with (S (length r)). cbn [md_drain] in DL |- *. rewrite G. cbn [md_drain]. rewrite DL. reflexivity. }
  apply (G (md_maps m) 0%nat []); reflexivity.
Qed.
Lemma get_multiple_in E p s c ids : env_ok E -> reach E s -> (forall i, In i ids -> p ActGet c (Some i) = true) ->
  exists ds, get_multiple p s c ids = Done ds /\ forall d, In d ds <-> In (h_id (d_header d)) ids /\ doc_at s c (h_id (d_header d)) = Some d.
Proof.
  intros EO R P. unfold get_multiple. rewrite (proj2 (forallb_forall _ _)) by exact P. eexists. split; [reflexivity|].
  intros d. pose proof (get_multiple_perm (w_docs (db_work s) c) ids) as PM.
  assert (X : In d (get_multiple_tree (w_docs (db_work s) c) ids) <->
    In d (flat_map (fun i => match t_get i (w_docs (db_work s) c) with Some v => [v] | None => [] end) ids))
    by (split; intros J; (eapply Permutation_in; [|exact J]); [exact PM|symmetry; exact PM]).
  rewrite X, in_flat_map. split.
  - intros (i & J1 & J2). destruct (t_get i (w_docs (db_work s) c)) as [d'|] eqn:T; [|destruct J2]. destruct J2 as [->|[]].
    pose proof (reach_id E s c i d EO R T) as Y. rewrite Y. auto.
  - intros [J T]. exists (h_id (d_header d)). split; [exact J|]. unfold doc_at in T. rewrite T. left. reflexivity.
Qed.
Lemma rel_any {A B} E (V : tview A B) s q asc lim all : env_ok E -> reach E s -> usable E V s -> query_ok V q ->
  tquery anyone V s q asc lim = Done all -> exists ms, Forall2 (rel V s) ms all.
Proof.
  intros EO R U QO TQ. destruct (query_bytes E V s U q QO) as (q' & WQ & D & IR & AS).
  destruct (query_full E V s EO R U q q' asc QO WQ D IR AS) as (ms & all' & Q & F & AN).
  unfold tquery in TQ. rewrite (with_query_ok V q q' _ WQ) in TQ.
  destruct (query anyone s (to_view V) q' asc lim) as [ml| |] eqn:QL; try discriminate. exists ml.
  assert (SUB : forall m, In m ml -> In m ms).
  { unfold query, anyone in QL, Q. injection QL as <-. injection Q as <-. intros m I. apply in_flat_map in I. destruct I as (e & I & J). apply in_flat_map. exists e. split; [|exact J].
    destruct lim as [n|]; [|exact I]. destruct q' as [[lo hi|k|ks]|]; try exact I; cbn [view_entries] in I |- *; unfold scan in I |- *; revert I;
    match goal with |- In e (firstn ?k ?l) -> _ => intros I; rewrite <- (firstn_skipn k l); apply in_or_app; left; exact I end. }
  destruct (collect_ok (rel V s) (typed_mapping V) ml) as (all2 & C2 & F2).
  - intros m I. destruct (Forall2_in_l _ _ _ _ F (SUB m I)) as (t & _ & X). eauto.
  - intros m t. apply (rel_done E V s U).
  - rewrite C2 in TQ. injection TQ as <-. exact F2.
Qed.
(* each result comes with its document: the one with the header of the result's source *)
Theorem C81_with_docs : forall A B E ps (V : tview A B) s q asc lim all, env_ok E -> reach E s -> usable E V s -> query_ok V q ->
  (forall i, ps ActGet (co_name (tv_coll V)) (Some i) = true) -> tquery anyone V s q asc lim = Done all ->
  exists m m', tquery_with_docs anyone ps V s q asc lim = Done m /\ tquery_with_collection_docs anyone ps V s q asc lim = Done m' /\
    md_maps m = all /\ md_maps m' = all /\
    (forall i t, nth_error all i = Some t -> exists d x, md_get m i = Done (Some (tm_key t, tm_value t, d)) /\ md_get m' i = Done (Some (tm_key t, tm_value t, x)) /\
       typed_doc (tv_coll V) d = Done x /\ stored (tv_coll V) s x /\ td_header x = tm_src t) /\
    (forall i, (length all <= i)%nat -> md_get m i = Done None /\ md_get m' i = Done None) /\
    exists l, md_iter m' = Done l /\ Forall2 (fun t p => exists x, p = (tm_key t, tm_value t, x) /\ stored (tv_coll V) s x /\ td_header x = tm_src t) all l.
Proof.
  intros A B E ps V s q asc lim all EO R U QO P TQ. set (C := tv_coll V) in *.
  destruct (rel_any E V s q asc lim all EO R U QO TQ) as (ms & F).
  pose proof (u_known _ _ _ U) as KN. fold C in KN. pose proof (u_docs _ _ _ U) as RD. fold C in RD.
  assert (IDS : doc_ids (co_key C) (map (fun t => th_id (tm_src t)) all) = Done (map (fun m => h_id (em_src m)) ms)).
  { clear - F. induction F as [|m t ms all X F IH]; [reflexivity|]. cbn [map doc_ids]. destruct X as (_ & _ & _ & I & _).
    rewrite (proj2 (did C _ _) (proj2 I)), IH. reflexivity. }
  destruct (get_multiple_in E ps s (co_name C) (map (fun m => h_id (em_src m)) ms) EO R (fun i _ => P i)) as (ds & GM & IN).
  set (K := fun k => exists i, is_id C k i /\ orderable false (co_key C) k = true).
  assert (GK : good_keys K).
  { intros x y (i & I & O) (j & J & O'). pose proof (C04_key_order _ _ _ _ _ (proj1 I) (proj1 J) O O' (proj1 (proj2 I)) (proj1 (proj2 J))) as X. split.
    - intros Z. rewrite Z in X. apply lex_eq in X. subst j. pose proof (rd C _ _ (proj2 KN) I). pose proof (rd C _ _ (proj2 KN) J). congruence.
    - intros ->. rewrite (same_id C _ _ _ I (proj1 (proj2 J))) in X. rewrite lex_refl in X. symmetry. exact X. }
  set (f := fun d : doc => match decode (co_key C) (h_id (d_header d)) with Done v => Done (v, d) | Fail _ => Fail (Other KeyError) | Panic => Panic end).
  set (rl := fun (d : doc) (p : kval * doc) => snd p = d /\ is_id C (fst p) (h_id (d_header d)) /\ orderable false (co_key C) (fst p) = true /\ doc_at s (co_name C) (h_id (d_header d)) = Some d).
  destruct (collect_ok rl f ds) as (l & CL & FL).
  { intros d I. apply IN in I. destruct I as [_ G]. destruct (RD _ _ G) as (w & a & W & O & _). exists (w, d). split; [reflexivity|]. auto. }
  { intros d [w d'] (X & Y & _). cbn [fst snd] in *. subst d'. unfold f. rewrite (rd C _ _ (proj2 KN) Y). reflexivity. }
  assert (KL : Forall (fun p => K (fst p)) l).
  { apply Forall_forall. intros p I. destruct (Forall2_in_r _ _ _ _ FL I) as (d & _ & _ & X & O & _). exists (h_id (d_header d)). auto. }
  assert (FU : forall j e e', In (j, e) l -> In (j, e') l -> e = e').
  { intros j e e' I I'. destruct (Forall2_in_r _ _ _ _ FL I) as (d & _ & X1 & X2 & _ & X3). destruct (Forall2_in_r _ _ _ _ FL I') as (d' & _ & Y1 & Y2 & _ & Y3). cbn [fst snd] in *. subst d d'.
    rewrite (same_id C _ _ _ X2 (proj1 (proj2 Y2))) in Y3. congruence. }
  assert (WD : tquery_with_docs anyone ps V s q asc lim = Done (mk_md all (bt_of l))).
  { unfold tquery_with_docs. rewrite TQ. fold C. rewrite IDS, GM. fold f. rewrite CL. reflexivity. }
  (* the typed documents *)
  assert (BK : Forall (fun p => K (fst p) /\ exists d, In (fst p, snd p) l /\ snd p = d) (bt_of l)).
  { unfold bt_of. assert (G : forall r t, (forall p, In p r -> In p l) -> Forall (fun p => K (fst p) /\ exists d, In (fst p, snd p) l /\ snd p = d) t ->
      Forall (fun p => K (fst p) /\ exists d, In (fst p, snd p) l /\ snd p = d) (fold_left (fun t p => bt_insert (fst p) (snd p) t) r t)).
    { induction r as [|[j e] r IH]; intros t SU T; cbn [fold_left fst snd]; [exact T|]. apply IH; [intros; apply SU; right; assumption|].
      assert (KJ : K j) by (rewrite Forall_forall in KL; apply (KL (j, e)), SU; left; reflexivity).
      pose proof (SU (j, e) (or_introl eq_refl)) as IJ. clear IH SU. induction T as [|[i g] t [X (d' & Y & Y')] T IHT]; cbn [bt_insert].
      - constructor; [|constructor]. cbn. eauto.
      - cbn [fst snd] in *. destruct (kcmp j i) eqn:Q.
        + apply (GK j i KJ X) in Q. subst i. constructor; [cbn; eauto|exact T].
        + constructor; [cbn; eauto|]. constructor; [cbn; eauto|exact T].
        + constructor; [cbn; eauto|exact IHT]. }
    apply G; [auto|constructor]. }
  set (g := fun e : kval * doc => match typed_doc C (snd e) with Done x => Done (fst e, x) | Fail e => Fail e | Panic => Panic end).
  set (rg := fun (e : kval * doc) (p : kval * tdoc A) => fst p = fst e /\ typed_doc C (snd e) = Done (snd p) /\ stored C s (snd p) /\ th_id (td_header (snd p)) = fst e).
  destruct (collect_ok rg g (bt_of l)) as (l' & CL' & FL').
  { intros [j e] I. rewrite Forall_forall in BK. destruct (BK _ I) as [KJ (d' & J & _)]. cbn [fst snd] in *. destruct (Forall2_in_r _ _ _ _ FL J) as (d & _ & X1 & X2 & _ & X3). cbn [fst snd] in *. subst d.
    destruct (stored_doc E C s _ e EO R KN RD X3) as (x & T & ST & ID & _). exists (j, x). split; [reflexivity|]. split; [exact T|]. split; [exact ST|]. cbn [fst snd].
    pose proof (rd C _ _ (proj2 KN) X2). pose proof (rd C _ _ (proj2 KN) ID). congruence. }
  { intros [j e] [j' x] (X & Y & _). cbn [fst snd] in *. subst j'. unfold g. cbn [fst snd]. rewrite Y. reflexivity. }
  assert (WC : tquery_with_collection_docs anyone ps V s q asc lim = Done (mk_md all (bt_of l'))).
  { unfold tquery_with_collection_docs. rewrite WD. cbn [md_docs md_maps]. fold C. fold g. rewrite CL'. reflexivity. }
  assert (KL' : Forall (fun p => K (fst p)) l').
  { apply Forall_forall. intros p I. destruct (Forall2_in_r _ _ _ _ FL' I) as (e & J & X & _). rewrite X. rewrite Forall_forall in BK. apply (BK _ J). }
  assert (FU' : forall j e e', In (j, e) l' -> In (j, e') l' -> e = e').
  { intros j e e' I I'. destruct (Forall2_in_r _ _ _ _ FL' I) as ([j1 d] & J & X1 & X2 & _). destruct (Forall2_in_r _ _ _ _ FL' I') as ([j2 d'] & J' & Y1 & Y2 & _). cbn [fst snd] in *. subst j1 j2.
    rewrite Forall_forall in BK. destruct (BK _ J) as [_ (? & Z & _)]. destruct (BK _ J') as [_ (? & Z' & _)]. cbn [fst snd] in *. rewrite (FU _ _ _ Z Z') in X2. congruence. }
  assert (MAIN : forall i t, nth_error all i = Some t -> exists d x, md_get (mk_md all (bt_of l)) i = Done (Some (tm_key t, tm_value t, d)) /\ md_get (mk_md all (bt_of l')) i = Done (Some (tm_key t, tm_value t, x)) /\
       typed_doc C d = Done x /\ stored C s x /\ td_header x = tm_src t).
  { intros i t NT. pose proof (nth_error_In _ _ NT) as IT. destruct (Forall2_in_r _ _ _ _ F IT) as (m & IM & (x & ST & HX & _) & _ & _ & ID & _). fold C in ST, ID.
    destruct (doc_stored E C s x KN ST) as (i0 & d & G & T & ID' & HD). rewrite HX in ID'. pose proof (same_id C _ _ _ ID (proj1 (proj2 ID'))) as Z. subst i0.
    assert (ID0 : In d ds). { apply IN. rewrite HD. cbn [h_id]. split; [apply (in_map (fun m => h_id (em_src m))), IM|exact G]. }
    destruct (Forall2_in_l _ _ _ _ FL ID0) as ([w d'] & IL & X1 & X2 & X3 & X4). cbn [fst snd] in *. subst d'. rewrite HD in X2. cbn [h_id] in X2.
    assert (w = th_id (tm_src t)) by (pose proof (rd C _ _ (proj2 KN) X2); pose proof (rd C _ _ (proj2 KN) ID); congruence). subst w.
    pose proof (bt_of_get K l _ _ GK KL FU IL) as BG.
    assert (IB : In (th_id (tm_src t), d) (bt_of l)).
    { clear - BG BK GK ID X3. set (k := th_id (tm_src t)) in *. assert (KK : K k) by (exists (h_id (em_src m)); auto). revert BG BK. induction (bt_of l) as [|[j e] r IHr]; intros BG BK; cbn [bt_get] in BG; [discriminate|].
      inversion_clear BK as [|? ? [B1 _] B2]. cbn [fst] in B1. destruct (kcmp k j) eqn:Q; [|right; auto..]. injection BG as ->. apply (GK k j KK B1) in Q. subst j. left. reflexivity. }
    destruct (Forall2_in_l _ _ _ _ FL' IB) as ([w x'] & IL' & Y1 & Y2 & Y3 & Y4). cbn [fst snd] in *. subst w.
    assert (x' = x) by congruence. subst x'. pose proof (bt_of_get K l' _ _ GK KL' FU' IL') as BG'.
    exists d, x. unfold md_get. cbn [md_maps md_docs]. rewrite NT, BG, BG'. auto. }
  exists (mk_md all (bt_of l)), (mk_md all (bt_of l')). split; [exact WD|]. split; [exact WC|]. split; [reflexivity|]. split; [reflexivity|]. split; [exact MAIN|]. split.
  - intros i L. unfold md_get. cbn [md_maps]. rewrite (proj2 (nth_error_None all i) L). auto.
  - apply (drain_spec (mk_md all (bt_of l')) (fun t p => exists x, p = (tm_key t, tm_value t, x) /\ stored C s x /\ td_header x = tm_src t)).
    cbn [md_maps]. intros i t NT. destruct (MAIN i t NT) as (d & x & _ & X & _ & ST & HX). eexists. split; [exact X|]. exists x. auto.
Qed.

(* ---------- reduce ---------- *)
Definition pairs_of {B} (all : list (tmap B)) : list (kval * B) := map (fun t => (tm_key t, tm_value t)) all.
(* the view implements reduce, and its results can be stored *)
Record reduces {A B} (V : tview A B) : Prop := {
  rd_implemented : forall l b, tv_reduce V l b <> Fail ReduceUnimplemented;
  rd_storable : forall b, tv_ser V b <> None
}.
(* reducing the values of each key first makes no difference *)
Definition mergeable {A B} (V : tview A B) : Prop := forall (groups : list (list (kval * B))) (rs : list (kval * B)),
  Forall2 (fun g r => g <> [] /\ (forall p, In p g -> fst p = fst r) /\ tv_reduce V g false = Done (snd r)) groups rs ->
  tv_reduce V rs true = tv_reduce V (concat groups) false.
Lemma collect_app {X Y F} (f : X -> outcome Y F) l l' ys ys' : collect f l = Done ys -> collect f l' = Done ys' -> collect f (l ++ l') = Done (ys ++ ys').
Proof.
  intros H H'. apply collect_inv in H. apply collect_inv in H'. apply (collect_eq (fun x y => f x = Done y)); [|auto]. apply Forall2_app; assumption.
Qed.
Lemma ser_implemented {A B} (V : tview A B) : reduces V -> implemented (to_view V).
Proof.
  intros RV l. cbn [to_view vw_def vd_reduce]. unfold ser_reduce. destruct (collect (de_pair V) l) as [ps|e|] eqn:X; [|intros [= ->]|discriminate].
  - pose proof (rd_implemented V RV ps false). destruct (tv_reduce V ps false) as [r|e|]; [destruct (tv_ser V r); discriminate|congruence|discriminate].
  - revert X. induction l as [|p l IH]; cbn [collect]; [discriminate|]. unfold de_pair at 1. destruct (decode (tv_key V) (fst p)) as [k|e|]; [|discriminate..].
    destruct (tv_de V (snd p)); [|discriminate]. destruct (collect (de_pair V) l); [discriminate|exact IH|discriminate].
Qed.
Lemma ser_lawful {A B} (V : tview A B) : (forall b y, tv_ser V b = Some y -> tv_de V y = Some b) -> mergeable V -> PropQuery.lawful (to_view V).
Proof.
  intros DE ME groups rs F. cbn [to_view vw_def vd_reduce vd_rereduce] in *.
  assert (G : exists tgs trs, collect (de_pair V) rs = Done trs /\ collect (de_pair V) (concat groups) = Done (concat tgs) /\
    Forall2 (fun g r => g <> [] /\ (forall p, In p g -> fst p = fst r) /\ tv_reduce V g false = Done (snd r)) tgs trs).
  { induction F as [|g r groups rs (NE & KE & RE) F IH]; [exists [], []; repeat split; constructor|]. destruct IH as (tgs & trs & C1 & C2 & F').
    unfold ser_reduce in RE. destruct (collect (de_pair V) g) as [tg| |] eqn:CG; try discriminate. destruct (tv_reduce V tg false) as [b| |] eqn:TR; try discriminate.
    destruct (tv_ser V b) as [y|] eqn:SE; [|discriminate]. injection RE as RE. pose proof (collect_inv _ _ _ CG) as FG.
    assert (KD : exists k, decode (tv_key V) (fst r) = Done k /\ (forall p, In p tg -> fst p = k) /\ tg <> []).
    { assert (DP : forall p q, de_pair V p = Done q -> decode (tv_key V) (fst p) = Done (fst q)).
      { intros p q. unfold de_pair. destruct (decode (tv_key V) (fst p)); [|discriminate..]. destruct (tv_de V (snd p)); [|discriminate]. intros [= <-]. reflexivity. }
      destruct g as [|p g]; [congruence|]. inversion FG as [|? q ? ? Q FQ]; subst. pose proof (DP _ _ Q) as D1. rewrite (KE p (or_introl eq_refl)) in D1. exists (fst q). split; [exact D1|].
      split; [|discriminate]. intros q' [<-|I]; [reflexivity|]. destruct (Forall2_in_r _ _ _ _ FQ I) as (p' & J & Q'). pose proof (DP _ _ Q') as D2. rewrite (KE p' (or_intror J)) in D2. congruence. }
    destruct KD as (k & KD1 & KD2 & KD3). exists (tg :: tgs), ((k, b) :: trs). split; [|split].
    - cbn [collect]. unfold de_pair at 1. rewrite KD1, <- RE, (DE _ _ SE), C1. reflexivity.
    - cbn [concat]. apply collect_app; assumption.
    - constructor; [|exact F']. cbn [fst snd]. auto. }
  destruct G as (tgs & trs & C1 & C2 & F'). unfold ser_reduce. rewrite C1, C2, (ME _ _ F'). reflexivity.
Qed.
Lemma rel_pairs {A B} E (V : tview A B) s ms all : usable E V s -> Forall2 (rel V s) ms all -> collect (de_pair V) (values ms) = Done (pairs_of all).
Proof.
  intros U F. induction F as [|m t ms all X F IH]; [reflexivity|]. cbn [values map pairs_of collect]. unfold de_pair at 1. cbn [fst snd]. destruct X as (_ & K & VA & _).
  rewrite (vrd V _ _ (u_key _ _ _ U) K), (u_value _ _ _ U _ _ VA). fold (values ms). fold (pairs_of all). rewrite IH. reflexivity.
Qed.
(* reduce: the reduction of what the query returns *)
Theorem C81_reduce : forall A B E (V : tview A B) s q all, env_ok E -> reach E s -> usable E V s -> query_ok V q -> reduces V -> mergeable V ->
  tquery anyone V s q true None = Done all ->
  treduce anyone V s q = match tv_reduce V (pairs_of all) false with Done r => Done r | Fail e => Fail (Other (ViewError e)) | Panic => Panic end.
Proof.
  intros A B E V s q all EO R U QO RV ME TQ. destruct (query_bytes E V s U q QO) as (q' & WQ & D & IR & AS).
  destruct (query_full E V s EO R U q q' true QO WQ D IR AS) as (ms & all' & Q & F & AN).
  assert (all' = all).
  { unfold tquery in TQ. rewrite (with_query_ok V q q' _ WQ), Q in TQ. rewrite (collect_eq _ _ _ _ F (fun m t => rel_done E V s U m t)) in TQ. congruence. }
  subst all'. unfold treduce. rewrite (with_query_ok V q q' _ WQ).
  rewrite (C30_reduce_all E s (to_view V) q' ms EO R (u_view _ _ _ U) D (ser_implemented V RV) (ser_lawful V (u_value _ _ _ U) ME) Q).
  cbn [to_view vw_def vd_reduce]. unfold ser_reduce. rewrite (rel_pairs E V s ms all U F). destruct (tv_reduce V (pairs_of all) false) as [r|e|]; [|reflexivity..].
  pose proof (rd_storable V RV r). destruct (tv_ser V r) as [y|] eqn:SE; [|congruence]. rewrite (u_value _ _ _ U _ _ SE). reflexivity.
Qed.
(* grouped: one result per key, the reduction of the key's values *)
Theorem C81_grouped : forall A B E (V : tview A B) s q all, env_ok E -> reach E s -> usable E V s -> query_ok V q -> reduces V ->
  tquery anyone V s q true None = Done all ->
  exists gs, treduce_grouped anyone V s q = Done gs /\ NoDup (map fst gs) /\ (forall k, In k (map fst gs) <-> In k (map tm_key all)) /\
    forall k r, In (k, r) gs -> exists own, (forall t, In t own <-> In t all /\ tm_key t = k) /\ NoDup own /\ tv_reduce V (pairs_of own) false = Done r.
Proof.
  intros A B E V s q all EO R U QO RV TQ. destruct (query_bytes E V s U q QO) as (q' & WQ & D & IR & AS).
  destruct (query_full E V s EO R U q q' true QO WQ D IR AS) as (ms & all' & Q & F & AN).
  assert (all' = all).
  { unfold tquery in TQ. rewrite (with_query_ok V q q' _ WQ), Q in TQ. rewrite (collect_eq _ _ _ _ F (fun m t => rel_done E V s U m t)) in TQ. congruence. }
  subst all'. unfold treduce_grouped. rewrite (with_query_ok V q q' _ WQ).
  set (v := to_view V) in *. set (gs0 := map (fun e => (fst e, e_reduced (snd e))) (view_entries (entries_of s v) q' true None)).
  assert (RG : reduce_grouped anyone s v q' = Done gs0) by reflexivity. rewrite RG.
  destruct (C30_grouped E s v q' gs0 ms EO R (u_view _ _ _ U) D (ser_implemented V RV) RG Q) as (KS & ND & RED). clearbody gs0.
  set (f := fun g : bytes * bytes => match decode (tv_key V) (fst g) with
                                   | Done k => match tv_de V (snd g) with Some b => Done (k, b) | None => Fail Serialization end
                                   | Fail _ => Fail (Other KeyError) | Panic => Panic end).
  set (own := fun e => filter (fun mt : emission * tmap B => bytes_eqb e (em_key (fst mt))) (combine ms all)).
  assert (OWN : forall e, Forall2 (rel V s) (at_k e ms) (map snd (own e))).
  { intros e. unfold own, at_k. clear - F. induction F as [|m t ms all X F IH]; [constructor|]. cbn [combine filter fst]. destruct (bytes_eqb e (em_key m)); [|exact IH]. cbn [map snd]. constructor; assumption. }
  assert (OIN : forall e t, In t (map snd (own e)) <-> exists m, In (m, t) (combine ms all) /\ em_key m = e).
  { intros e t. unfold own. rewrite in_map_iff. split.
    - intros ([m t'] & <- & I). apply filter_In in I. destruct I as [I J]. apply bytes_eqb_spec in J. exists m. auto.
    - intros (m & I & J). exists (m, t). split; [reflexivity|]. apply filter_In. split; [exact I|]. cbn. rewrite J. apply bytes_eqb_refl. }
  assert (CIN : forall t, In t all -> exists m, In (m, t) (combine ms all)).
  { clear - F. induction F as [|m t ms all X F IH]; intros t' []; [subst; exists m; left; reflexivity|]. destruct IH with t' as [m' I]; [assumption|]. exists m'. right. exact I. }
  assert (CREL : forall m t, In (m, t) (combine ms all) -> rel V s m t /\ In t all).
  { intros m t I. split; [|apply (in_combine_r _ _ _ _ I)]. clear - F I. induction F as [|m0 t0 ms all X F IH]; [destruct I|]. destruct I as [I|I]; [injection I as -> ->; exact X|auto]. }
  set (rg := fun (g : bytes * bytes) (p : kval * B) => vkey V (fst p) (fst g) /\ tv_de V (snd g) = Some (snd p) /\ tv_reduce V (pairs_of (map snd (own (fst g)))) false = Done (snd p)).
  destruct (collect_ok rg f gs0) as (gs & CG & FG).
  { intros [e b] I. pose proof (RED e b I) as X. cbn [v to_view vw_def vd_reduce] in X. unfold ser_reduce in X. rewrite (rel_pairs E V s _ _ U (OWN e)) in X.
    assert (KI : In e (map em_key ms)) by (apply KS, (in_map fst _ _ I)). apply in_map_iff in KI. destruct KI as (m & KE & KI). destruct (Forall2_in_l _ _ _ _ F KI) as (t & _ & RL).
    destruct (tv_reduce V (pairs_of (map snd (own e))) false) as [r| |] eqn:TR; try discriminate. destruct (tv_ser V r) as [y|] eqn:SE; [|discriminate]. injection X as <-.
    exists (tm_key t, r). split; [|split]; cbn [fst snd]; [rewrite <- KE; apply RL|apply (u_value _ _ _ U), SE|exact TR]. }
  { intros [e b] [k r] (X & Y & _). cbn [fst snd] in *. unfold f. cbn [fst snd]. rewrite (vrd V _ _ (u_key _ _ _ U) X), Y. reflexivity. }
  exists gs. split; [exact CG|]. split; [|split].
  - clear - FG ND. induction FG as [|g p gs0 gs (X & _) F IH]; [constructor|]. cbn [map] in *. inversion_clear ND as [|? ? N1 N2]. constructor; [|apply IH, N2].
    intros I. apply N1. apply in_map_iff in I. destruct I as (p' & Z & I). destruct (Forall2_in_r _ _ _ _ F I) as (g' & J & Y & _). rewrite Z in Y. rewrite (vfun V _ _ _ X Y). apply in_map, J.
  - intros k. rewrite !in_map_iff. split.
    + intros (p & <- & I). destruct (Forall2_in_r _ _ _ _ FG I) as (g & J & X & _). apply (in_map fst) in J. apply KS in J. apply in_map_iff in J. destruct J as (m & KE & KI).
      destruct (Forall2_in_l _ _ _ _ F KI) as (t & IT & RL). exists t. split; [|exact IT]. destruct RL as (_ & KT & _). rewrite KE in KT. exact (vinj V _ _ _ (u_key _ _ _ U) KT X).
    + intros (t & <- & I). destruct (Forall2_in_r _ _ _ _ F I) as (m & J & RL). pose proof (proj2 (KS (em_key m)) (in_map em_key _ _ J)) as G. apply in_map_iff in G. destruct G as (g & GE & G).
      destruct (Forall2_in_l _ _ _ _ FG G) as (p & IP & X & _). exists p. split; [|exact IP]. rewrite GE in X. exact (vinj V _ _ _ (u_key _ _ _ U) X (proj1 (proj2 RL))).
  - intros k r I. destruct (Forall2_in_r _ _ _ _ FG I) as ([e b] & J & X & _ & Y). cbn [fst snd] in *. exists (map snd (own e)). split; [|split; [|exact Y]].
    + intros t. rewrite OIN. split.
      * intros (m & M1 & M2). destruct (CREL m t M1) as [RL IT]. split; [exact IT|]. destruct RL as (_ & KT & _). rewrite M2 in KT. exact (vinj V _ _ _ (u_key _ _ _ U) KT X).
      * intros [IT KT]. destruct (CIN t IT) as [m M]. exists m. split; [exact M|]. destruct (CREL m t M) as [(_ & KT' & _) _]. rewrite KT in KT'. exact (vfun V _ _ _ KT' X).
    + destruct AN as (_ & NDA & _). clear - NDA F. assert (NA : NoDup all).
      { clear F. induction all as [|t r IH]; [constructor|]. cbn [map] in NDA. inversion_clear NDA as [|? ? N1 N2]. constructor; [|apply IH, N2]. intros I. apply N1. apply in_map_iff. exists t. auto. }
      clear NDA. unfold own. clear own. revert NA. induction F as [|m t ms all X F IH]; intros NA; [constructor|]. inversion_clear NA as [|? ? N1 N2]. cbn [combine filter fst]. destruct (bytes_eqb e (em_key m)); [|apply IH, N2].
      cbn [map snd]. constructor; [|apply IH, N2]. intros I. apply N1. apply in_map_iff in I. destruct I as ([m' t'] & <- & I). apply filter_In in I. apply (in_combine_r _ _ _ _ (proj1 I)).
Qed.

(* ---------- delete ---------- *)
(* deleting: exactly the documents with a result in the query disappear *)
Theorem C81_delete : forall A B E p (V : tview A B) s q s' n all, env_ok E -> reach E s -> usable E V s -> query_ok V q ->
  tquery anyone V s q true None = Done all -> tdelete_docs E p V s q = (s', Done n) ->
  n = N.of_nat (length all) /\
  (forall x, stored (tv_coll V) s' x <-> stored (tv_coll V) s x /\ ~ In (td_header x) (map tm_src all)) /\
  (forall c i, c <> co_name (tv_coll V) -> doc_at s' c i = doc_at s c i).
Proof.
  intros A B E p V s q s' n all EO R U QO TQ DD. destruct (query_bytes E V s U q QO) as (q' & WQ & D & IR & AS).
  destruct (query_full E V s EO R U q q' true QO WQ D IR AS) as (ms & all' & Q & F & AN).
  assert (all' = all).
  { unfold tquery in TQ. rewrite (with_query_ok V q q' _ WQ), Q in TQ. rewrite (collect_eq _ _ _ _ F (fun m t => rel_done E V s U m t)) in TQ. congruence. }
  subst all'. unfold tdelete_docs in DD. rewrite WQ in DD. destruct (delete_docs E p s (to_view V) q') as [s1 [n1| |]] eqn:DE; try discriminate. injection DD as <- <-.
  destruct (C32_exact E p s (to_view V) q' s1 n1 ms EO R (u_view _ _ _ U) Q DE) as [L G]. change (vw_coll (to_view V)) with (co_name (tv_coll V)) in G.
  split; [rewrite L; f_equal; clear - F; induction F; cbn; congruence|]. split.
  - intros x. split.
    + intros (i & b & I & DC & GI). rewrite G, bytes_eqb_refl in GI. cbn [andb] in GI. destruct (mem i _) eqn:M; [discriminate|]. split; [exists i, b; auto|].
      intros J. apply in_map_iff in J. destruct J as (t & HT & J). destruct (Forall2_in_r _ _ _ _ F J) as (m & K & RL). apply mem_false in M. apply M.
      destruct RL as (_ & _ & _ & ID & _). rewrite HT in ID. apply in_map_iff. exists m. split; [|exact K]. exact (same_id _ _ _ _ I (proj1 (proj2 ID))).
    + intros [(i & b & I & DC & GI) NI]. exists i, b. split; [exact I|]. split; [exact DC|]. rewrite G, bytes_eqb_refl. cbn [andb]. destruct (mem i _) eqn:M; [|exact GI]. exfalso. apply NI.
      apply mem_In in M. apply in_map_iff in M. destruct M as (m & HM & K). destruct (Forall2_in_l _ _ _ _ F K) as (t & J & RL). destruct RL as ((y & SY & HY & _) & _ & _ & ID & _).
      rewrite HM in ID. assert (Z : th_id (tm_src t) = th_id (td_header x)) by (pose proof (rd _ _ _ (proj2 (u_known _ _ _ U)) ID); pose proof (rd _ _ _ (proj2 (u_known _ _ _ U)) I); congruence).
      destruct SY as (j & c & J1 & _ & GJ). rewrite HY in J1, GJ. rewrite (same_id _ _ _ _ ID (proj1 (proj2 J1))) in GJ. rewrite GI in GJ. injection GJ as RE _.
      apply in_map_iff. exists t. split; [|exact J]. destruct (tm_src t), (td_header x). cbn in *. congruence.
  - intros c i NC. rewrite G. destruct (bytes_eqb c (co_name (tv_coll V))) eqn:X; [apply bytes_eqb_spec in X; contradiction|reflexivity].
Qed.

(* ---------- an example ---------- *)
Definition ex_tv : tview bytes N := mk_tview ex_coll [9] Lazy (TU 1)
  (fun n => Some [n]) (fun b => match b with [n] => Some n | _ => None end)
  (fun x => Some (m_and (emit (VU (hd 0 (td_contents x) mod 2), hd 0 (td_contents x))) (m_of_list (map (fun y => (VU 9, y)) (firstn 1 (skipn 1 (td_contents x)))))))
  (fun l _ => Done (fold_right (fun p n => snd p + n) 0 l)).
Definition ex_tenv : env := mk_env ex_hash (fun c => if bytes_eqb c [1] then Some (TU 1) else None) [to_view ex_tv].
Lemma ex_tenv_ok : env_ok ex_tenv. Proof. repeat constructor. intros []. Qed.
Definition ex_ts : dbstate := mapper_step ex_tenv (to_view ex_tv) (fun l => l) [[5]; [6]; [7]] (fst (apply_transaction ex_tenv everyone empty_db
  [mk_op [1] (Insert (Some [5]) [10; 11]); mk_op [1] (Insert (Some [6]) [12]); mk_op [1] (Insert (Some [7]) [13])])).
Lemma ex_ts_reach : reach ex_tenv ex_ts.
Proof. apply reach_map; [apply reach_tx, reach_init|left; reflexivity|intros l; apply Permutation_refl|repeat constructor]. Qed.
Lemma ex_ts_docs i d : doc_at ex_ts [1] i = Some d -> (i = [5] /\ d_contents d = [10; 11]) \/ (i = [6] /\ d_contents d = [12]) \/ (i = [7] /\ d_contents d = [13]).
Proof.
  unfold doc_at. assert (X : w_docs (db_work ex_ts) [1] = [([5], mk_doc (mk_header [5] (r0 [10; 11])) [10; 11]); ([6], mk_doc (mk_header [6] (r0 [12])) [12]); ([7], mk_doc (mk_header [7] (r0 [13])) [13])]) by (vm_compute; reflexivity).
  rewrite X. cbn [t_get]. destruct (bytes_eqb i [5]) eqn:B5; [apply bytes_eqb_spec in B5; intros [= <-]; left; auto|].
  destruct (bytes_eqb i [6]) eqn:B6; [apply bytes_eqb_spec in B6; intros [= <-]; right; left; auto|].
  destruct (bytes_eqb i [7]) eqn:B7; [apply bytes_eqb_spec in B7; intros [= <-]; right; right; auto|discriminate].
Qed.
Lemma ex_vkey n : n = 0 \/ n = 1 \/ n = 9 -> exists e, vkey ex_tv (VU n) e.
Proof. intros [-> | [-> | ->]]; [exists [0]|exists [1]|exists [9]]; (split; [reflexivity|]; split; [reflexivity|]; split; [reflexivity|]; reflexivity). Qed.
Lemma ex_usable : usable ex_tenv ex_tv ex_ts.
Proof.
  split.
  - split; reflexivity.
  - reflexivity.
  - intros b y [= <-]. reflexivity.
  - intros i d G. cbn [tv_coll ex_tv co_name ex_coll] in G. destruct (ex_ts_docs i d G) as [[-> X]|[[-> X]|[-> X]]];
    [exists (VU 5), [10; 11]|exists (VU 6), [12]|exists (VU 7), [13]]; rewrite X; (split; [split; [reflexivity|]; split; [reflexivity|]; cbn; lia|]); split; reflexivity.
  - intros x (i & b & I & DE & G). cbn [tv_coll ex_tv co_name ex_coll] in G. cbn [tv_coll ex_tv co_de ex_coll] in DE.
    assert (TC : td_contents x = [10; 11] \/ td_contents x = [12] \/ td_contents x = [13]).
    { destruct (ex_ts_docs i _ G) as [[-> X]|[[-> X]|[-> X]]]; cbn in X; subst b; cbn in DE; injection DE as <-; auto. }
    destruct x as [h c]. cbn [td_contents] in *. cbn [tv_map ex_tv td_contents]. destruct TC as [-> | [-> | ->]]; eexists; (split; [reflexivity|]); cbn.
    + split; [repeat constructor; cbn; intuition discriminate|]. intros k n [H|[H|[]]]; injection H as <- <-; (split; [apply ex_vkey; cbn; auto|eauto]).
    + split; [repeat constructor; cbn; intuition discriminate|]. intros k n [H|[]]; injection H as <- <-; (split; [apply ex_vkey; cbn; auto|eauto]).
    + split; [repeat constructor; cbn; intuition discriminate|]. intros k n [H|[]]; injection H as <- <-; (split; [apply ex_vkey; cbn; auto|eauto]).
  - left. reflexivity.
  - intros id. unfold pending, invalid. vm_compute. auto.
Qed.
Lemma ex_query_ok : query_ok ex_tv (Some (TRange (KIncluded (VU 0)) (KExcluded (VU 9)))) /\ query_ok ex_tv (Some (TMultiple [VU 9; VU 0])).
Proof.
  split; (split; [|cbn; auto]); [intros w [<-|[<-|[]]]; apply ex_vkey; cbn; auto|intros w [<-|[<-|[]]]; apply ex_vkey; cbn; auto|]. repeat constructor; cbn; intuition discriminate.
Qed.
Definition ex_h (i : N) (b : bytes) : theader := mk_th (VU i) (r0 b).
Example C81_ex : usable ex_tenv ex_tv ex_ts /\
  tquery anyone ex_tv ex_ts (Some (TRange (KIncluded (VU 0)) (KExcluded (VU 9)))) false None =
    Done [mk_tm (ex_h 7 [13]) (VU 1) 13; mk_tm (ex_h 6 [12]) (VU 0) 12; mk_tm (ex_h 5 [10; 11]) (VU 0) 10] /\
  tquery anyone ex_tv ex_ts (Some (TRange (KIncluded (VU 0)) (KExcluded (VU 9)))) true (Some 1) =
    Done [mk_tm (ex_h 6 [12]) (VU 0) 12; mk_tm (ex_h 5 [10; 11]) (VU 0) 10] /\
  ventries anyone ex_tv ex_ts [WithKey (VU 3); InOrder false; WithKeys [VU 9; VU 0]] =
    Done [mk_tm (ex_h 6 [12]) (VU 0) 12; mk_tm (ex_h 5 [10; 11]) (VU 0) 10; mk_tm (ex_h 5 [10; 11]) (VU 9) 11].
Proof. split; [exact ex_usable|]. repeat split; vm_compute; reflexivity. Qed.
Example C81_with_docs_ex : exists m, tquery_with_collection_docs anyone everyone ex_tv ex_ts (Some (TMultiple [VU 9; VU 0])) true None = Done m /\
  length (md_docs m) = 2%nat /\ md_get m 2 = Done (Some (VU 9, 11, mk_td (ex_h 5 [10; 11]) [10; 11])) /\ md_get m 3 = Done None.
Proof. eexists. repeat split; vm_compute; reflexivity. Qed.
Lemma ex_reduces : reduces ex_tv. Proof. split; discriminate. Qed.
Lemma ex_mergeable : mergeable ex_tv.
Proof.
  intros groups rs F. cbn [tv_reduce ex_tv]. f_equal. induction F as [|g [k b] gs rs (_ & _ & X) F IH]; [reflexivity|]. cbn [concat fold_right snd]. rewrite fold_right_app, IH.
  cbn [tv_reduce ex_tv snd] in X. injection X as <-. generalize (fold_right (fun (p : kval * N) n => snd p + n) 0 (concat gs)). intros z. clear. induction g as [|p g IHg]; cbn [fold_right]; [lia|]. rewrite <- IHg. lia.
Qed.
Example C81_reduce_ex : reduces ex_tv /\ mergeable ex_tv /\ treduce anyone ex_tv ex_ts None = Done 46 /\
  treduce_grouped anyone ex_tv ex_ts None = Done [(VU 0, 22); (VU 1, 13); (VU 9, 11)].
Proof. split; [exact ex_reduces|]. split; [exact ex_mergeable|]. split; vm_compute; reflexivity. Qed.
Example C81_delete_ex : exists s', tdelete_docs ex_tenv everyone ex_tv ex_ts (Some (TMatches (VU 0))) = (s', Done 2) /\
  doc_at s' [1] [5] = None /\ doc_at s' [1] [6] = None /\ doc_at s' [1] [7] = doc_at ex_ts [1] [7].
Proof. eexists. split; [vm_compute; reflexivity|]. repeat split; vm_compute; reflexivity. Qed.

(* when the view is not up to date (a query that does not wait for the mapper, or a deletion
   between its two reads) the call succeeds, and reading a result panics *)
Definition ex_stale : dbstate := fst (apply_transaction ex_tenv everyone ex_ts [mk_op [1] (Delete (mk_header [7] (r0 [13])))]).
Theorem C81_stale_panic_refuted : ~ (forall A B E ps (V : tview A B) s q asc lim m, env_ok E -> reach E s -> known E (tv_coll V) -> readable (tv_coll V) s -> In (to_view V) (ev_views E) ->
  tquery_with_docs anyone ps V s q asc lim = Done m -> md_iter m <> Panic /\ forall i, md_get m i <> Panic).
Proof.
  intros H. assert (X : exists m, tquery_with_docs anyone everyone ex_tv ex_stale None true None = Done m /\ md_get m 2 = Panic) by (eexists; split; vm_compute; reflexivity).
  destruct X as (m & X & Y). destruct (H _ _ ex_tenv everyone ex_tv ex_stale None true None m ex_tenv_ok) as [_ Z].
  - apply reach_tx, ex_ts_reach.
  - exact (u_known _ _ _ ex_usable).
  - intros i d G. apply (u_docs _ _ _ ex_usable). cbn [tv_coll ex_tv co_name ex_coll] in *. revert G. unfold doc_at.
    assert (Q : w_docs (db_work ex_stale) [1] = t_remove [7] (w_docs (db_work ex_ts) [1])) by (vm_compute; reflexivity). rewrite Q, get_remove. destruct (bytes_eqb i [7]); [discriminate|auto].
  - left. reflexivity.
  - exact X.
  - exact (Z 2%nat Y).
Qed.

(* What the storage is given for a document: the encoded key and the serialized value of each
   mapping, in order, and nothing (the mapping fails) if one of them has no encoding. *)
Theorem C81_stored_form : forall A B (V : tview A B) d l, ser_map V d = Some l <->
  exists x m, typed_doc (tv_coll V) d = Done x /\ tv_map V x = Some m /\
    Forall2 (fun p e => encode (tv_key V) (fst p) = Done (fst e) /\ tv_ser V (snd p) = Some (snd e)) (m_iter m) l.
Proof.
  intros A B V d l. unfold ser_map. destruct (typed_doc (tv_coll V) d) as [x|e|].
  2,3: split; [discriminate|intros (x & m & H & _); discriminate].
  destruct (tv_map V x) as [m|] eqn:M; [|split; [discriminate|intros (x' & m & [= <-] & H & _); congruence]]. split.
  - destruct (collect (ser_pair V) (m_iter m)) as [l'| |] eqn:C; try discriminate. intros [= <-]. exists x, m. split; [reflexivity|]. split; [exact M|].
    apply collect_inv in C. induction C as [|[k b] [e y] ps es H C IH]; constructor; [|exact IH]. unfold ser_pair in H. cbn [fst snd] in *.
    destruct (encode (tv_key V) k); try discriminate. destruct (tv_ser V b); try discriminate. injection H as <- <-. split; reflexivity.
  - intros (x' & m' & [= <-] & H & F). rewrite M in H. injection H as <-. rewrite (collect_eq _ _ _ _ F); [reflexivity|].
    intros [k b] [e y] (H1 & H2). cbn [fst snd] in *. unfold ser_pair. cbn [fst snd]. rewrite H1, H2. reflexivity.
Qed.
Example C81_stored_form_ex : exists l, ser_map ex_tv (mk_doc (mk_header [5] (r0 [9; 4])) [9; 4]) = Some l /\ l <> [].
Proof. eexists. split; [vm_compute; reflexivity|discriminate]. Qed.

(* a key that cannot be encoded: nothing is read or deleted, the call fails *)
Lemma collect_bad t vs : (forall v, In v vs -> encode t v <> Panic) -> (exists v e, In v vs /\ encode t v = Fail e) -> collect (key_bytes t) vs = Fail (Other KeyError).
Proof.
  induction vs as [|u r IH]; intros P (v & e & I & X); [destruct I|]. cbn [collect]. unfold key_bytes at 1.
  pose proof (P u (or_introl eq_refl)) as Q. destruct (encode t u) as [b|f|] eqn:U; [|reflexivity|congruence].
  rewrite IH; [reflexivity|intros w J; apply P; right; exact J|]. destruct I as [<-|I]; [congruence|]. exists v, e. auto.
Qed.
Lemma bad_key t q {R} (f : option qkey -> outcome R cerr) : (forall v, In v (query_keys q) -> encode t v <> Panic) ->
  (exists v e, In v (query_keys q) /\ encode t v = Fail e) -> with_query t q f = Fail (Other KeyError).
Proof.
  intros P (v & e & I & X). destruct q as [[u|us|lo hi]|]; cbn [query_keys] in *; cbn [with_query serialize_key].
  - destruct I as [<-|[]]. unfold key_bytes. rewrite X. reflexivity.
  - rewrite collect_bad; [reflexivity|exact P|exists v, e; auto].
  - assert (Q : forall b, (forall w, In w (bound_key b) -> encode t w <> Panic) -> In v (bound_key b) -> bound_bytes t b = Fail (Other KeyError)).
    { intros b _ J. destruct b as [w|w|]; [ | |destruct J]; destruct J as [<-|[]]; cbn [bound_bytes]; unfold key_bytes; rewrite X; reflexivity. }
    assert (NP : forall b, (forall w, In w (bound_key b) -> encode t w <> Panic) -> bound_bytes t b <> Panic /\ forall z, bound_bytes t b = Fail z -> z = Other KeyError).
    { intros b Y. destruct b as [w|w|]; cbn [bound_bytes]; [ | |split; discriminate]; specialize (Y w (or_introl eq_refl)); unfold key_bytes;
        destruct (encode t w); try congruence; split; try discriminate; congruence. }
    destruct (NP lo) as [N1 N2]; [intros w J; apply P, in_or_app; left; exact J|].
    apply in_app_or in I. destruct (bound_bytes t lo) as [l|z|] eqn:L; [|rewrite (N2 z eq_refl); reflexivity|congruence].
    destruct I as [I|I]; [rewrite Q in L; [discriminate|intros w J; apply P, in_or_app; left; exact J|exact I]|].
    rewrite Q; [reflexivity|intros w J; apply P, in_or_app; right; exact J|exact I].
  - destruct I.
Qed.
Theorem C81_bad_key : forall A B E p ps (V : tview A B) s q asc lim,
  (forall v, In v (query_keys q) -> encode (tv_key V) v <> Panic) -> (exists v e, In v (query_keys q) /\ encode (tv_key V) v = Fail e) ->
  tquery p V s q asc lim = Fail (Other KeyError) /\ tquery_with_docs p ps V s q asc lim = Fail (Other KeyError) /\
  tquery_with_collection_docs p ps V s q asc lim = Fail (Other KeyError) /\
  treduce p V s q = Fail (Other KeyError) /\ treduce_grouped p V s q = Fail (Other KeyError) /\ tdelete_docs E ps V s q = (s, Fail (Other KeyError)).
Proof.
  intros A B E p ps V s q asc lim P X.
  assert (T : tquery p V s q asc lim = Fail (Other KeyError)) by (apply bad_key; assumption).
  assert (D : tquery_with_docs p ps V s q asc lim = Fail (Other KeyError)) by (unfold tquery_with_docs; rewrite T; reflexivity).
  split; [exact T|]. split; [exact D|]. split; [unfold tquery_with_collection_docs; rewrite D; reflexivity|].
  split; [apply bad_key; assumption|]. split; [apply bad_key; assumption|]. unfold tdelete_docs. rewrite bad_key by assumption. reflexivity.
Qed.
Definition ex_bad : tview bytes N := mk_tview ex_coll [9] Lazy (TStruct DenyNulls [TBytes; TU 1]) (tv_ser ex_tv) (tv_de ex_tv) (fun _ => None) (fun _ _ => Done 0).
Example C81_bad_key_ex : encode (tv_key ex_bad) (VTup [VBytes [7; 0]; VU 1]) = Fail ENullByte /\
  tquery anyone ex_bad ex_ts (Some (TRange (KIncluded (VTup [VBytes [7]; VU 1])) (KExcluded (VTup [VBytes [7; 0]; VU 1])))) true None = Fail (Other KeyError).
Proof. split; vm_compute; reflexivity. Qed.

Print Assumptions C81_mappings.
Print Assumptions C81_query.
Print Assumptions C81_limit.
Print Assumptions C81_configure.
Print Assumptions C81_range.
Print Assumptions C81_entries.
Print Assumptions C81_with_docs.
Print Assumptions C81_reduce.
Print Assumptions C81_grouped.
Print Assumptions C81_delete.
Print Assumptions C81_stale_panic_refuted.
Print Assumptions C81_stored_form.
Print Assumptions C81_bad_key.
