(* Property theorems C16, C17 and C18: names. [api_name n] says that the name was
   built from some Unicode string, which is the only way to build one. *)
From Coq Require String Ascii.
Import String.StringSyntax.
From Verif Require Import Base Utf8 Key DocId Names NamesProofs.
Local Open Scope N_scope.

(* C16 *)
Theorem C16_name_roundtrip : forall s, str_ok s ->
  name_parse (name_encoded (name_of (utf8 s))) = Some (name_of (utf8 s)).
Proof. intros s H. apply name_roundtrip. exists s. auto. Qed.
Theorem C16_name_alphabet : forall s c, str_ok s ->
  In c (name_encoded (name_of (utf8 s))) ->
  48 <= c <= 57 \/ 65 <= c <= 90 \/ 97 <= c <= 122 \/ c = 45 \/ c = 95.
Proof.
  intros s c H I. pose proof (encoded_safe _ (ex_intro _ s (conj H eq_refl))) as F.
  rewrite Forall_forall in F. specialize (F c I). unfold safe_byte, plain, alnum in F.
  rewrite !orb_true_iff, !andb_true_iff, !N.leb_le, !N.eqb_eq in F. lia.
Qed.
Theorem C16_name_injective : forall s t, str_ok s -> str_ok t ->
  name_encoded (name_of (utf8 s)) = name_encoded (name_of (utf8 t)) -> s = t.
Proof.
  intros s t Hs Ht E.
  apply (some_inj name_encoded name_parse api_name name_roundtrip) in E.
  - injection E as E _. apply utf8_inj; assumption.
  - exists s. auto.
  - exists t. auto.
Qed.
Theorem C16_qualified_roundtrip : forall q, api_qname q -> q_parse (q_encoded q) = Some q.
Proof. exact q_roundtrip. Qed.
Theorem C16_qualified_injective : forall a b, api_qname a -> api_qname b -> q_encoded a = q_encoded b -> a = b.
Proof. exact (some_inj q_encoded q_parse api_qname q_roundtrip). Qed.
Theorem C16_view_roundtrip : forall v, api_vname v -> v_parse (v_encoded v) = Some v.
Proof. exact v_roundtrip. Qed.
Theorem C16_view_injective : forall a b, api_vname a -> api_vname b -> v_encoded a = v_encoded b -> a = b.
Proof. exact (some_inj v_encoded v_parse api_vname v_roundtrip). Qed.
(* the names "._é" and "private" of a collection *)
Definition ex_name : str := [46; 95; 233].
Definition ex_private : str := [112;114;105;118;97;116;101].
Definition ex_q : qname := mk_qname (name_of (utf8 ex_private)) (name_of (utf8 ex_name)).
Definition ex_v : vname := mk_vname ex_q (name_of (utf8 [98; 121])).
Example C16_ex : str_ok ex_name /\ api_qname ex_q /\ api_vname ex_v /\
  name_encoded (name_of (utf8 ex_name)) = [95;50;101;95;53;102;95;99;51;95;97;57]. (* "_2e_5f_c3_a9" *)
Proof.
  assert (A : api_qname ex_q). { split; eexists; (split; [|reflexivity]); repeat constructor. }
  split; [repeat constructor|]. split; [exact A|]. split; [split; [exact A|]|vm_compute; reflexivity].
  eexists. split; [|reflexivity]. repeat constructor.
Qed.
(* Text that is not an encoding is accepted too: parsing is not injective. *)
Theorem C16_parse_noncanonical : exists a b n, a <> b /\ name_parse a = Some n /\ name_parse b = Some n.
Proof. exists [97], [95; 54; 49], (name_of [97]). split; [discriminate|]. vm_compute. auto. Qed.
(* What is accepted: every underscore is followed by the two lower-case hexadecimal
   digits of the byte it stands for, every other byte stands for itself, and the result
   is UTF-8 *)
Definition hex_digits : bytes := [48;49;50;51;52;53;54;55;56;57;97;98;99;100;101;102]. (* "0123456789abcdef" *)
Inductive escapes : bytes -> bytes -> Prop :=
| esc_nil : escapes [] []
| esc_plain c b d : c <> 95 -> escapes b d -> escapes (c :: b) (c :: d)
| esc_hex h l i j b d : nth_error hex_digits i = Some h -> nth_error hex_digits j = Some l -> escapes b d ->
    escapes (95 :: h :: l :: b) (N.of_nat i * 16 + N.of_nat j :: d).
Lemma hex_nibble_spec c v : hex_nibble c = Some v <-> exists i, nth_error hex_digits i = Some c /\ v = N.of_nat i.
Proof.
  split.
  - intros H. exists (N.to_nat v). unfold hex_nibble in H. rewrite N2Nat.id. split; [|reflexivity].
    destruct ((48 <=? c) && (c <=? 57)) eqn:A.
    + apply andb_true_iff in A as [A1 A2]. apply N.leb_le in A1, A2. injection H as <-.
      assert (K : exists k, (k < 10)%nat /\ c = 48 + N.of_nat k) by (exists (N.to_nat (c - 48)); lia). destruct K as (k & K & ->). replace (N.to_nat (48 + N.of_nat k - 48)) with k by lia.
      do 10 (destruct k as [|k]; [reflexivity|]). lia.
    + destruct ((97 <=? c) && (c <=? 102)) eqn:B; [|discriminate]. apply andb_true_iff in B as [A1 A2]. apply N.leb_le in A1, A2. injection H as <-.
      assert (K : exists k, (k < 6)%nat /\ c = 97 + N.of_nat k) by (exists (N.to_nat (c - 97)); lia). destruct K as (k & K & ->). replace (N.to_nat (97 + N.of_nat k - 97 + 10)) with (10 + k)%nat by lia.
      do 6 (destruct k as [|k]; [reflexivity|]). lia.
  - intros (i & H & ->). do 16 (destruct i as [|i]; [injection H as <-; reflexivity|]). destruct i; discriminate.
Qed.
Lemma unescape_spec : forall n b d, (length b <= n)%nat -> unescape b = Some d <-> escapes b d.
Proof.
  induction n as [|n IH]; intros b d L.
  - destruct b; [|cbn in L; lia]. split; [intros [= <-]; constructor|intros H; inversion H; reflexivity].
  - destruct b as [|c r]; [split; [intros [= <-]; constructor|intros H; inversion H; reflexivity]|]. cbn in L.
    cbn [unescape]. destruct (N.eqb_spec c 95) as [->|NE].
    + split.
      * destruct r as [|h [|l r']]; try discriminate. unfold hex_byte. destruct (hex_nibble h) as [x|] eqn:Hh; [|discriminate]. destruct (hex_nibble l) as [y|] eqn:Hl; [|discriminate].
        destruct (unescape r') as [d'|] eqn:U; [|discriminate]. intros [= <-]. apply hex_nibble_spec in Hh as (i & I & ->). apply hex_nibble_spec in Hl as (j & J & ->).
        constructor; auto. apply IH; [cbn in L; lia|exact U].
      * intros H. inversion H; subst; [congruence|].
        assert (X : hex_nibble h = Some (N.of_nat i)) by (apply hex_nibble_spec; eauto). assert (Y : hex_nibble l = Some (N.of_nat j)) by (apply hex_nibble_spec; eauto).
        unfold hex_byte. rewrite X, Y. cbn in L. assert (U : unescape b = Some d0) by (apply IH; [lia|assumption]). rewrite U. reflexivity.
    + split.
      * destruct (unescape r) as [d'|] eqn:U; [|discriminate]. intros [= <-]. constructor; [exact NE|]. apply IH; [lia|exact U].
      * intros H. inversion H; subst; [|congruence]. assert (U : unescape r = Some d0) by (apply IH; [lia|assumption]). rewrite U. reflexivity.
Qed.
Theorem C16_parse_accepts : forall b n, name_parse b = Some n <-> escapes b (nm_text n) /\ utf8_decode (nm_text n) <> None /\ n = name_of (nm_text n).
Proof.
  intros b n. unfold name_parse. split.
  - destruct (unescape b) as [d|] eqn:U; [|discriminate]. destruct (utf8_decode d) eqn:W; [|discriminate]. intros [= <-]. cbn [nm_text name_of].
    split; [apply (unescape_spec (length b)); [lia|exact U]|]. split; [congruence|reflexivity].
  - intros (X & Y & Z). apply (unescape_spec (length b)) in X; [|lia]. rewrite X. destruct (utf8_decode (nm_text n)); [congruence|contradiction].
Qed.
(* Only text of exactly two parts is accepted as a qualified name, only text of
   exactly three as a view name. *)
Lemma split_dots_not_nil b : split_dots b <> [].
Proof. destruct b as [|c r]; [discriminate|]. cbn [split_dots]. destruct (c =? dot); [discriminate|]. destruct (split_dots r); discriminate. Qed.
Lemma split_dots_one b y : split_dots b = [y] -> b = y /\ ~ In dot y.
Proof.
  revert y. induction b as [|c r IH]; intros y H; [injection H as <-; split; [reflexivity|intros []]|]. cbn [split_dots] in H.
  destruct (N.eqb_spec c dot) as [->|NE]; [injection H as _ H; destruct (split_dots_not_nil r H)|].
  destruct (split_dots r) as [|p ps] eqn:Q; [destruct (split_dots_not_nil r Q)|]. injection H as <- ->.
  destruct (IH p eq_refl) as [-> NI]. split; [reflexivity|]. intros [E|I]; [congruence|contradiction].
Qed.
Lemma split_dots_two b x y : split_dots b = [x; y] -> b = x ++ dot :: y /\ ~ In dot x /\ ~ In dot y.
Proof.
  revert x. induction b as [|c r IH]; intros x H; [discriminate|]. cbn [split_dots] in H.
  destruct (N.eqb_spec c dot) as [->|NE].
  - injection H as <- H. destruct (split_dots_one r y H) as [-> NI]. split; [reflexivity|]. split; [intros []|exact NI].
  - destruct (split_dots r) as [|p ps] eqn:Q; [discriminate|]. injection H as <- ->. destruct (IH p eq_refl) as (-> & A & B).
    split; [reflexivity|]. split; [|exact B]. intros [E|I]; [congruence|contradiction].
Qed.
Theorem C16_qualified_two_parts : forall b q, q_parse b = Some q ->
  exists x y, b = x ++ dot :: y /\ ~ In dot x /\ ~ In dot y /\ name_parse x = Some (q_auth q) /\ name_parse y = Some (q_name q).
Proof.
  intros b q H. unfold q_parse in H. destruct (split_dots b) as [|x [|y [|]]] eqn:Q; try discriminate.
  destruct (name_parse x) as [a|] eqn:A; [|discriminate]. destruct (name_parse y) as [n|] eqn:B; [|discriminate]. injection H as <-.
  exists x, y. destruct (split_dots_two b x y Q) as (E & F & G). auto.
Qed.
Example C16_ex_parts : q_parse [97; 46; 98] = Some (mk_qname (name_of [97]) (name_of [98])) /\ q_parse [97; 46; 98; 46; 99] = None.
Proof. vm_compute. auto. Qed.
(* ---------- the names as a permission statement writes them ---------- *)
Local Open Scope string_scope.
Local Open Scope N_scope.
Definition text (s : String.string) : bytes := map Ascii.N_of_ascii (String.list_ascii_of_string s).
Notation "'txt' s" := (text s) (at level 1, s at level 0).
(* everything in a database lies below bonsaidb.<database>, the parts in this order *)
Theorem C18_shapes : forall db c v id topic ns key,
  collection_resource db c = [txt "bonsaidb"; db; display_q false c] /\
  document_resource db c id = [txt "bonsaidb"; db; display_q false c; txt "document"; id] /\
  view_resource db v = [txt "bonsaidb"; db; display_q false (v_coll v); txt "view"; nm_text (v_name v)] /\
  pubsub_resource db topic = [txt "bonsaidb"; db; txt "pubsub"; topic] /\
  keyvalue_key_resource db ns key = [txt "bonsaidb"; db; txt "keyvalue"; match ns with Some n => n | None => [] end; key].
Proof. intros. repeat split; reflexivity. Qed.
Print Assumptions C16_qualified_two_parts.
Print Assumptions C16_parse_noncanonical.
Print Assumptions C16_name_roundtrip.
Print Assumptions C16_name_alphabet.
Print Assumptions C16_name_injective.
Print Assumptions C16_qualified_roundtrip.
Print Assumptions C16_qualified_injective.
Print Assumptions C16_view_roundtrip.
Print Assumptions C16_view_injective.

(* C17 *)
Theorem C17_tree_names_distinct : forall a b, api_object a -> api_object b ->
  tree_name a = tree_name b -> a = b.
Proof. exact tree_name_inj. Qed.
Example C17_ex : api_object (ViewEntries ex_v) /\ api_object (ViewDocumentMap ex_v) /\ api_object KeyValues /\
  tree_name (ViewEntries ex_v) <> tree_name (ViewDocumentMap ex_v).
Proof. pose proof C16_ex as (_ & _ & H & _). repeat split; try apply H. vm_compute. discriminate. Qed.
Print Assumptions C17_tree_names_distinct.

(* C18: with authorities that contain no '.', resource names identify the object. *)
Theorem C18_collections : forall db a db' b, api_qname a -> api_qname b ->
  ~ In dot (nm_text (q_auth a)) -> ~ In dot (nm_text (q_auth b)) ->
  collection_resource db a = collection_resource db' b -> db = db' /\ a = b.
Proof.
  intros db a db' b Ha Hb Da Db E. injection E as -> E. split; [reflexivity|].
  apply display_q_dotfree; assumption.
Qed.
Theorem C18_documents : forall db a i db' b j, api_qname a -> api_qname b ->
  ~ In dot (nm_text (q_auth a)) -> ~ In dot (nm_text (q_auth b)) ->
  document_resource db a i = document_resource db' b j -> db = db' /\ a = b /\ i = j.
Proof.
  intros db a i db' b j Ha Hb Da Db E. injection E as -> E ->. split; [reflexivity|]. split; [|reflexivity].
  apply display_q_dotfree; assumption.
Qed.
Theorem C18_views : forall db v db' w, api_vname v -> api_vname w ->
  ~ In dot (nm_text (q_auth (v_coll v))) -> ~ In dot (nm_text (q_auth (v_coll w))) ->
  view_resource db v = view_resource db' w -> db = db' /\ v = w.
Proof.
  intros db v db' w [Hv (s & _ & V)] [Hw (t & _ & W)] Dv Dw E. injection E as -> E1 E2. split; [reflexivity|].
  assert (v_coll v = v_coll w) by (apply display_q_dotfree; assumption).
  destruct v, w. cbn in *. subst. cbn in *. rewrite E2. reflexivity.
Qed.
(* Objects of different kinds never share a name, whatever the names are. *)
Theorem C18_kinds_distinct : forall db c i v db' v' t ns k,
  document_resource db c i <> view_resource db' v /\
  document_resource db c i <> pubsub_resource db' t /\
  document_resource db c i <> keyvalue_key_resource db' ns k /\
  view_resource db v' <> keyvalue_key_resource db' ns k /\
  collection_resource db c <> kv_resource db' /\
  pubsub_resource db t <> keyvalue_key_resource db' ns k.
Proof.
  assert (D : forall c, display_q false c <> s_keyvalue).
  { intros c E. pose proof (display_q_has_dot false c) as I. rewrite E in I. vm_compute in I. intuition discriminate. }
  intros. repeat split; try discriminate.
  - intros E. injection E as _ E _ _. revert E. apply D.
  - intros E. injection E as _ E _ _. revert E. apply D.
  - intros E. injection E as _ E. revert E. apply D.
Qed.
(* Distinct collections with '.' in a name share all their resource names. *)
Theorem C18_dotted_authority_refuted : exists a b, api_qname a /\ api_qname b /\ a <> b /\
  forall db id, document_resource db a id = document_resource db b id.
Proof.
  exists (mk_qname (name_of (utf8 [97; 46; 98])) (name_of (utf8 [99]))),
         (mk_qname (name_of (utf8 [97])) (name_of (utf8 [98; 46; 99]))).
  split; [|split; [|split]].
  - split; eexists; (split; [|reflexivity]); repeat constructor.
  - split; eexists; (split; [|reflexivity]); repeat constructor.
  - vm_compute. discriminate.
  - reflexivity.
Qed.
Example C18_ex : api_qname ex_q /\ ~ In dot (nm_text (q_auth ex_q)).
Proof. split; [exact (proj1 (proj2 C16_ex))|]. vm_compute. intuition discriminate. Qed.
(* PubSub topics and key-value keys: different databases, topics or keys have
   different names; no namespace is the namespace "". *)
Theorem C18_topics : forall db t db' t', pubsub_resource db t = pubsub_resource db' t' -> db = db' /\ t = t'.
Proof. intros db t db' t' H. injection H as -> ->. auto. Qed.
Theorem C18_keys : forall db ns k db' ns' k', keyvalue_key_resource db ns k = keyvalue_key_resource db' ns' k' ->
  db = db' /\ k = k' /\ (ns = ns' \/ (ns = None /\ ns' = Some []) \/ (ns = Some [] /\ ns' = None)).
Proof.
  intros db ns k db' ns' k' H. injection H as -> H ->. split; [reflexivity|]. split; [reflexivity|].
  destruct ns as [n|], ns' as [n'|]; subst; auto.
Qed.
Example C18_ex_keys : keyvalue_key_resource [100] None [107] = keyvalue_key_resource [100] (Some []) [107] /\
  keyvalue_key_resource [100] (Some [110]) [107] <> keyvalue_key_resource [100] (Some [107]) [110].
Proof. split; [reflexivity|discriminate]. Qed.
Print Assumptions C18_topics.
Print Assumptions C18_keys.
Print Assumptions C18_collections.
Print Assumptions C18_documents.
Print Assumptions C18_views.
Print Assumptions C18_kinds_distinct.
Print Assumptions C18_dotted_authority_refuted.
Print Assumptions C16_parse_accepts.
Print Assumptions C18_shapes.
