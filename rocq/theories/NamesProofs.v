From Verif Require Import Base Utf8 Key DocId DocIdProofs KeyProofs Names.
Local Open Scope N_scope.

(* A name as the API builds it: from a str. *)
Definition api_name (n : name) : Prop := exists s, str_ok s /\ n = name_of (utf8 s).
Definition api_qname (q : qname) : Prop := api_name (q_auth q) /\ api_name (q_name q).
Definition api_vname (v : vname) : Prop := api_qname (v_coll v) /\ api_name (v_name v).

(* Bytes of the encoded form: letters, digits, '-' and '_' *)
Definition safe_byte (b : N) : bool := plain b || (b =? 95).

Definition esc_byte (b : N) : bytes := if plain b then [b] else [95; nib (b / 16); nib (b mod 16)].
Definition esc_check (b : N) : bool :=
  match hex_byte (nib (b / 16)) (nib (b mod 16)) with Some x => x =? b | None => false end
  && plain (nib (b / 16)) && plain (nib (b mod 16)).
Lemma esc_sweep : sweep esc_check 256 0 = true. Proof. vm_compute. reflexivity. Qed.
Lemma esc_fact b : byte_ok b -> esc_check b = true.
Proof. intros H. unfold byte_ok in H. apply (sweep_spec esc_check 256 0 esc_sweep). lia. Qed.

Lemma plain_not_95 b : plain b = true -> (b =? 95) = false.
Proof. unfold plain, alnum. intros H. apply N.eqb_neq. intros ->. vm_compute in H. discriminate. Qed.

Lemma unescape_esc b : bytes_ok b -> unescape (flat_map esc_byte b) = Some b.
Proof.
  induction 1 as [|c l Hc _ IH]; [reflexivity|]. cbn [flat_map]. unfold esc_byte at 1.
  destruct (plain c) eqn:P.
  - cbn [app unescape]. rewrite (plain_not_95 c P), IH. reflexivity.
  - pose proof (esc_fact c Hc) as F. unfold esc_check in F.
    cbn [app unescape]. change (95 =? 95) with true. cbn iota.
    destruct (hex_byte (nib (c / 16)) (nib (c mod 16))) as [x|] eqn:E; [|discriminate].
    rewrite !andb_true_iff, N.eqb_eq in F. destruct F as [[-> _] _]. rewrite IH. reflexivity.
Qed.

Lemma esc_plain_id b : forallb plain b = true -> flat_map esc_byte b = b.
Proof. induction b as [|c l IH]; cbn [flat_map forallb]; [reflexivity|]. rewrite andb_true_iff. intros [P H]. unfold esc_byte at 1. rewrite P. cbn [app]. rewrite (IH H). reflexivity. Qed.

Lemma encoded_esc s : name_encoded (name_of s) = flat_map esc_byte s.
Proof.
  unfold name_encoded, display_name, name_of. cbn. destruct (forallb plain s) eqn:P; cbn; [|reflexivity].
  symmetry. apply esc_plain_id. exact P.
Qed.

Lemma name_roundtrip n : api_name n -> name_parse (name_encoded n) = Some n.
Proof.
  intros (s & Hs & ->). rewrite encoded_esc. unfold name_parse.
  rewrite unescape_esc by (apply utf8_bytes; exact Hs).
  rewrite (utf8_roundtrip s Hs). reflexivity.
Qed.

Lemma esc_safe b : bytes_ok b -> Forall (fun c => safe_byte c = true) (flat_map esc_byte b).
Proof.
  induction 1 as [|c l Hc _ IH]; [constructor|]. cbn [flat_map]. apply Forall_app. split; [|exact IH].
  unfold esc_byte. destruct (plain c) eqn:P.
  - repeat constructor. unfold safe_byte. rewrite P. reflexivity.
  - pose proof (esc_fact c Hc) as F. unfold esc_check in F. rewrite !andb_true_iff in F.
    destruct F as [[_ P1] P2]. repeat constructor; unfold safe_byte; rewrite ?P1, ?P2; reflexivity.
Qed.
Lemma encoded_safe n : api_name n -> Forall (fun c => safe_byte c = true) (name_encoded n).
Proof. intros (s & Hs & ->). rewrite encoded_esc. apply esc_safe, utf8_bytes, Hs. Qed.
Lemma safe_not_dot l : Forall (fun c => safe_byte c = true) l -> ~ In dot l.
Proof. rewrite Forall_forall. intros H I. specialize (H _ I). vm_compute in H. discriminate. Qed.
Lemma encoded_no_dot n : api_name n -> ~ In dot (name_encoded n).
Proof. intros H. apply safe_not_dot, encoded_safe, H. Qed.

Lemma split_dots_nodot a : ~ In dot a -> split_dots a = [a].
Proof.
  induction a as [|c l IH]; intros H; [reflexivity|]. cbn [split_dots].
  destruct (N.eqb_spec c dot) as [->|E]; [exfalso; apply H; left; reflexivity|].
  rewrite IH; [reflexivity|]. intros I. apply H. right. exact I.
Qed.
Lemma split_dots_app a b : ~ In dot a -> split_dots (a ++ dot :: b) = a :: split_dots b.
Proof.
  induction a as [|c l IH]; intros H; cbn [app split_dots].
  - rewrite N.eqb_refl. reflexivity.
  - destruct (N.eqb_spec c dot) as [->|E]; [exfalso; apply H; left; reflexivity|].
    rewrite IH; [reflexivity|]. intros I. apply H. right. exact I.
Qed.

Lemma q_roundtrip q : api_qname q -> q_parse (q_encoded q) = Some q.
Proof.
  intros [Ha Hn]. unfold q_parse, q_encoded, display_q. fold (name_encoded (q_auth q)). fold (name_encoded (q_name q)).
  cbn [app]. rewrite split_dots_app by (apply encoded_no_dot; exact Ha).
  rewrite split_dots_nodot by (apply encoded_no_dot; exact Hn).
  rewrite (name_roundtrip _ Ha), (name_roundtrip _ Hn). destruct q; reflexivity.
Qed.

Lemma rsplit_once_app a b : ~ In dot b -> rsplit_once (a ++ dot :: b) = Some (a, b).
Proof.
  intros H. unfold rsplit_once. rewrite rev_app_distr. cbn [rev].
  rewrite <- app_assoc. cbn [app]. rewrite split_first_app.
  - rewrite !rev_involutive. reflexivity.
  - rewrite <- in_rev. exact H.
Qed.
Lemma v_roundtrip v : api_vname v -> v_parse (v_encoded v) = Some v.
Proof.
  intros [Hc Hn]. unfold v_parse, v_encoded, display_v. fold (q_encoded (v_coll v)). fold (name_encoded (v_name v)).
  cbn [app]. rewrite rsplit_once_app by (apply encoded_no_dot; exact Hn).
  rewrite (q_roundtrip _ Hc), (name_roundtrip _ Hn). destruct v; reflexivity.
Qed.

Lemma some_inj {A} (f : A -> bytes) (g : bytes -> option A) (P : A -> Prop) :
  (forall x, P x -> g (f x) = Some x) -> forall a b, P a -> P b -> f a = f b -> a = b.
Proof. intros H a b Ha Hb E. pose proof (H a Ha) as A1. rewrite E, (H b Hb) in A1. congruence. Qed.

(* ---- tree names ---- *)
Lemma q_parts q : api_qname q -> split_dots (q_encoded q) = [name_encoded (q_auth q); name_encoded (q_name q)].
Proof.
  intros [Ha Hn]. unfold q_encoded, display_q. fold (name_encoded (q_auth q)). fold (name_encoded (q_name q)).
  cbn [app]. rewrite split_dots_app by (apply encoded_no_dot; exact Ha).
  rewrite split_dots_nodot by (apply encoded_no_dot; exact Hn). reflexivity.
Qed.
Lemma v_parts v rest : api_vname v ->
  split_dots (v_encoded v ++ rest) =
  name_encoded (q_auth (v_coll v)) :: name_encoded (q_name (v_coll v)) :: split_dots (name_encoded (v_name v) ++ rest).
Proof.
  intros [[Ha Hn] Hv]. unfold v_encoded, display_v, display_q.
  fold (name_encoded (q_auth (v_coll v))). fold (name_encoded (q_name (v_coll v))). fold (name_encoded (v_name v)).
  rewrite <- !app_assoc. cbn [app].
  rewrite split_dots_app by (apply encoded_no_dot; exact Ha).
  rewrite split_dots_app by (apply encoded_no_dot; exact Hn). reflexivity.
Qed.

Definition api_object (o : object) : Prop :=
  match o with
  | Documents c | ViewVersions c => api_qname c
  | ViewEntries v | ViewDocumentMap v | ViewInvalidated v => api_vname v
  | KeyValues => True
  end.

Definition v_comps (v : vname) : list bytes :=
  [name_encoded (q_auth (v_coll v)); name_encoded (q_name (v_coll v)); name_encoded (v_name v)].
Definition q_comps (q : qname) : list bytes := [name_encoded (q_auth q); name_encoded (q_name q)].

Lemma object_parts o : api_object o ->
  split_dots (tree_name o) =
  match o with
  | Documents c => removelast s_collection :: q_comps c
  | ViewVersions c => removelast s_versions :: q_comps c
  | ViewEntries v => removelast s_view :: v_comps v
  | ViewDocumentMap v => removelast s_view :: v_comps v ++ [tl s_docmap]
  | ViewInvalidated v => removelast s_view :: v_comps v ++ [tl s_invalidated]
  | KeyValues => [s_kv]
  end.
Proof.
  destruct o as [c|v|v|v|c|]; cbn [api_object tree_name]; intros H.
  - change s_collection with (removelast s_collection ++ [dot]) at 1. rewrite <- app_assoc. cbn [app].
    rewrite split_dots_app by (vm_compute; intuition discriminate). rewrite (q_parts c H). reflexivity.
  - change s_view with (removelast s_view ++ [dot]) at 1. rewrite <- app_assoc. cbn [app].
    rewrite split_dots_app by (vm_compute; intuition discriminate).
    rewrite <- (app_nil_r (v_encoded v)), (v_parts v [] H), app_nil_r.
    rewrite split_dots_nodot by (apply encoded_no_dot; apply H). reflexivity.
  - change s_view with (removelast s_view ++ [dot]) at 1. rewrite <- app_assoc. cbn [app].
    rewrite split_dots_app by (vm_compute; intuition discriminate).
    rewrite (v_parts v _ H). change s_docmap with (dot :: tl s_docmap) at 1.
    rewrite split_dots_app by (apply encoded_no_dot; apply H). reflexivity.
  - change s_view with (removelast s_view ++ [dot]) at 1. rewrite <- app_assoc. cbn [app].
    rewrite split_dots_app by (vm_compute; intuition discriminate).
    rewrite (v_parts v _ H). change s_invalidated with (dot :: tl s_invalidated) at 1.
    rewrite split_dots_app by (apply encoded_no_dot; apply H). reflexivity.
  - change s_versions with (removelast s_versions ++ [dot]) at 1. rewrite <- app_assoc. cbn [app].
    rewrite split_dots_app by (vm_compute; intuition discriminate). rewrite (q_parts c H). reflexivity.
  - reflexivity.
Qed.

Lemma q_comps_inj a b : api_qname a -> api_qname b -> q_comps a = q_comps b -> a = b.
Proof.
  intros Ha Hb E. injection E as E1 E2.
  apply (some_inj q_encoded q_parse api_qname q_roundtrip a b Ha Hb).
  unfold q_encoded, display_q. unfold name_encoded in *. rewrite E1, E2. reflexivity.
Qed.
Lemma v_comps_inj a b : api_vname a -> api_vname b -> v_comps a = v_comps b -> a = b.
Proof.
  intros Ha Hb E. injection E as E1 E2 E3.
  apply (some_inj v_encoded v_parse api_vname v_roundtrip a b Ha Hb).
  unfold v_encoded, display_v, display_q. unfold name_encoded in *. rewrite E1, E2, E3. reflexivity.
Qed.

Lemma tree_name_inj a b : api_object a -> api_object b -> tree_name a = tree_name b -> a = b.
Proof.
  intros Ha Hb E. pose proof (object_parts a Ha) as Pa. pose proof (object_parts b Hb) as Pb.
  rewrite E, Pb in Pa. clear Pb E.
  destruct a as [c|v|v|v|c|], b as [c'|v'|v'|v'|c'|]; cbn [api_object] in *;
    try reflexivity; try (vm_compute in Pa; discriminate);
    cbn [app v_comps q_comps] in Pa; inversion Pa; clear Pa; f_equal; symmetry;
    first [apply q_comps_inj; [assumption..|] | apply v_comps_inj; [assumption..|]];
    unfold q_comps, v_comps; congruence.
Qed.

(* ---- resource names ---- *)
Definition dotfree (q : qname) : Prop := ~ In dot (nm_text (q_auth q)).
Lemma display_false n : display_name false n = nm_text n. Proof. reflexivity. Qed.
Lemma display_q_dotfree a b : api_qname a -> api_qname b -> dotfree a -> dotfree b ->
  display_q false a = display_q false b -> a = b.
Proof.
  intros [(s1 & _ & A1) (s2 & _ & A2)] [(t1 & _ & B1) (t2 & _ & B2)] Da Db.
  destruct a as [a1 a2], b as [b1 b2]. unfold display_q, dotfree in *. rewrite !display_false. cbn in *. subst. cbn in *.
  intros E. pose proof (split_first_app dot (utf8 s1) (utf8 s2) Da) as P1.
  pose proof (split_first_app dot (utf8 t1) (utf8 t2) Db) as P2. rewrite E, P2 in P1. injection P1 as -> ->. reflexivity.
Qed.
Lemma display_q_has_dot alt q : In dot (display_q alt q).
Proof. unfold display_q. apply in_or_app. right. left. reflexivity. Qed.

