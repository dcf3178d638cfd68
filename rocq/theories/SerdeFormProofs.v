(* Proofs about the model of serde forms (SerdeForm.v). *)
From Coq Require Import String.
From Verif Require Import Base Key DocId Names View Docs Kv SerdeForm.
Local Open Scope string_scope.

(* what is written is read back *)
Definition reads {A} (f : format) (c : codec A) (x : A) : Prop := de c f (write f (ser c x)) = Some x.
(* neither null nor a marked Some: what an Option's content must be in formats without marks *)
Definition plain (w : wire) : Prop := match w with WNull | WSome _ => False | _ => True end.

Lemma reads_bool f b : reads f c_bool b. Proof. reflexivity. Qed.
Lemma reads_float f x : reads f c_float x. Proof. reflexivity. Qed.
Lemma reads_string f s : reads f c_string s. Proof. reflexivity. Qed.
Lemma reads_unit f : de c_unit f (write f (ser c_unit tt)) = Some tt. Proof. reflexivity. Qed.
Lemma reads_int f lo hi z : (lo <= z < hi)%Z -> reads f (c_int lo hi) z.
Proof.
  intros H. unfold reads, c_int. cbn [ser de write].
  replace ((lo <=? z) && (z <? hi))%Z with true; [reflexivity|].
  symmetry. apply andb_true_iff. split; [apply Z.leb_le|apply Z.ltb_lt]; lia.
Qed.
Lemma reads_uint f hi n : (n < hi)%N -> reads f (c_uint hi) n.
Proof.
  intros H. unfold reads, c_uint. cbn [ser de write].
  replace ((0 <=? Z.of_N n) && (Z.of_N n <? Z.of_N hi))%Z with true.
  - rewrite N2Z.id. reflexivity.
  - symmetry. apply andb_true_iff. split; [apply Z.leb_le|apply Z.ltb_lt]; lia.
Qed.
Lemma all_map {A B C} (g : A -> option B) (h : C -> A) (k : C -> B) l :
  (forall x, In x l -> g (h x) = Some (k x)) -> all g (map h l) = Some (map k l).
Proof.
  induction l as [|x l IH]; intros H; [reflexivity|]. cbn [map all].
  rewrite (H x) by (left; reflexivity). rewrite IH; [reflexivity|].
  intros y Hy. apply H. right. exact Hy.
Qed.
Lemma reads_vec {A} f (c : codec A) l : Forall (reads f c) l -> reads f (c_vec c) l.
Proof.
  intros H. rewrite Forall_forall in H. unfold reads, c_vec. cbn [ser de write].
  rewrite map_map.
  rewrite (all_map (de c f) (fun x => write f (ser c x)) (fun x => x) l); [rewrite map_id; reflexivity|].
  exact H.
Qed.
Lemma reads_array {A} f n (c : codec A) l : length l = n -> Forall (reads f c) l -> reads f (c_array n c) l.
Proof.
  intros Hn H. rewrite Forall_forall in H. unfold reads, c_array. cbn [ser de write].
  rewrite map_map, map_length, Hn, Nat.eqb_refl. cbn [orb].
  rewrite firstn_all2 by (rewrite map_length; lia).
  rewrite (all_map (de c f) (fun x => write f (ser c x)) (fun x => x) l); [rewrite map_id; reflexivity|].
  exact H.
Qed.
Lemma reads_option {A} f (c : codec A) o :
  (forall x, o = Some x -> reads f c x /\ plain (write f (ser c x))) -> reads f (c_option c) o.
Proof.
  intros H. unfold reads, c_option. cbn [ser de]. destruct o as [x|]; [|reflexivity].
  destruct (H x eq_refl) as [Hx Hp]. unfold reads in Hx. cbn [write].
  destruct (tagged f) eqn:E; [rewrite Hx; reflexivity|].
  destruct (write f (ser c x)); try contradiction; rewrite Hx; reflexivity.
Qed.
Lemma reads_same {A B} f (wrap : A -> B) unwrap (c : codec A) x :
  wrap (unwrap x) = x -> reads f c (unwrap x) -> reads f (c_same wrap unwrap c) x.
Proof. intros H Hx. unfold reads, c_same in *. cbn [ser de]. rewrite Hx. cbn [option_map]. rewrite H. reflexivity. Qed.

(* the fields of a struct *)
Lemma occurrences_write f fs n w :
  NoDup (map fst fs) -> In (n, w) fs ->
  occurrences n (map (fun p => (fst p, write f (snd p))) fs) = [write f w].
Proof.
  assert (Hno : forall fs', ~ In n (map fst fs') -> occurrences n (map (fun p => (fst p, write f (snd p))) fs') = []).
  { induction fs' as [|[m v] r IH]; intros Hn; [reflexivity|]. cbn [map fst snd occurrences].
    destruct (String.eqb_spec m n) as [->|_]; [destruct Hn; left; reflexivity|].
    apply IH. intros Hin. apply Hn. right. exact Hin. }
  induction fs as [|[m v] r IH]; intros Hnd Hin; [destruct Hin|].
  cbn [map fst] in Hnd. inversion Hnd as [|? ? Hm Hr]; subst.
  cbn [map fst snd occurrences]. destruct Hin as [Heq|Hin].
  - injection Heq as -> ->. rewrite String.eqb_refl, Hno by exact Hm. reflexivity.
  - destruct (String.eqb_spec m n) as [->|_].
    + destruct Hm. apply (in_map fst) in Hin. exact Hin.
    + apply IH; assumption.
Qed.
Lemma fields_write f fs names :
  names = map fst fs -> NoDup names ->
  fields f names (write f (NStruct fs)) = Some (map (fun p => Here (write f (snd p))) fs).
Proof.
  intros -> Hnd. cbn [write]. destruct (named f) eqn:E; cbn [fields].
  - rewrite (all_map (from_map (map (fun p => (fst p, write f (snd p))) fs)) fst (fun p => Here (write f (snd p))) fs); [reflexivity|].
    intros [n w] Hin. unfold from_map. cbn [fst snd]. rewrite (occurrences_write f fs n w Hnd Hin). reflexivity.
  - clear Hnd. induction fs as [|[n w] r IH]; [reflexivity|].
    cbn [map fst snd by_position]. rewrite IH. reflexivity.
Qed.
Ltac distinct := repeat constructor; cbn [In]; intuition discriminate.
Lemma write_struct_plain f fs : plain (write f (NStruct fs)).
Proof. cbn [write]. destruct (named f); exact I. Qed.
Lemma position_nth tags : NoDup tags -> forall i, (i < length tags)%nat -> position (nth i tags "") tags = Some i.
Proof.
  induction tags as [|t r IH]; intros Hnd i Hi; [cbn in Hi; lia|].
  inversion Hnd as [|? ? Ht Hr]; subst. destruct i as [|i]; cbn [nth position].
  - rewrite String.eqb_refl. reflexivity.
  - cbn [length] in Hi. destruct (String.eqb_spec t (nth i r "")) as [->|_].
    + destruct Ht. apply nth_In. lia.
    + rewrite IH by (assumption || lia). reflexivity.
Qed.
Lemma which_write (f : format) tags i : NoDup tags -> (i < length tags)%nat ->
  which tags (if named f then ByName (nth i tags "") else ByIndex i) = Some i.
Proof.
  intros Hnd Hi. destruct (named f); cbn [which]; [apply position_nth; assumption|].
  replace (i <? length tags)%nat with true; [reflexivity|]. symmetry. apply Nat.ltb_lt. exact Hi.
Qed.

(* ---------- the types ---------- *)

Definition rev_ok (r : revision) : Prop := (r_id r < 2 ^ 32)%N /\ length (r_sha r) = 32%nat /\ bytes_ok (r_sha r).

Lemma reads_id f i : keeps_bytes f = true -> reads f c_document_id i.
Proof. intros E. unfold reads, c_document_id. cbn [ser de write]. rewrite E. reflexivity. Qed.
Lemma reads_id_none f i : keeps_bytes f = false -> de c_document_id f (write f (ser c_document_id i)) = None.
Proof. intros E. unfold c_document_id. cbn [ser de write]. rewrite E. reflexivity. Qed.
Lemma reads_name f s : reads f c_name (name_of s).
Proof. reflexivity. Qed.
Lemma all_u8 f b : bytes_ok b -> all (de u8 f) (map (fun x => WNum (Z.of_N x)) b) = Some b.
Proof.
  intros H. rewrite (all_map (de u8 f) (fun x => WNum (Z.of_N x)) (fun x => x) b); [rewrite map_id; reflexivity|].
  intros x Hx. unfold bytes_ok in H. rewrite Forall_forall in H. specialize (H x Hx).
  apply (reads_uint f (2 ^ 8) x). exact H.
Qed.
Lemma reads_bytes f lists b : bytes_ok b -> keeps_bytes f = true \/ lists = true -> reads f (c_bytes lists) b.
Proof.
  intros Hb H. unfold reads, c_bytes. cbn [ser de write]. destruct (keeps_bytes f); [reflexivity|].
  destruct H as [H| ->]; [discriminate|]. apply all_u8. exact Hb.
Qed.

Ltac struct_ := cbn [ser de];
  match goal with |- context [fields ?f ?names (write ?f (NStruct ?fs))] =>
    rewrite (fields_write f fs names) by (reflexivity || distinct) end; cbn [map snd]; unfold req.

Lemma reads_revision f r : rev_ok r -> reads f c_revision r.
Proof.
  intros (Hi & Hl & Hb). unfold reads, c_revision. struct_.
  pose proof (reads_uint f (2 ^ 32) (r_id r) Hi) as H1. unfold reads in H1. unfold u32 at 1 2. rewrite H1.
  assert (H2 : reads f (c_array 32 u8) (r_sha r)).
  { apply reads_array; [exact Hl|]. eapply Forall_impl; [|exact Hb]. intros x Hx. apply reads_uint. exact Hx. }
  unfold reads in H2. cbn [bind]. rewrite H2. cbn [bind]. destruct r; reflexivity.
Qed.
Lemma reads_header f h : keeps_bytes f = true -> rev_ok (h_rev h) -> reads f c_header h.
Proof.
  intros E H. unfold reads, c_header. struct_.
  pose proof (reads_id f (h_id h) E) as H1. unfold reads in H1. rewrite H1. cbn [bind].
  pose proof (reads_revision f (h_rev h) H) as H2. unfold reads in H2. rewrite H2. destruct h; reflexivity.
Qed.
Lemma reads_document f lists d : keeps_bytes f = true -> rev_ok (h_rev (d_header d)) -> reads f (c_document lists) d.
Proof.
  intros E H. unfold reads, c_document. struct_.
  pose proof (reads_header f (d_header d) E H) as H1. unfold reads in H1. rewrite H1. cbn [bind].
  unfold c_bytes at 1 2. cbn [ser de write]. rewrite E. cbn [bind]. destruct d; reflexivity.
Qed.
Lemma reads_cheader {A} f (k : codec A) h : reads f k (ch_id h) -> rev_ok (ch_rev h) -> reads f (c_cheader k) h.
Proof.
  intros H1 H. unfold reads in *. unfold c_cheader. struct_. rewrite H1. cbn [bind].
  pose proof (reads_revision f (ch_rev h) H) as H2. unfold reads in H2. rewrite H2. destruct h; reflexivity.
Qed.
Lemma reads_cdoc {A B} f (k : codec A) (c : codec B) d :
  reads f k (ch_id (cd_header d)) -> rev_ok (ch_rev (cd_header d)) -> reads f c (cd_contents d) -> reads f (c_cdoc k c) d.
Proof.
  intros Hk Hr Hc. pose proof (reads_cheader f k (cd_header d) Hk Hr) as Hh.
  unfold reads in *. unfold c_cdoc. cbn [ser de write].
  destruct (named f).
  - cbn [map fst snd]. cbn [visit_map String.eqb Ascii.eqb Bool.eqb]. rewrite Hh, Hc. destruct d; reflexivity.
  - cbn [map fst snd]. rewrite Hh. cbn [bind]. rewrite Hc. destruct d; reflexivity.
Qed.

(* names: a name as the library makes it *)
Definition name_ok (n : name) : Prop := n = name_of (nm_text n).
Definition qname_ok (q : qname) : Prop := name_ok (q_auth q) /\ name_ok (q_name q).
Lemma reads_name_ok f n : name_ok n -> reads f c_name n.
Proof. intros ->. apply reads_name. Qed.
Lemma reads_qname f q : qname_ok q -> reads f c_qname q.
Proof.
  intros [H1 H2]. unfold reads, c_qname. struct_.
  pose proof (reads_name_ok f _ H1) as R1. pose proof (reads_name_ok f _ H2) as R2. unfold reads in R1, R2.
  rewrite R1. cbn [bind]. rewrite R2. destruct q; reflexivity.
Qed.
Lemma reads_vname f v : qname_ok (v_coll v) -> name_ok (v_name v) -> reads f c_vname v.
Proof.
  intros H1 H2. unfold reads, c_vname. struct_.
  pose proof (reads_qname f _ H1) as R1. pose proof (reads_name_ok f _ H2) as R2. unfold reads in R1, R2.
  rewrite R1. cbn [bind]. rewrite R2. destruct v; reflexivity.
Qed.

(* transactions *)
Definition command_ok (c : Docs.command) : Prop :=
  match c with
  | Insert _ b => True | Overwrite _ b => True
  | Update h b => rev_ok (h_rev h)
  | Delete h => rev_ok (h_rev h)
  | Check _ r => forall x, r = Some x -> rev_ok x
  end.
Lemma bytes_kept f lists b : keeps_bytes f = true -> de (c_bytes lists) f (write f (ser (c_bytes lists) b)) = Some b.
Proof. intros E. unfold c_bytes. cbn [ser de write]. rewrite E. reflexivity. Qed.
Lemma write_variant f tags i m : write f (NVariant tags i m) = WVariant (if named f then ByName (nth i tags "") else ByIndex i) (write f m).
Proof. reflexivity. Qed.
Ltac variant_ := cbn [ser de]; rewrite write_variant, which_write by (distinct || (cbn; lia)); cbn [bind].
Ltac fields_ :=
  match goal with |- context [fields ?f ?ns (write ?f (NStruct ?fs))] =>
    rewrite (fields_write f fs ns) by (reflexivity || distinct) end; cbn [map snd]; unfold req, opt, defaulted.
Lemma reads_option_id f id : keeps_bytes f = true -> reads f (c_option c_document_id) id.
Proof.
  intros E. apply reads_option. intros x _. split; [apply reads_id; exact E|].
  unfold c_document_id. cbn [ser write]. rewrite E. exact I.
Qed.
Lemma reads_command f lists c : keeps_bytes f = true -> command_ok c -> reads f (c_command lists) c.
Proof.
  intros E H. unfold reads, c_command.
  assert (Hid : forall i, de c_document_id f (write f (ser c_document_id i)) = Some i) by (intros i; apply (reads_id f i E)).
  assert (Hh : forall h, rev_ok (h_rev h) -> de c_header f (write f (ser c_header h)) = Some h) by (intros h Hr; apply (reads_header f h E Hr)).
  pose proof (bytes_kept f lists) as Hb.
  destruct c as [id b|h b|id b|h|id r]; variant_; fields_.
  - pose proof (reads_option_id f id E) as Ho. unfold reads in Ho. rewrite Ho. cbn [bind]. rewrite Hb by exact E. reflexivity.
  - rewrite Hh by exact H. cbn [bind]. rewrite Hb by exact E. reflexivity.
  - rewrite Hid. cbn [bind]. rewrite Hb by exact E. reflexivity.
  - rewrite Hh by exact H. reflexivity.
  - rewrite Hid. cbn [bind].
    assert (Ho : reads f (c_option c_revision) r).
    { apply reads_option. intros x Hx. split; [apply reads_revision; apply H; exact Hx|]. apply write_struct_plain. }
    unfold reads in Ho. rewrite Ho. reflexivity.
Qed.
Definition operation_ok (o : qname * Docs.command) : Prop := qname_ok (fst o) /\ command_ok (snd o).
Lemma reads_operation f lists o : keeps_bytes f = true -> operation_ok o -> reads f (c_operation lists) o.
Proof.
  intros E [H1 H2]. unfold reads, c_operation. cbn [ser de]. fields_.
  pose proof (reads_qname f _ H1) as R1. pose proof (reads_command f lists _ E H2) as R2. unfold reads in R1, R2.
  rewrite R1. cbn [bind]. rewrite R2. destruct o; reflexivity.
Qed.
Lemma reads_transaction f lists t : keeps_bytes f = true -> Forall operation_ok t -> reads f (c_transaction lists) t.
Proof.
  intros E H. unfold reads, c_transaction. cbn [ser de]. fields_.
  assert (R : reads f (c_vec (c_operation lists)) t).
  { apply reads_vec. eapply Forall_impl; [|exact H]. intros o Ho. apply reads_operation; assumption. }
  exact R.
Qed.
Definition op_result_ok (o : op_result) : Prop :=
  match o with Success => True | DocumentUpdated c h => qname_ok c /\ rev_ok (h_rev h) | DocumentDeleted c _ => qname_ok c end.
Lemma reads_op_result f o : keeps_bytes f = true -> op_result_ok o -> reads f c_op_result o.
Proof.
  intros E H. unfold reads, c_op_result. destruct o as [|c h|c i]; variant_; [reflexivity| |]; fields_.
  - destruct H as [H1 H2]. pose proof (reads_qname f _ H1) as R1. pose proof (reads_header f _ E H2) as R2.
    unfold reads in R1, R2. rewrite R1. cbn [bind]. rewrite R2. reflexivity.
  - pose proof (reads_qname f _ H) as R1. pose proof (reads_id f i E) as R2.
    unfold reads in R1, R2. rewrite R1. cbn [bind]. rewrite R2. reflexivity.
Qed.
Definition changed_doc_ok (d : changed_doc) : Prop := (cc_coll d < 2 ^ 16)%N.
Lemma reads_changed_doc f d : keeps_bytes f = true -> changed_doc_ok d -> reads f c_changed_doc d.
Proof.
  intros E H. unfold reads, c_changed_doc. cbn [ser de]. fields_.
  pose proof (reads_uint f (2 ^ 16) _ H) as R1. pose proof (reads_id f (cc_id d) E) as R2.
  unfold reads in R1, R2. unfold u16 at 1 2. rewrite R1. cbn [bind]. rewrite R2. destruct d; reflexivity.
Qed.
Lemma reads_option_string f o : reads f (c_option c_string) o.
Proof. apply reads_option. intros x _. split; [apply reads_string|exact I]. Qed.
Lemma reads_changed_key f d : reads f c_changed_key d.
Proof.
  unfold reads, c_changed_key. cbn [ser de]. fields_.
  pose proof (reads_option_string f (ck_ns d)) as R1. unfold reads in R1. unfold opt. rewrite R1. destruct d; reflexivity.
Qed.
Definition changes_ok (c : changes) : Prop :=
  match c with Documents cs ds => Forall qname_ok cs /\ Forall changed_doc_ok ds | Keys _ => True end.
Lemma reads_changes f c : keeps_bytes f = true \/ (exists l, c = Keys l) -> changes_ok c -> reads f c_changes c.
Proof.
  intros E H. unfold reads, c_changes. destruct c as [cs ds|l]; variant_.
  - destruct E as [E|[? E]]; [|discriminate]. fields_. destruct H as [H1 H2].
    assert (R1 : reads f (c_vec c_qname) cs) by (apply reads_vec; eapply Forall_impl; [|exact H1]; intros; apply reads_qname; assumption).
    assert (R2 : reads f (c_vec c_changed_doc) ds) by (apply reads_vec; eapply Forall_impl; [|exact H2]; intros; apply reads_changed_doc; assumption).
    unfold reads in R1, R2. rewrite R1. cbn [bind]. rewrite R2. reflexivity.
  - assert (R1 : reads f (c_vec c_changed_key) l) by (apply reads_vec; apply Forall_forall; intros; apply reads_changed_key).
    unfold reads in R1. rewrite R1. reflexivity.
Qed.
Lemma reads_executed f x : keeps_bytes f = true \/ (exists l, x_changes x = Keys l) -> (x_id x < 2 ^ 64)%N -> changes_ok (x_changes x) -> reads f c_executed x.
Proof.
  intros E Hi H. unfold reads, c_executed. cbn [ser de]. fields_.
  pose proof (reads_uint f (2 ^ 64) _ Hi) as R1. pose proof (reads_changes f _ E H) as R2.
  unfold reads in R1, R2. unfold u64 at 1 2. rewrite R1. cbn [bind]. rewrite R2. destruct x; reflexivity.
Qed.

(* the key-value store *)
Definition stamp_ok (t : ts) : Prop := (t_sec t < 2 ^ 64)%N /\ (t_nano t < 2 ^ 32)%N.
Lemma reads_stamp f t : stamp_ok t -> reads f c_stamp t.
Proof.
  intros [H1 H2]. unfold reads, c_stamp. cbn [ser de]. fields_.
  pose proof (reads_uint f (2 ^ 64) _ H1) as R1. pose proof (reads_uint f (2 ^ 32) _ H2) as R2.
  unfold reads in R1, R2. unfold u64 at 1 2. unfold u32 at 1 2. rewrite R1. cbn [bind]. rewrite R2. destruct t; reflexivity.
Qed.
Definition numeric_ok (n : numeric) : Prop :=
  match n with NInt z => (- 2 ^ 63 <= z < 2 ^ 63)%Z | NUInt z => (0 <= z < 2 ^ 64)%Z | Kv.NFloat _ => True end.
Lemma reads_numeric f n : numeric_ok n -> reads f c_numeric n.
Proof.
  intros H. unfold reads, c_numeric. destruct n as [z|z|x]; variant_.
  - pose proof (reads_int f _ _ z H) as R. unfold reads in R. unfold i64. rewrite R. reflexivity.
  - pose proof (reads_int f _ _ z H) as R. unfold reads in R. unfold zu64. rewrite R. reflexivity.
  - reflexivity.
Qed.
(* JSON can carry a byte string only if the external Bytes type reads lists *)
Definition value_ok (f : format) (lists : bool) (v : value) : Prop :=
  match v with VBytes b => bytes_ok b /\ (keeps_bytes f = true \/ lists = true) | VNum n => numeric_ok n end.
Lemma reads_value f lists v : value_ok f lists v -> reads f (c_value lists) v.
Proof.
  intros H. unfold reads, c_value. destruct v as [b|n]; variant_.
  - destruct H as [Hb H]. pose proof (reads_bytes f lists b Hb H) as R. unfold reads in R. rewrite R. reflexivity.
  - pose proof (reads_numeric f n H) as R. unfold reads in R. rewrite R. reflexivity.
Qed.
Lemma reads_check f c : reads f c_check c.
Proof. unfold reads, c_check. destruct c; variant_; reflexivity. Qed.
Lemma reads_option_stamp f o : (forall t, o = Some t -> stamp_ok t) -> reads f (c_option c_stamp) o.
Proof. intros H. apply reads_option. intros x Hx. split; [apply reads_stamp, H, Hx|apply write_struct_plain]. Qed.
Lemma reads_option_check f o : reads f (c_option c_check) o.
Proof. apply reads_option. intros x _. split; [apply reads_check|exact I]. Qed.
Definition set_ok (f : format) (lists : bool) (c : set_cmd) : Prop :=
  value_ok f lists (s_val c) /\ (forall t, s_exp c = Some t -> stamp_ok t).
Lemma reads_set f lists c : set_ok f lists c -> reads f (c_kset lists) c.
Proof.
  intros [H1 H2]. unfold reads, c_kset. cbn [ser de]. fields_.
  pose proof (reads_value f lists _ H1) as R1. pose proof (reads_option_stamp f _ H2) as R2.
  pose proof (reads_option_check f (s_check c)) as R3. unfold reads in R1, R2, R3.
  rewrite R1. cbn [bind]. rewrite R2. cbn [bind]. rewrite R3. destruct c; reflexivity.
Qed.
Definition kcommand_ok (f : format) (lists : bool) (c : Kv.command) : Prop :=
  match c with
  | CSet x => set_ok f lists x
  | CIncr n _ | CDecr n _ => numeric_ok n
  | CGet _ | CDelete => True
  end.
Lemma reads_kcommand f lists c : kcommand_ok f lists c -> reads f (c_kcommand lists) c.
Proof.
  intros H. unfold reads, c_kcommand. destruct c as [x|d| |n s|n s]; variant_.
  - pose proof (reads_set f lists x H) as R. unfold reads in R. rewrite R. reflexivity.
  - fields_. reflexivity.
  - reflexivity.
  - fields_. pose proof (reads_numeric f n H) as R. unfold reads in R. rewrite R. reflexivity.
  - fields_. pose proof (reads_numeric f n H) as R. unfold reads in R. rewrite R. reflexivity.
Qed.
Lemma reads_koperation f lists o : kcommand_ok f lists (ko_command o) -> reads f (c_koperation lists) o.
Proof.
  intros H. unfold reads, c_koperation. cbn [ser de]. fields_.
  pose proof (reads_option_string f (ko_namespace o)) as R1. pose proof (reads_kcommand f lists _ H) as R2.
  unfold reads in R1, R2. rewrite R1. cbn [bind]. rewrite R2. destruct o; reflexivity.
Qed.
Definition entry_ok (f : format) (lists : bool) (e : entry) : Prop :=
  value_ok f lists (e_val e) /\ (forall t, e_exp e = Some t -> stamp_ok t) /\ stamp_ok (e_upd e).
Lemma reads_entry f lists e : entry_ok f lists e -> reads f (c_kentry lists) e.
Proof.
  intros (H1 & H2 & H3). unfold reads, c_kentry. cbn [ser de]. fields_.
  pose proof (reads_value f lists _ H1) as R1. pose proof (reads_option_stamp f _ H2) as R2.
  pose proof (reads_stamp f _ H3) as R3. unfold reads in R1, R2, R3.
  rewrite R1. cbn [bind]. rewrite R2. cbn [bind]. rewrite R3. destruct e; reflexivity.
Qed.
Definition user_ok (u : user) : Prop :=
  Forall (fun n => (n < 2 ^ 64)%N) (us_groups u) /\ Forall (fun n => (n < 2 ^ 64)%N) (us_roles u).
Lemma reads_ids f l : Forall (fun n => (n < 2 ^ 64)%N) l -> reads f (c_vec u64) l.
Proof. intros H. apply reads_vec. eapply Forall_impl; [|exact H]. intros n Hn. apply reads_uint. exact Hn. Qed.
Lemma reads_user f u : user_ok u -> reads f c_user u.
Proof.
  intros [H1 H2]. unfold reads, c_user. cbn [ser de]. fields_.
  pose proof (reads_ids f _ H1) as R1. pose proof (reads_ids f _ H2) as R2.
  pose proof (reads_option_string f (us_hash u)) as R3. unfold reads in R1, R2, R3.
  cbn [bind]. change (de c_string f (write f (ser c_string (us_name u)))) with (Some (us_name u)). cbn [bind].
  rewrite R1. cbn [bind]. rewrite R2. cbn [bind]. rewrite R3. destruct u; reflexivity.
Qed.
