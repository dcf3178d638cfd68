(* C99: the serde forms of documents, transactions and key-value operations come back. *)
From Coq Require Import String.
From Verif Require Import Base Key DocId Names View Docs Kv SerdeForm SerdeFormProofs.
Local Open Scope string_scope. Local Open Scope list_scope.

(* a key's and a document's type are the application's: all that is asked of them is that
   [x] is read back from its own form *)
Definition comes_back {A} (f : format) (c : codec A) (x : A) : Prop := de c f (write f (ser c x)) = Some x.

(* In every format that keeps byte strings (bincode, pot), whatever its other choices: *)
Theorem C99_documents : forall f lists, keeps_bytes f = true ->
  (forall i, comes_back f c_document_id i) /\
  (forall h, rev_ok (h_rev h) -> comes_back f c_header h) /\
  (forall d, rev_ok (h_rev (d_header d)) -> comes_back f (c_document lists) d).
Proof.
  intros f lists E. split; [|split].
  - intros i. apply reads_id. exact E.
  - intros h H. apply reads_header; assumption.
  - intros d H. apply reads_document; assumption.
Qed.
(* a collection document in any format at all in which its key and its contents come back *)
Theorem C99_collection_document : forall A B f (k : codec A) (c : codec B) d,
  comes_back f k (ch_id (cd_header d)) -> comes_back f c (cd_contents d) -> rev_ok (ch_rev (cd_header d)) ->
  comes_back f (c_cdoc k c) d.
Proof. intros A B f k c d Hk Hc Hr. apply reads_cdoc; assumption. Qed.
Theorem C99_transactions : forall f lists, keeps_bytes f = true ->
  (forall t, Forall operation_ok t -> comes_back f (c_transaction lists) t) /\
  (forall o, op_result_ok o -> comes_back f c_op_result o) /\
  (forall x, (x_id x < 2 ^ 64)%N -> changes_ok (x_changes x) -> comes_back f c_executed x).
Proof.
  intros f lists E. split; [|split].
  - intros t H. apply reads_transaction; assumption.
  - intros o H. apply reads_op_result; assumption.
  - intros x Hi H. apply reads_executed; [left; exact E|exact Hi|exact H].
Qed.
(* names in every format: the flag that says whether a name must be escaped is made anew *)
Theorem C99_names : forall f,
  (forall s, comes_back f c_name (name_of s)) /\
  (forall a n, comes_back f c_qname (mk_qname (name_of a) (name_of n))) /\
  (forall a n v, comes_back f c_vname (mk_vname (mk_qname (name_of a) (name_of n)) (name_of v))) /\
  (forall w n, de c_name f w = Some n -> n = name_of (nm_text n)).
Proof.
  intros f. split; [|split; [|split]].
  - intros s. apply reads_name.
  - intros a n. apply reads_qname. split; reflexivity.
  - intros a n v. apply reads_vname; [split|]; reflexivity.
  - intros w n H. destruct w; try discriminate. cbn in H. injection H as <-. reflexivity.
Qed.
(* key-value operations: numbers in every format, byte strings where they can be read *)
Theorem C99_key_values : forall f lists,
  (forall o, kcommand_ok f lists (ko_command o) -> comes_back f (c_koperation lists) o) /\
  (forall e, entry_ok f lists e -> comes_back f (c_kentry lists) e) /\
  (forall n, numeric_ok n -> comes_back f c_numeric n).
Proof.
  intros f lists. split; [|split].
  - intros o H. apply reads_koperation. exact H.
  - intros e H. apply reads_entry. exact H.
  - intros n H. apply reads_numeric. exact H.
Qed.
(* VarInt, durations, timestamps: written exactly as the number inside, and read from exactly
   what that number is read from *)
Theorem C99_same_form : forall A B (wrap : A -> B) unwrap (c : codec A),
  (forall x, ser (c_same wrap unwrap c) x = ser c (unwrap x)) /\
  (forall f w y, de (c_same wrap unwrap c) f w = Some y <-> exists x, de c f w = Some x /\ y = wrap x).
Proof.
  intros A B wrap unwrap c. split; [reflexivity|]. intros f w y. unfold c_same. cbn [de].
  destruct (de c f w) as [x|]; cbn [option_map]; split.
  - intros H. injection H as <-. exists x. split; reflexivity.
  - intros (x' & Hx & ->). injection Hx as <-. reflexivity.
  - discriminate.
  - intros (x' & Hx & _). discriminate.
Qed.

(* ---------- what is accepted ---------- *)

Definition is (name : string) (p : string * wire) : bool := String.eqb (fst p) name.

Lemma visit_map_spec {H C} (rh : wire -> option H) (rc : wire -> option C) l : forall h0 c0 h c,
  visit_map rh rc l h0 c0 = Some (h, c) <->
  exists hs cs,
    (forall p, In p l -> fst p = "header" \/ fst p = "contents") /\
    Forall2 (fun p x => rh (snd p) = Some x) (filter (is "header") l) hs /\
    Forall2 (fun p x => rc (snd p) = Some x) (filter (is "contents") l) cs /\
    last (map Some hs) h0 = Some h /\ last (map Some cs) c0 = Some c.
Proof.
  assert (Hlast : forall (X : Type) (l : list X) (x : X) d, last (map Some (x :: l)) d = last (map Some l) (Some x)).
  { intros X l0. induction l0 as [|y l0 IH]; intros x d; [reflexivity|].
    change (last (map Some (x :: y :: l0)) d) with (last (map Some (y :: l0)) d). rewrite IH.
    rewrite (IH y (Some x)). reflexivity. }
  induction l as [|[k w] r IH]; intros h0 c0 h c.
  - cbn [visit_map filter]. split.
    + intros E. destruct h0 as [h'|], c0 as [c'|]; try discriminate. injection E as -> ->.
      exists [], []. split; [intros p []|]. split; [constructor|]. split; [constructor|]. split; reflexivity.
    + intros (hs & cs & _ & Hh & Hc & Eh & Ec). inversion Hh; subst. inversion Hc; subst.
      cbn in Eh, Ec. subst. reflexivity.
  - cbn [visit_map filter]. unfold is at 1 2. cbn [fst].
    destruct (String.eqb_spec k "header") as [->|Hk].
    + cbn [String.eqb Ascii.eqb Bool.eqb]. destruct (rh w) as [x|] eqn:Ew.
      * rewrite IH. split.
        -- intros (hs & cs & Hn & Hh & Hc & Eh & Ec). exists (x :: hs), cs.
           split; [intros p [<-|Hp]; [left; reflexivity|apply Hn; exact Hp]|].
           split; [constructor; assumption|]. split; [exact Hc|]. split; [rewrite Hlast; exact Eh|exact Ec].
        -- intros (hs & cs & Hn & Hh & Hc & Eh & Ec). inversion Hh as [|? y ? hs' Hy Hr]; subst.
           cbn [snd] in Hy. rewrite Ew in Hy. injection Hy as ->. rewrite Hlast in Eh.
           exists hs', cs. split; [intros p Hp; apply Hn; right; exact Hp|]. split; [exact Hr|]. split; [exact Hc|]. split; assumption.
      * split; [discriminate|]. intros (hs & cs & _ & Hh & _). inversion Hh as [|? y ? hs' Hy Hr]; subst.
        cbn [snd] in Hy. rewrite Ew in Hy. discriminate.
    + destruct (String.eqb_spec k "contents") as [->|Hk2].
      * destruct (rc w) as [x|] eqn:Ew.
        -- rewrite IH. split.
           ++ intros (hs & cs & Hn & Hh & Hc & Eh & Ec). exists hs, (x :: cs).
              split; [intros p [<-|Hp]; [right; reflexivity|apply Hn; exact Hp]|].
              split; [exact Hh|]. split; [constructor; assumption|]. split; [exact Eh|rewrite Hlast; exact Ec].
           ++ intros (hs & cs & Hn & Hh & Hc & Eh & Ec). inversion Hc as [|? y ? cs' Hy Hr]; subst.
              cbn [snd] in Hy. rewrite Ew in Hy. injection Hy as ->. rewrite Hlast in Ec.
              exists hs, cs'. split; [intros p Hp; apply Hn; right; exact Hp|]. split; [exact Hh|]. split; [exact Hr|]. split; assumption.
        -- split; [discriminate|]. intros (hs & cs & _ & _ & Hc & _). inversion Hc as [|? y ? hs' Hy Hr]; subst.
           cbn [snd] in Hy. rewrite Ew in Hy. discriminate.
      * split; [discriminate|]. intros (hs & cs & Hn & _). destruct (Hn (k, w) (or_introl eq_refl)) as [E|E]; cbn [fst] in E; contradiction.
Qed.
Lemma last_some {X} (l : list X) x : last (map Some l) None = Some x <-> exists l', l = (l' ++ [x])%list.
Proof.
  split.
  - destruct l as [|y l] using rev_ind; [discriminate|]. rewrite map_app; cbn [map]; rewrite last_last. intros E. injection E as ->. exists l. reflexivity.
  - intros (l' & ->). rewrite map_app; cbn [map]; rewrite last_last. reflexivity.
Qed.

(* a collection document is read from a map whose fields are all `header` or `contents`, in any
   order, each given at least once; every occurrence must be readable and the last one counts *)
Theorem C99_collection_document_map : forall A B f (k : codec A) (c : codec B) l h x,
  de (c_cdoc k c) f (WMap l) = Some (mk_cd h x) <->
  exists hs xs,
    (forall p, In p l -> fst p = "header" \/ fst p = "contents") /\
    Forall2 (fun p y => de (c_cheader k) f (snd p) = Some y) (filter (is "header") l) (hs ++ [h]) /\
    Forall2 (fun p y => de c f (snd p) = Some y) (filter (is "contents") l) (xs ++ [x]).
Proof.
  intros A B f k c l h x. pose (rh := de (c_cheader k) f). pose (rc := de c f).
  assert (Heq : de (c_cdoc k c) f (WMap l) = Some (mk_cd h x) <-> visit_map rh rc l None None = Some (h, x)).
  { unfold c_cdoc. cbn [de]. fold rh rc. destruct (visit_map rh rc l None None) as [[h' x']|]; cbn [option_map fst snd]; split; intros H; try discriminate; injection H as -> ->; reflexivity. }
  rewrite Heq, visit_map_spec. split.
  - intros (hs & cs & Hn & Hh & Hc & Eh & Ec). apply last_some in Eh. apply last_some in Ec.
    destruct Eh as (hs' & ->). destruct Ec as (cs' & ->). exists hs', cs'. split; [exact Hn|]. split; assumption.
  - intros (hs & xs & Hn & Hh & Hc). exists (hs ++ [h])%list, (xs ++ [x])%list. split; [exact Hn|]. split; [exact Hh|].
    split; [exact Hc|]. split; apply last_some; eexists; reflexivity.
Qed.
(* and, by position, from the header followed by the contents *)
Theorem C99_collection_document_seq : forall A B f (k : codec A) (c : codec B) w h x,
  (forall l, w <> WMap l) ->
  (de (c_cdoc k c) f w = Some (mk_cd h x) <->
   exists a b r, w = WSeq (a :: b :: r) /\ (r = [] \/ spare f = true) /\
     de (c_cheader k) f a = Some h /\ de c f b = Some x).
Proof.
  intros A B f k c w h x Hw. split.
  - intros H. destruct w as [|t|z|y|s|b|w|l|l|t p]; try discriminate; [|destruct (Hw l); reflexivity].
    destruct l as [|a [|b r]]; try discriminate. unfold c_cdoc in H. cbn [de] in H.
    exists a, b, r. split; [reflexivity|].
    destruct (match r with [] => true | _ => spare f end) eqn:Er; [|discriminate].
    split. { destruct r; [left; reflexivity|right; exact Er]. }
    destruct (de (c_cheader k) f a) as [h'|]; cbn [bind] in H; [|discriminate].
    destruct (de c f b) as [x'|]; cbn [bind] in H; [|discriminate].
    injection H as -> ->. split; reflexivity.
  - intros (a & b & r & -> & Hr & Ha & Hb). unfold c_cdoc. cbn [de].
    replace (match r with [] => true | _ => spare f end) with true
      by (symmetry; destruct r; [reflexivity|destruct Hr as [Hr|Hr]; [discriminate|exact Hr]]).
    rewrite Ha. cbn [bind]. rewrite Hb. reflexivity.
Qed.

Lemma occurrences_filter n l : map (fun w => (n, w)) (occurrences n l) = filter (is n) l.
Proof.
  induction l as [|[k w] r IH]; [reflexivity|]. cbn [occurrences filter]. unfold is at 1. cbn [fst].
  destruct (String.eqb_spec k n) as [->|_]; cbn [map]; rewrite IH; reflexivity.
Qed.
(* a header is read more leniently in one way and more strictly in another: fields with other
   names are skipped, but each of its own must be given exactly once *)
Theorem C99_header_map : forall f l i r,
  de c_header f (WMap l) = Some (mk_header i r) <->
  exists a b, filter (is "id") l = [("id", a)] /\ filter (is "revision") l = [("revision", b)] /\
    de c_document_id f a = Some i /\ de c_revision f b = Some r.
Proof.
  intros f l i r. unfold c_header. cbn [de fields all]. unfold from_map.
  rewrite <- !occurrences_filter. split.
  - intros H. destruct (occurrences "id" l) as [|a [|a' la]]; [|  |discriminate].
    + destruct (occurrences "revision" l) as [|b [|b' lb]]; [| |discriminate]; discriminate.
    + destruct (occurrences "revision" l) as [|b [|b' lb]]; [| |discriminate].
      * unfold req in H. destruct (de c_document_id f a); discriminate.
      * unfold req in H. destruct (de c_document_id f a) as [i'|] eqn:Ea; cbn [bind] in H; [|discriminate].
        destruct (de c_revision f b) as [r'|] eqn:Eb; cbn [bind] in H; [|discriminate].
        injection H as -> ->. exists a, b. split; [reflexivity|]. split; [reflexivity|]. split; assumption.
  - intros (a & b & Ha & Hb & Hi & Hr).
    destruct (occurrences "id" l) as [|a' [|a2 la]]; try discriminate. cbn [map] in Ha. injection Ha as ->.
    destruct (occurrences "revision" l) as [|b' [|b2 lb]]; try discriminate. cbn [map] in Hb. injection Hb as ->.
    unfold req. rewrite Hi. cbn [bind]. rewrite Hr. reflexivity.
Qed.

(* ---------- lengths and omissions ---------- *)

Lemma all_spec {A B} (g : A -> option B) l ys : all g l = Some ys <-> Forall2 (fun x y => g x = Some y) l ys.
Proof.
  revert ys. induction l as [|x l IH]; intros ys; cbn [all].
  - split; [intros H; injection H as <-; constructor|intros H; inversion H; reflexivity].
  - split.
    + intros H. destruct (g x) as [y|] eqn:E; [|discriminate]. destruct (all g l) as [r|] eqn:Er; [|discriminate].
      injection H as <-. constructor; [exact E|]. apply IH. reflexivity.
    + intros H. inversion H as [|? y ? r Hy Hr]; subst. rewrite Hy. apply IH in Hr. rewrite Hr. reflexivity.
Qed.
(* an array is read from exactly its number of elements (in formats that pass over what is
   left: from at least that many, the first ones) *)
Theorem C99_array : forall A f n (c : codec A) w xs,
  de (c_array n c) f w = Some xs <->
  exists l rest, w = WSeq (l ++ rest) /\ length l = n /\ (rest = [] \/ spare f = true) /\
    Forall2 (fun v x => de c f v = Some x) l xs.
Proof.
  intros A f n c w xs. unfold c_array. cbn [de]. split.
  - destruct w as [| | | | | | |l| |]; try discriminate. intros H.
    destruct ((length l =? n)%nat || (spare f && (n <=? length l)%nat)) eqn:E; [|discriminate].
    apply all_spec in H. exists (firstn n l), (skipn n l). rewrite firstn_skipn. split; [reflexivity|].
    apply orb_true_iff in E. destruct E as [E|E].
    + apply Nat.eqb_eq in E. subst n. split; [rewrite firstn_all; reflexivity|]. split; [left; apply skipn_all|exact H].
    + apply andb_true_iff in E. destruct E as [Es El]. apply Nat.leb_le in El.
      split; [apply firstn_length_le; exact El|]. split; [right; exact Es|exact H].
  - intros (l & rest & -> & Hl & Hr & H).
    replace ((length (l ++ rest) =? n)%nat || (spare f && (n <=? length (l ++ rest))%nat)) with true.
    + rewrite firstn_app, Hl, Nat.sub_diag, firstn_O, app_nil_r, firstn_all2 by lia. apply all_spec. exact H.
    + symmetry. apply orb_true_iff. rewrite app_length. destruct Hr as [-> |Hs].
      * left. apply Nat.eqb_eq. cbn [length]. lia.
      * right. rewrite Hs. apply Nat.leb_le. lia.
Qed.
(* so that no revision with a digest of another length, or with numbers out of range, is read *)
Theorem C99_wellformed : forall f w,
  (forall r, de c_revision f w = Some r -> rev_ok r) /\
  (forall h, de c_header f w = Some h -> rev_ok (h_rev h)) /\
  (forall lists d, de (c_document lists) f w = Some d -> rev_ok (h_rev (d_header d))).
Proof.
  assert (Hu : forall f n w x, de (c_uint n) f w = Some x -> (x < n)%N).
  { intros f n w x H. destruct w as [| |z| | | | | | |]; try discriminate. unfold c_uint in H. cbn [de] in H.
    destruct ((0 <=? z) && (z <? Z.of_N n))%Z eqn:E; [|discriminate]. injection H as <-.
    apply andb_true_iff in E. destruct E as [E1 E2]. apply Z.leb_le in E1. apply Z.ltb_lt in E2. lia. }
  assert (Hr : forall f w r, de c_revision f w = Some r -> rev_ok r).
  { intros f w r H. unfold c_revision in H. cbn [de] in H.
    destruct (fields f ["id"; "sha256"] w) as [[|a [|b [|? ?]]]|]; try discriminate.
    destruct (req u32 f a) as [i|] eqn:Ei; cbn [bind] in H; [|discriminate].
    destruct (req (c_array 32 u8) f b) as [s|] eqn:Es; cbn [bind] in H; [|discriminate].
    injection H as <-. unfold rev_ok. cbn [r_id r_sha]. split.
    { destruct a as [v| |]; try discriminate. unfold req in Ei. exact (Hu _ _ _ _ Ei). }
    destruct b as [v| |]; try discriminate. unfold req in Es. apply C99_array in Es.
    destruct Es as (l & rest & -> & Hl & _ & Hall). split.
    - rewrite <- Hl. clear - Hall. induction Hall; cbn [length]; congruence.
    - clear - Hall Hu. unfold bytes_ok. induction Hall as [|v x l xs Hx _ IH]; constructor; [|exact IH].
      exact (Hu _ _ _ _ Hx). }
  assert (Hh : forall f w h, de c_header f w = Some h -> rev_ok (h_rev h)).
  { intros f w h H. unfold c_header in H. cbn [de] in H.
    destruct (fields f ["id"; "revision"] w) as [[|a [|b [|? ?]]]|]; try discriminate.
    destruct (req c_document_id f a) as [i|]; cbn [bind] in H; [|discriminate].
    destruct (req c_revision f b) as [r|] eqn:Er; cbn [bind] in H; [|discriminate].
    injection H as <-. cbn [h_rev]. destruct b as [v| |]; try discriminate. exact (Hr _ _ _ Er). }
  intros f w. split; [apply Hr|]. split; [apply Hh|]. intros lists d H. unfold c_document in H. cbn [de] in H.
  destruct (fields f ["header"; "contents"] w) as [[|a [|b [|? ?]]]|]; try discriminate.
  destruct (req c_header f a) as [h|] eqn:Eh; cbn [bind] in H; [|discriminate].
  destruct (req (c_bytes lists) f b) as [c|]; cbn [bind] in H; [|discriminate].
  injection H as <-. cbn [d_header]. destruct a as [v| |]; try discriminate. exact (Hh _ _ _ Eh).
Qed.
(* a header by position: its two fields in this order, and nothing after them unless the format
   passes over that *)
Theorem C99_header_seq : forall f l i r,
  de c_header f (WSeq l) = Some (mk_header i r) <->
  exists a b rest, l = a :: b :: rest /\ (rest = [] \/ spare f = true) /\
    de c_document_id f a = Some i /\ de c_revision f b = Some r.
Proof.
  intros f l i r. unfold c_header. cbn [de fields]. split.
  - intros H. destruct l as [|a [|b rest]]; cbn [by_position] in H; try (destruct (counted f); discriminate).
    { unfold option_map in H. destruct (counted f); [|discriminate]. unfold req in H. destruct (de c_document_id f a); discriminate. }
    exists a, b, rest. split; [reflexivity|].
    assert (Hr : rest = [] \/ spare f = true).
    { destruct rest as [|x rest]; [left; reflexivity|]. cbn [by_position] in H. destruct (spare f); [right; reflexivity|discriminate]. }
    split; [exact Hr|].
    replace (match rest with [] => Some [] | _ :: _ => if spare f then Some [] else None end) with (Some (@nil field)) in H
      by (destruct rest; [reflexivity|]; destruct Hr as [Hr|Hr]; [discriminate|rewrite Hr; reflexivity]).
    cbn [option_map] in H. unfold req in H.
    destruct (de c_document_id f a) as [i'|]; cbn [bind] in H; [|discriminate].
    destruct (de c_revision f b) as [r'|]; cbn [bind] in H; [|discriminate].
    injection H as -> ->. split; reflexivity.
  - intros (a & b & rest & -> & Hr & Ha & Hb). cbn [by_position].
    replace (match rest with [] => Some [] | _ :: _ => if spare f then Some [] else None end) with (Some (@nil field))
      by (destruct rest; [reflexivity|]; destruct Hr as [Hr|Hr]; [discriminate|rewrite Hr; reflexivity]).
    cbn [option_map]. unfold req. rewrite Ha. cbn [bind]. rewrite Hb. reflexivity.
Qed.
(* an optional field may be left out where fields are named, and only there: a key-value
   operation without a namespace *)
Theorem C99_optional_field : forall f lists key c, kcommand_ok f lists c ->
  (forall names, names = [("key", write f (ser c_string key)); ("command", write f (ser (c_kcommand lists) c))] ->
     de (c_koperation lists) f (WMap names) = Some (mk_kop None key c) /\
     de (c_koperation lists) f (WMap (rev names)) = Some (mk_kop None key c)) /\
  (forall l, (length l < 3)%nat -> de (c_koperation lists) f (WSeq l) = None) /\
  (forall t w, which command_tags t = Some 4%nat -> de (c_command lists) f (WVariant t (WSeq [w])) = None).
Proof.
  intros f lists key c H. pose proof (reads_kcommand f lists c H) as R. unfold reads in R.
  match goal with |- ?A /\ ?B /\ ?C => cut ((A /\ B) /\ C); [tauto|] end. split; [split|].
  - intros names ->. cbn [rev List.app]. split; unfold c_koperation; cbn [de fields all]; unfold from_map;
      cbn [occurrences String.eqb Ascii.eqb Bool.eqb]; unfold opt, req;
      change (de c_string f (write f (ser c_string key))) with (Some key); cbn [bind]; rewrite R; reflexivity.
  - intros l Hl. unfold c_koperation. cbn [de fields].
    destruct l as [|a [|b [|x l]]]; cbn [by_position]; [| | |cbn [length] in Hl; lia];
      destruct (counted f); cbn [option_map]; try reflexivity; unfold req, opt.
    + destruct (de (c_option c_string) f a); reflexivity.
    + destruct (de (c_option c_string) f a); cbn [bind]; [|reflexivity]. destruct (de c_string f b); reflexivity.
  - intros t w Ht. unfold c_command. cbn [de]. rewrite Ht. cbn [bind fields by_position].
    destruct (counted f); cbn [option_map]; [|reflexivity]. unfold req, opt.
    destruct (de c_document_id f w); reflexivity.
Qed.
(* what a value that may be missing is read from *)
Theorem C99_option : forall A f (c : codec A) w o,
  (forall v, w = WSome v -> tagged f = true) ->
  (de (c_option c) f w = Some o <->
   (w = WNull /\ o = None) \/
   (exists x, o = Some x /\ w <> WNull /\
      if tagged f then (exists v, w = WSome v /\ de c f v = Some x) else de c f w = Some x)).
Proof.
  intros A f c w o Hw. unfold c_option. cbn [de]. destruct (tagged f) eqn:Et.
  - destruct w as [| | | | | |v| | |]; cbn [option_map].
    1: { split; [intros H; injection H as <-; left; split; reflexivity|]. intros [[_ ->]|(x & _ & Hn & _)]; [reflexivity|contradiction]. }
    6: { destruct (de c f v) as [x|] eqn:E; cbn [option_map]; split.
         - intros H. injection H as <-. right. exists x. split; [reflexivity|]. split; [discriminate|]. exists v. split; [reflexivity|exact E].
         - intros [[H _]|(x' & -> & _ & v' & Hv & Hx)]; [discriminate|]. injection Hv as <-. rewrite E in Hx. injection Hx as ->. reflexivity.
         - discriminate.
         - intros [[H _]|(x' & -> & _ & v' & Hv & Hx)]; [discriminate|]. injection Hv as <-. rewrite E in Hx. discriminate. }
    all: split; [discriminate|]; intros [[H _]|(x' & _ & _ & v' & Hv & _)]; discriminate.
  - destruct w as [| | | | | |v| | |].
    1: { split; [intros H; injection H as <-; left; split; reflexivity|]. intros [[_ ->]|(x & _ & Hn & _)]; [reflexivity|contradiction]. }
    6: { discriminate (Hw v eq_refl). }
    all: match goal with |- option_map Some ?t = _ <-> _ => destruct t as [x|] eqn:E end; cbn [option_map]; split;
      [intros H; injection H as <-; right; exists x; split; [reflexivity|]; split; [discriminate|reflexivity]
      |intros [[H _]|(x' & -> & _ & Hx)]; [discriminate|]; injection Hx as ->; reflexivity
      |discriminate
      |intros [[H _]|(x' & -> & _ & Hx)]; discriminate].
Qed.

(* ---------- what does not come back ---------- *)

(* "a document's JSON form can be read back" is false, of every document: the id is written as a
   list of numbers, which its reader refuses.  So are headers and every command but an insert
   without an id. *)
Theorem C99_json_refuted : forall f lists, keeps_bytes f = false ->
  (forall i, de c_document_id f (write f (ser c_document_id i)) = None) /\
  (forall h, de c_header f (write f (ser c_header h)) = None) /\
  (forall d, de (c_document lists) f (write f (ser (c_document lists) d)) = None) /\
  (forall c, (forall b, c <> Insert None b) -> de (c_command lists) f (write f (ser (c_command lists) c)) = None).
Proof.
  intros f lists E.
  assert (Hi : forall i, de c_document_id f (write f (ser c_document_id i)) = None) by (intros i; apply reads_id_none; exact E).
  assert (Hh : forall h, de c_header f (write f (ser c_header h)) = None).
  { intros h. unfold c_header. struct_. rewrite Hi. reflexivity. }
  split; [exact Hi|]. split; [exact Hh|]. split.
  - intros d. unfold c_document. struct_. rewrite Hh. reflexivity.
  - intros c Hc. unfold c_command. destruct c as [id b|h b|id b|h|id r]; variant_; fields_.
    + destruct id as [i|]; [|destruct (Hc b); reflexivity].
      unfold c_option. cbn [ser de write]. destruct (tagged f); [rewrite Hi; reflexivity|].
      pose proof (Hi i) as H. unfold c_document_id in *. cbn [ser write] in *. rewrite E in *. rewrite H. reflexivity.
    + rewrite Hh. reflexivity.
    + rewrite Hi. reflexivity.
    + rewrite Hh. reflexivity.
    + rewrite Hi. reflexivity.
Qed.
(* reading does not check the length: an id that the API refuses to make can be received *)
Theorem C99_long_id : forall f b, keeps_bytes f = true -> (65535 < N.of_nat (length b))%N ->
  try_from_bytes b = Fail TooLong /\ comes_back f c_document_id b.
Proof.
  intros f b E H. split; [|apply reads_id; exact E]. unfold try_from_bytes, max_length.
  replace (N.of_nat (length b) <=? 65535)%N with false; [reflexivity|]. symmetry. apply N.leb_gt. exact H.
Qed.

(* ---------- the formats in use, and examples ---------- *)
Example ex_formats : keeps_bytes bincode = true /\ keeps_bytes pot = true /\ keeps_bytes json = false.
Proof. repeat split. Qed.
Definition r1 : revision := mk_rev 7 (repeat 255%N 32).
Lemma r1_ok : rev_ok r1.
Proof.
  split; [reflexivity|]. split; [reflexivity|]. apply bytes_okb_spec. reflexivity.
Qed.
Definition d1 : doc := mk_doc (mk_header [1; 2]%N r1) [9; 0]%N.
Example ex_document : de (c_document false) pot (write pot (ser (c_document false) d1)) = Some d1
  /\ de (c_document false) bincode (write bincode (ser (c_document false) d1)) = Some d1
  /\ de (c_document true) json (write json (ser (c_document true) d1)) = None.
Proof. repeat split. Qed.
Definition op1 : qname * Docs.command := (mk_qname (name_of [97]%N) (name_of [46]%N), Update (mk_header [1]%N r1) [5]%N).
Example ex_transaction : Forall operation_ok [op1] /\ de (c_transaction false) pot (write pot (ser (c_transaction false) [op1])) = Some [op1].
Proof. split; [|reflexivity]. constructor; [|constructor]. split; [split; reflexivity|]. exact r1_ok. Qed.
(* a collection document with a numeric key and text, in JSON; with the fields swapped and the
   contents given twice *)
Definition cd1 : cdoc N bytes := mk_cd (mk_ch 5%N r1) [104; 105]%N.
Definition w_header : wire := write json (ser (c_cheader u64) (mk_ch 5%N r1)).
Example ex_collection : comes_back json (c_cdoc u64 c_string) cd1
  /\ de (c_cdoc u64 c_string) json (WMap [("contents", WStr [1]%N); ("header", w_header); ("contents", WStr [104; 105]%N)]) = Some cd1
  /\ de (c_cdoc u64 c_string) json (WMap [("contents", WStr [1]%N); ("header", w_header); ("other", WNull)]) = None
  /\ de (c_cdoc u64 c_string) json (WMap [("contents", WNull); ("header", w_header); ("contents", WStr [1]%N)]) = None
  /\ de (c_cdoc u64 c_string) json (WMap [("header", w_header)]) = None.
Proof. repeat split. Qed.
Example ex_header : de c_header pot (WMap [("x", WNull); ("id", WBytes [1]%N); ("revision", write pot (ser c_revision r1))]) = Some (mk_header [1]%N r1)
  /\ de c_header pot (WMap [("id", WBytes [1]%N); ("id", WBytes [1]%N); ("revision", write pot (ser c_revision r1))]) = None
  /\ de c_header pot (WMap [("id", WBytes [1]%N)]) = None.
Proof. repeat split. Qed.
Definition k1 : koperation := mk_kop (Some [110]%N) [107]%N (CSet (SetCmd (VNum (NInt (-3))) (Some (Ts 5 6)) true (Some OnlyIfVacant) false)).
Example ex_kv : kcommand_ok json false (ko_command k1) /\ de (c_koperation false) json (write json (ser (c_koperation false) k1)) = Some k1.
Proof.
  split; [|reflexivity]. split; [cbn; lia|]. intros t H. injection H as <-. split; reflexivity.
Qed.
Example ex_kv_bytes : kcommand_ok bincode false (CSet (SetCmd (VBytes [1; 255]%N) None true None false)).
Proof.
  split; [|intros t H; discriminate]. split; [apply bytes_okb_spec; reflexivity|left; reflexivity].
Qed.
Definition x1 : executed := mk_executed 12 (Documents [mk_qname (name_of [97]%N) (name_of [98]%N)] [mk_cdc 0 [1]%N true]).
Example ex_executed : changes_ok (x_changes x1) /\ de c_executed bincode (write bincode (ser c_executed x1)) = Some x1.
Proof.
  split; [|reflexivity]. split; constructor; try constructor; try reflexivity.
Qed.
(* a VarInt or a duration in a format is the number itself *)
Example ex_varint : ser (c_same (fun z : Z => Some z) (fun o => match o with Some z => z | None => 0%Z end) i64) (Some 5%Z) = NNum 5.
Proof. reflexivity. Qed.

(* what a variant is stored under: its name as declared where variants are named, and its place in
   the declaration where they are counted *)
Definition stored_under (f : format) (w : wire) (name : string) (place : nat) : Prop :=
  exists p, w = WVariant (if named f then ByName name else ByIndex place) p.
Definition command_label (c : Docs.command) : string * nat :=
  match c with Insert _ _ => ("Insert", 0) | Update _ _ => ("Update", 1) | Overwrite _ _ => ("Overwrite", 2) | Delete _ => ("Delete", 3) | Check _ _ => ("Check", 4) end%nat.
Definition op_result_label (o : op_result) : string * nat :=
  match o with Success => ("Success", 0) | DocumentUpdated _ _ => ("DocumentUpdated", 1) | DocumentDeleted _ _ => ("DocumentDeleted", 2) end%nat.
Definition changes_label (c : SerdeForm.changes) : string * nat := match c with Documents _ _ => ("Documents", 0) | Keys _ => ("Keys", 1) end%nat.
Definition numeric_label (n : numeric) : string * nat := match n with NInt _ => ("Integer", 0) | NUInt _ => ("UnsignedInteger", 1) | Kv.NFloat _ => ("Float", 2) end%nat.
Definition value_label (v : Kv.value) : string * nat := match v with VBytes _ => ("Bytes", 0) | VNum _ => ("Numeric", 1) end%nat.
Definition check_label (c : kcheck) : string * nat := match c with OnlyIfPresent => ("OnlyIfPresent", 0) | OnlyIfVacant => ("OnlyIfVacant", 1) end%nat.
Definition kcommand_label (c : Kv.command) : string * nat :=
  match c with CSet _ => ("Set", 0) | CGet _ => ("Get", 1) | CIncr _ _ => ("Increment", 2) | CDecr _ _ => ("Decrement", 3) | CDelete => ("Delete", 4) end%nat.
Theorem C99_stored_names : forall f lists,
  (forall c, stored_under f (write f (ser (c_command lists) c)) (fst (command_label c)) (snd (command_label c))) /\
  (forall o, stored_under f (write f (ser c_op_result o)) (fst (op_result_label o)) (snd (op_result_label o))) /\
  (forall c, stored_under f (write f (ser c_changes c)) (fst (changes_label c)) (snd (changes_label c))) /\
  (forall n, stored_under f (write f (ser c_numeric n)) (fst (numeric_label n)) (snd (numeric_label n))) /\
  (forall v, stored_under f (write f (ser (c_value lists) v)) (fst (value_label v)) (snd (value_label v))) /\
  (forall c, stored_under f (write f (ser c_check c)) (fst (check_label c)) (snd (check_label c))) /\
  (forall c, stored_under f (write f (ser (c_kcommand lists) c)) (fst (kcommand_label c)) (snd (kcommand_label c))).
Proof. intros f lists. repeat split; intros x; destruct x; eexists; reflexivity. Qed.
Example ex_stored_name : write json (ser (c_command false) (Docs.Delete (mk_header [1]%N r1))) =
  WVariant (ByName "Delete") (WMap [("header", WMap [("id", WSeq [WNum 1]); ("revision", write json (ser c_revision r1))])]).
Proof. vm_compute. reflexivity. Qed.

Print Assumptions C99_documents.
Print Assumptions C99_collection_document.
Print Assumptions C99_transactions.
Print Assumptions C99_names.
Print Assumptions C99_key_values.
Print Assumptions C99_same_form.
Print Assumptions C99_collection_document_map.
Print Assumptions C99_collection_document_seq.
Print Assumptions C99_header_map.
Print Assumptions C99_array.
Print Assumptions C99_wellformed.
Print Assumptions C99_header_seq.
Print Assumptions C99_optional_field.
Print Assumptions C99_option.
Print Assumptions C99_json_refuted.
Print Assumptions C99_long_id.
Print Assumptions C99_stored_names.
