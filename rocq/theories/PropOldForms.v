(* C100: records stored by earlier versions. *)
From Coq Require Import String.
From Verif Require Import Base Key KeyProofs DocId Names View Docs Kv SerdeForm SerdeFormProofs.
Local Open Scope string_scope. Local Open Scope list_scope.

Definition stored {A} (f : format) (c : codec A) (x : A) : wire := write f (ser c x).

Lemma fields_short f fs extra :
  NoDup (map fst fs ++ [extra]) ->
  fields f (map fst fs ++ [extra]) (write f (NStruct fs)) =
    if named f then Some (map (fun p => Here (write f (snd p))) fs ++ [NotNamed])
    else if counted f then Some (map (fun p => Here (write f (snd p))) fs ++ [NotReached]) else None.
Proof.
  intros Hnd. cbn [write]. destruct (named f) eqn:E; cbn [fields].
  - pose proof (NoDup_remove_1 _ _ _ Hnd) as Hn. rewrite app_nil_r in Hn.
    pose proof (NoDup_remove_2 _ _ _ Hnd) as Hx. rewrite app_nil_r in Hx.
    assert (Hall : forall gs rest, (forall p, In p gs -> In p fs) ->
              all (from_map (map (fun p => (fst p, write f (snd p))) fs)) rest = Some [NotNamed] ->
              all (from_map (map (fun p => (fst p, write f (snd p))) fs)) (map fst gs ++ rest)
              = Some (map (fun p => Here (write f (snd p))) gs ++ [NotNamed])).
    { intros gs rest Hin Hr. induction gs as [|[n w] r IH]; [exact Hr|]. cbn [map fst snd List.app all].
      unfold from_map at 1. rewrite (occurrences_write f fs n w Hn (Hin (n, w) (or_introl eq_refl))).
      rewrite IH by (intros p Hp; apply Hin; right; exact Hp). reflexivity. }
    apply Hall; [intros p Hp; exact Hp|]. cbn [all]. unfold from_map.
    assert (Hno : forall gs, ~ In extra (map fst gs) -> occurrences extra (map (fun p => (fst p, write f (snd p))) gs) = []).
    { induction gs as [|[m v] r IH]; intros Hm; [reflexivity|]. cbn [map fst snd occurrences].
      destruct (String.eqb_spec m extra) as [->|_]; [destruct Hm; left; reflexivity|].
      apply IH. intros Hin. apply Hm. right. exact Hin. }
    rewrite Hno by exact Hx. reflexivity.
  - clear Hnd. induction fs as [|[n w] r IH]; cbn [map fst snd List.app by_position].
    + destruct (counted f); reflexivity.
    + rewrite IH. destruct (counted f); reflexivity.
Qed.
Ltac short_ :=
  match goal with |- context [fields ?f ?ns (write ?f (NStruct ?fs))] =>
    let l := eval cbn in (List.last ns "") in
    change (fields f ns (write f (NStruct fs))) with (fields f (map fst fs ++ [l]) (write f (NStruct fs)));
    rewrite (fields_short f fs l) by (cbn [map fst List.app]; distinct) end.

(* a user stored before passwords existed (and an entry stored before `last_updated`) is read,
   with no password (with the earliest time), in a format that names fields or that knows where
   a record ends *)
Theorem C100_old_user : forall f n g r,
  named f = true \/ counted f = true ->
  Forall (fun i => (i < 2 ^ 64)%N) g -> Forall (fun i => (i < 2 ^ 64)%N) r ->
  de c_user f (write f (old_user n g r)) = Some (mk_user n g r None).
Proof.
  intros f n g r Hf Hg Hr. unfold c_user, old_user. cbn [de]. short_.
  pose proof (reads_ids f g Hg) as R1. pose proof (reads_ids f r Hr) as R2. unfold reads in R1, R2.
  assert (H : forall x, x = NotNamed \/ x = NotReached ->
    match Some (map (fun p => Here (write f (snd p))) [("username", ser c_string n); ("groups", ser (c_vec u64) g); ("roles", ser (c_vec u64) r)] ++ [x]) with
    | Some [a; b; c; d] => bind (req c_string f a) (fun n => bind (req (c_vec u64) f b) (fun g => bind (req (c_vec u64) f c) (fun r => bind (defaulted None (c_option c_string) f d) (fun h => Some (mk_user n g r h)))))
    | _ => None end = Some (mk_user n g r None)).
  { intros x Hx. cbn [map snd List.app]. unfold req. change (de c_string f (write f (ser c_string n))) with (Some n).
    cbn [bind]. rewrite R1. cbn [bind]. rewrite R2. cbn [bind]. destruct Hx as [-> | ->]; reflexivity. }
  destruct (named f); [apply H; left; reflexivity|]. destruct Hf as [Hf|Hf]; [discriminate|]. rewrite Hf.
  apply H. right. reflexivity.
Qed.
Theorem C100_old_entry : forall f lists v x,
  named f = true \/ counted f = true -> value_ok f lists v -> (forall t, x = Some t -> stamp_ok t) ->
  de (c_kentry lists) f (write f (old_kentry lists v x)) = Some (Entry v x (Ts 0 0)).
Proof.
  intros f lists v x Hf Hv Hx. unfold c_kentry, old_kentry. cbn [de]. short_.
  pose proof (reads_value f lists v Hv) as R1. pose proof (reads_option_stamp f x Hx) as R2. unfold reads in R1, R2.
  assert (H : forall y, y = NotNamed \/ y = NotReached ->
    match Some (map (fun p => Here (write f (snd p))) [("value", ser (c_value lists) v); ("expiration", ser (c_option c_stamp) x)] ++ [y]) with
    | Some [a; b; c] => bind (req (c_value lists) f a) (fun v => bind (opt c_stamp f b) (fun x => bind (defaulted default_stamp c_stamp f c) (fun u => Some (Entry v x u))))
    | _ => None end = Some (Entry v x (Ts 0 0))).
  { intros y Hy. cbn [map snd List.app]. unfold req, opt. rewrite R1. cbn [bind]. rewrite R2. cbn [bind].
    destruct Hy as [-> | ->]; reflexivity. }
  destruct (named f); [apply H; left; reflexivity|]. destruct Hf as [Hf|Hf]; [discriminate|]. rewrite Hf.
  apply H. right. reflexivity.
Qed.
(* "an entry stored before `last_updated` existed is read with the earliest time" is false of the
   format the store uses: bincode neither names fields nor knows where a record ends, so that
   the field's default never applies.  The key counts as absent, and nothing can be exported
   from a store with such an entry in it, whatever else it holds. *)
Theorem C100_old_entry_refuted : forall lists v x,
  (forall f, named f = false -> counted f = false -> de (c_kentry lists) f (write f (old_kentry lists v x)) = None) /\
  (forall before after k,
     (forall p, In p before -> fst p <> k) ->
     retrieve_key lists (before ++ (k, write bincode (old_kentry lists v x)) :: after) k = None /\
     scan_entries lists (before ++ (k, write bincode (old_kentry lists v x)) :: after) = None).
Proof.
  intros lists v x.
  assert (H : forall f, named f = false -> counted f = false -> de (c_kentry lists) f (write f (old_kentry lists v x)) = None).
  { intros f E1 E2. unfold c_kentry, old_kentry. cbn [de]. short_. rewrite E1, E2. reflexivity. }
  split; [exact H|]. intros before after k Hb. split.
  - unfold retrieve_key. replace (find (fun p => bytes_eqb (fst p) k) _) with (Some (k, write bincode (old_kentry lists v x))).
    + apply H; reflexivity.
    + symmetry. induction before as [|[k' w'] r IH]; cbn [List.app find fst].
      * assert (X : bytes_eqb k k = true) by (apply bytes_eqb_spec; reflexivity). rewrite X. reflexivity.
      * destruct (bytes_eqb k' k) eqn:E.
        -- apply bytes_eqb_spec in E. destruct (Hb (k', w') (or_introl eq_refl) E).
        -- apply IH. intros q Hq. apply Hb. right. exact Hq.
  - induction before as [|[k' w] r IH]; cbn [List.app scan_entries].
    + rewrite H by reflexivity. reflexivity.
    + rewrite IH by (intros q Hq; apply Hb; right; exact Hq). destruct (de (c_kentry lists) bincode w); reflexivity.
Qed.
(* entries stored by this version are found and exported *)
Theorem C100_entries : forall lists es, Forall (fun p => entry_ok bincode lists (snd p)) es -> NoDup (map fst es) ->
  let store := map (fun p => (fst p, stored bincode (c_kentry lists) (snd p))) es in
  (forall k e, In (k, e) es -> retrieve_key lists store k = Some e) /\
  (forall k, ~ In k (map fst es) -> retrieve_key lists store k = None) /\
  scan_entries lists store = Some (flat_map (fun p => match split_key (fst p) with Some n => [(n, snd p)] | None => [] end) es).
Proof.
  intros lists es Hok Hnd. cbv zeta. split; [|split].
  - intros k e Hin. unfold retrieve_key.
    replace (find _ _) with (Some (k, stored bincode (c_kentry lists) e)).
    { rewrite Forall_forall in Hok. apply (reads_entry bincode lists e). exact (Hok (k, e) Hin). }
    symmetry. clear Hok. induction es as [|[k' e'] r IH]; [destruct Hin|].
    cbn [map fst] in Hnd. inversion Hnd as [|? ? Hk Hr]; subst. cbn [map find fst snd].
    destruct (bytes_eqb k' k) eqn:E.
    + apply bytes_eqb_spec in E. subst k'. destruct Hin as [Hin|Hin]; [injection Hin as ->; reflexivity|].
      destruct Hk. apply (in_map fst) in Hin. exact Hin.
    + apply IH; [exact Hr|]. destruct Hin as [Hin|Hin]; [|exact Hin]. injection Hin as -> ->.
      assert (X : bytes_eqb k k = true) by (apply bytes_eqb_spec; reflexivity). rewrite X in E. discriminate.
  - intros k Hk. unfold retrieve_key. replace (find _ _) with (@None (bytes * wire)); [reflexivity|].
    symmetry. clear Hok Hnd. induction es as [|[k' e'] r IH]; [reflexivity|]. cbn [map find fst snd].
    destruct (bytes_eqb k' k) eqn:E; [apply bytes_eqb_spec in E; destruct Hk; left; exact E|].
    apply IH. intros Hin. apply Hk. right. exact Hin.
  - clear Hnd. induction Hok as [|[k e] r He Hr IH]; [reflexivity|]. cbn [map scan_entries fst snd flat_map].
    change (de (c_kentry lists) bincode (stored bincode (c_kentry lists) e)) with (de (c_kentry lists) bincode (write bincode (ser (c_kentry lists) e))).
    pose proof (reads_entry bincode lists e He) as R. unfold reads in R. rewrite R, IH. cbn [option_map].
    destruct (split_key k); reflexivity.
Qed.

(* documents: what this version stores is read back; what the first versions stored (a document
   with a number for its id, in bincode) is read as the document with that number's id, the
   same revision and the same contents, if the bytes are not those of a document in pot; and
   nothing else is read *)
Theorem C100_documents : forall (pot_bytes : wire -> bytes) (from_pot from_bincode : bytes -> option wire),
  (forall w, from_pot (pot_bytes w) = Some w) ->
  (forall d, rev_ok (h_rev (d_header d)) -> deserialize_document from_pot from_bincode (serialize_document pot_bytes d) = Some d) /\
  (forall b i r c, bind (from_pot b) (de (c_document false) pot) = None ->
     (i < 2 ^ 64)%N -> rev_ok r ->
     from_bincode b = Some (stored bincode c_legacy_document (i, r, c)) ->
     deserialize_document from_pot from_bincode b = Some (mk_doc (mk_header (be 8 i) r) c)) /\
  (forall b d, deserialize_document from_pot from_bincode b = Some d ->
     (exists w, from_pot b = Some w /\ de (c_document false) pot w = Some d) \/
     (exists w i r c, from_bincode b = Some w /\ de c_legacy_document bincode w = Some (i, r, c) /\
        d = mk_doc (mk_header (be 8 i) r) c)).
Proof.
  intros pb fp fb Hpot. split; [|split].
  - intros d Hd. unfold deserialize_document, serialize_document. rewrite Hpot. cbn [bind].
    pose proof (reads_document pot false d eq_refl Hd) as R. unfold reads in R. rewrite R. reflexivity.
  - intros b i r c Hn Hi Hr Hb. unfold deserialize_document. rewrite Hn, Hb. cbn [bind].
    assert (R : reads bincode c_legacy_document (i, r, c)); [|unfold reads in R; unfold stored; rewrite R; reflexivity].
    unfold reads, c_legacy_document. cbn [ser de fst snd]. fields_. fields_.
    pose proof (reads_uint bincode (2 ^ 64) i Hi) as R1. pose proof (reads_revision bincode r Hr) as R2. unfold reads in R1, R2.
    unfold u64 at 1 2. rewrite R1. cbn [bind]. rewrite R2. reflexivity.
  - intros b d H. unfold deserialize_document in H.
    destruct (fp b) as [w|] eqn:Ep; cbn [bind] in H.
    + destruct (de (c_document false) pot w) as [d'|] eqn:Ed.
      * injection H as ->. left. exists w. split; [reflexivity|exact Ed].
      * destruct (fb b) as [w'|] eqn:Eb; cbn [bind] in H; [|discriminate].
        destruct (de c_legacy_document bincode w') as [[[i r] c]|] eqn:El; [|discriminate].
        injection H as <-. right. exists w', i, r, c. repeat split; assumption.
    + destruct (fb b) as [w'|] eqn:Eb; cbn [bind] in H; [|discriminate].
      destruct (de c_legacy_document bincode w') as [[[i r] c]|] eqn:El; [|discriminate].
      injection H as <-. right. exists w', i, r, c. repeat split; assumption.
Qed.

(* the version a view was built with: stored and read back; from the first versions' eight bytes
   (the schema's number alone) a version is read that is never current, so that the view is
   rebuilt; the current version is that of this library and this schema, exactly *)
Theorem C100_view_version : forall (pot_bytes : wire -> bytes) (from_pot : bytes -> option wire),
  (forall w, from_pot (pot_bytes w) = Some w) ->
  (forall i n, (i < 2 ^ 8)%N -> (n < 2 ^ 64)%N -> view_version_from_bytes from_pot (view_version_to_vec pot_bytes (i, n)) = Some (i, n)) /\
  (forall n, (n < 2 ^ 64)%N -> from_pot (be 8 n) = None ->
     view_version_from_bytes from_pot (be 8 n) = Some (0%N, n) /\ forall s, version_is_current (0%N, n) s = false) /\
  (forall b, from_pot b = None -> length b <> 8%nat -> view_version_from_bytes from_pot b = None) /\
  (forall i n s, version_is_current (i, n) s = true <-> (i, n) = (3%N, s)).
Proof.
  intros pb fp Hpot. split; [|split; [|split]].
  - intros i n Hi Hn. unfold view_version_from_bytes, view_version_to_vec. rewrite Hpot. unfold c_view_version.
    cbn [ser de fst snd]. fields_.
    pose proof (reads_uint pot (2 ^ 8) i Hi) as R1. pose proof (reads_uint pot (2 ^ 64) n Hn) as R2. unfold reads in R1, R2.
    unfold u8 at 1 2. unfold u64 at 1 2. rewrite R1. cbn [bind]. rewrite R2. reflexivity.
  - intros n Hn Hp. unfold view_version_from_bytes. rewrite Hp.
    assert (Hl : length (be 8 n) = 8%nat) by reflexivity. rewrite Hl, Nat.eqb_refl.
    rewrite of_be_be by exact Hn. split; [reflexivity|]. reflexivity.
  - intros b Hp Hl. unfold view_version_from_bytes. rewrite Hp. apply Nat.eqb_neq in Hl. rewrite Hl. reflexivity.
  - intros i n s. unfold version_is_current, current_for. cbn [fst snd]. rewrite andb_true_iff, !N.eqb_eq. split.
    + intros [-> ->]. reflexivity.
    + intros H. injection H as -> ->. split; reflexivity.
Qed.

(* ---------- examples ---------- *)
Example ex_user : de c_user pot (write pot (old_user [117]%N [1; 2]%N [3]%N)) = Some (mk_user [117]%N [1; 2]%N [3]%N None)
  /\ de c_user bincode (write bincode (old_user [117]%N [1]%N [])) = None.
Proof. repeat split. Qed.
Definition e1 : entry := Entry (VNum (NInt 5)) None (Ts 3 4).
Example ex_entry_ok : entry_ok bincode false e1.
Proof. split; [cbn; lia|]. split; [intros t H; discriminate|]. split; reflexivity. Qed.
(* two entries, one of them old *)
Definition new_store : list (bytes * wire) := [([0; 107]%N, stored bincode (c_kentry false) e1)].
Definition mixed_store : list (bytes * wire) :=
  [([0; 107]%N, stored bincode (c_kentry false) e1); ([0; 111]%N, write bincode (old_kentry false (VNum (NInt 9)) None))].
Example ex_store : retrieve_key false new_store [0; 107]%N = Some e1 /\ scan_entries false new_store = Some [((None, [107]%N), e1)]
  /\ retrieve_key false mixed_store [0; 107]%N = Some e1 /\ retrieve_key false mixed_store [0; 111]%N = None
  /\ scan_entries false mixed_store = None.
Proof. repeat split. Qed.
Example ex_named_entry : de (c_kentry false) pot (write pot (old_kentry false (VNum (NInt 9)) None)) = Some (Entry (VNum (NInt 9)) None (Ts 0 0)).
Proof. reflexivity. Qed.
(* an old document *)
Definition r1 : revision := mk_rev 2 (repeat 1%N 32).
Example ex_old_document :
  deserialize_document (fun _ => None) (fun _ => Some (stored bincode c_legacy_document (258%N, r1, [9]%N))) [1]%N
  = Some (mk_doc (mk_header [0; 0; 0; 0; 0; 0; 1; 2]%N r1) [9]%N).
Proof. vm_compute. reflexivity. Qed.

Print Assumptions C100_old_user.
Print Assumptions C100_old_entry.
Print Assumptions C100_old_entry_refuted.
Print Assumptions C100_entries.
Example ex_view_version : view_version_from_bytes (fun _ => None) [0; 0; 0; 0; 0; 0; 0; 5]%N = Some (0, 5)%N
  /\ version_is_current (3, 5)%N 5 = true /\ version_is_current (0, 5)%N 5 = false.
Proof. repeat split. Qed.

Print Assumptions C100_documents.
Print Assumptions C100_view_version.
