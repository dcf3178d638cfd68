(* What mapping documents does to a view: batches, chunks and whole runs. *)
From Verif Require Import Base Key KeyPrefix Tree View ViewProofs.
From Coq Require Import Permutation Sorting.Sorted.
Local Open Scope N_scope.

(* the last value emitted for a key *)
Fixpoint last_value (k : bytes) (l : list (bytes * bytes)) : option bytes :=
  match l with
  | [] => None
  | (j, v) :: r => match last_value k r with
                   | Some x => Some x
                   | None => if bytes_eqb k j then Some v else None
                   end
  end.
(* the view holds exactly what the current version of this document emits *)
Definition fresh (vd : vdef) (docs : tree doc) (vs : vstate) (id : bytes) : Prop :=
  match t_get id docs with
  | None => forall k, find_map id (at_key (vs_entries vs) k) = None
  | Some d => exists l, vd_map vd d = Some l /\
      forall k, find_map id (at_key (vs_entries vs) k) = option_map (mk_map (d_header d)) (last_value k l)
  end.
Definition docs_ok (docs : tree doc) : Prop :=
  t_wf docs /\ forall id d, t_get id docs = Some d -> h_id (d_header d) = id.

Lemma fresh_same vd docs vs vs' id :
  (forall k, find_map id (at_key (vs_entries vs') k) = find_map id (at_key (vs_entries vs) k)) ->
  fresh vd docs vs id -> fresh vd docs vs' id.
Proof.
  unfold fresh. intros E H. destruct (t_get id docs).
  - destruct H as (l & M & H). exists l. split; [exact M|]. intros k. rewrite E. apply H.
  - intros k. rewrite E. apply H.
Qed.
Lemma fresh_docs vd docs docs' vs id : t_get id docs' = t_get id docs -> fresh vd docs vs id -> fresh vd docs' vs id.
Proof. unfold fresh. intros ->. auto. Qed.

(* ---------- loading documents ---------- *)
Definition desc : list bytes -> Prop := StronglySorted (fun a b => lex b a = Lt).
Lemma sorted_strong l : sorted l -> StronglySorted (fun a b => lex a b = Lt) l.
Proof.
  induction l as [|k r IH]; intros H; [constructor|]. constructor; [apply IH; eapply sorted_above_sorted; exact H|].
  apply Forall_forall. intros j I. eapply sorted_above_In; eassumption.
Qed.
Lemma strong_app {A} (R : A -> A -> Prop) a b : StronglySorted R a -> StronglySorted R b ->
  (forall x y, In x a -> In y b -> R x y) -> StronglySorted R (a ++ b).
Proof.
  induction a as [|x a IH]; intros A1 B1 C; [exact B1|]. cbn. inversion_clear A1 as [|? ? A2 A3]. constructor.
  - apply IH; [exact A2|exact B1|]. intros; apply C; [right|]; assumption.
  - apply Forall_app. split; [exact A3|]. apply Forall_forall. intros y I. apply C; [left; reflexivity|exact I].
Qed.
Lemma sorted_rev l : sorted l -> desc (rev l).
Proof.
  intros H. apply sorted_strong in H. unfold desc. induction l as [|k r IH]; [constructor|].
  inversion_clear H as [|? ? H1 H2]. cbn [rev]. apply strong_app; [apply IH, H1|repeat constructor|].
  intros x y I [<-|[]]. rewrite Forall_forall in H2. apply H2. apply in_rev. exact I.
Qed.
Lemma desc_NoDup l : desc l -> NoDup l.
Proof.
  induction l as [|k r IH]; intros H; [constructor|]. inversion_clear H as [|? ? H1 H2]. constructor; [|apply IH, H1].
  intros I. rewrite Forall_forall in H2. specialize (H2 k I). rewrite lex_refl in H2. discriminate.
Qed.
Lemma nodup_get {V} k (v : V) t : NoDup (t_keys t) -> (t_get k t = Some v <-> In (k, v) t).
Proof.
  intros N. split; [apply get_In|]. induction t as [|[i w] r IH]; intros I; [destruct I|].
  inversion_clear N as [|? ? N1 N2]. cbn [t_get]. destruct I as [I|I].
  - injection I as -> ->. rewrite bytes_eqb_refl. reflexivity.
  - destruct (bytes_eqb k i) eqn:K; [|apply IH; assumption]. apply bytes_eqb_spec in K. subst.
    exfalso. apply N1. apply (in_map fst) in I. exact I.
Qed.
Lemma pair_docs_spec ids : forall found, desc ids -> desc (t_keys found) -> (forall k, In k (t_keys found) -> In k ids) ->
  pair_docs ids found = map (fun i => (i, t_get i found)) ids.
Proof.
  induction ids as [|i r IH]; intros found DI DF SUB; [reflexivity|]. cbn [pair_docs map].
  inversion_clear DI as [|? ? D1 D2]. rewrite Forall_forall in D2.
  destruct found as [|[j d] f].
  - f_equal. apply IH; [exact D1|constructor|]. intros k [].
  - cbn [t_get]. change (t_keys ((j, d) :: f)) with (j :: t_keys f) in *. inversion_clear DF as [|? ? F1 F2].
    rewrite Forall_forall in F2. destruct (bytes_eqb j i) eqn:E.
    + apply bytes_eqb_spec in E. subst j. rewrite bytes_eqb_refl. f_equal. rewrite IH; [|exact D1|exact F1|].
      * apply map_ext_in. intros x I. f_equal. destruct (bytes_eqb x i) eqn:X; [|reflexivity].
        apply bytes_eqb_spec in X. subst x. specialize (D2 i I). rewrite lex_refl in D2. discriminate.
      * intros k I. destruct (SUB k (or_intror I)) as [<-|J]; [|exact J].
        specialize (F2 i I). rewrite lex_refl in F2. discriminate.
    + assert (JI : In j r). { destruct (SUB j (or_introl eq_refl)) as [<-|J]; [rewrite bytes_eqb_refl in E; discriminate|exact J]. }
      assert (NI : ~ In i (j :: t_keys f)).
      { intros [->|I]; [rewrite bytes_eqb_refl in E; discriminate|]. specialize (F2 i I). specialize (D2 j JI).
        pose proof (lex_lt_trans _ _ _ F2 D2) as L. rewrite lex_refl in L. discriminate. }
      rewrite bytes_eqb_sym, E. f_equal.
      * f_equal. symmetry. apply get_none. intros I. apply NI. right. exact I.
      * rewrite IH; [reflexivity|exact D1| |].
        -- constructor; [exact F1|]. apply Forall_forall. exact F2.
        -- intros k I. destruct (SUB k I) as [<-|J]; [contradiction|exact J].
Qed.
Lemma load_docs_spec docs ids : t_wf docs -> sorted ids ->
  load_docs docs ids = map (fun i => (i, t_get i docs)) (rev ids).
Proof.
  intros W S. unfold load_docs.
  assert (K : forall t : tree doc, t_keys (rev t) = rev (t_keys t)) by (intros; unfold t_keys; apply map_rev).
  assert (D : desc (t_keys (rev (found_docs docs ids)))) by (rewrite K; apply sorted_rev, wf_filter, W).
  rewrite pair_docs_spec; [|apply sorted_rev, S|exact D|].
  - apply map_ext_in. intros i I. f_equal. apply in_rev in I.
    destruct (t_get i docs) as [d|] eqn:G.
    + apply nodup_get; [apply desc_NoDup, D|]. rewrite <- in_rev. apply filter_In. split; [apply get_In, G|].
      apply mem_In. exact I.
    + apply get_none. rewrite K, <- in_rev. intros J. apply get_none in G. apply G. unfold t_keys in *.
      apply in_map_iff in J. destruct J as (p & <- & J). apply in_map. apply filter_In in J. apply J.
  - intros k I. rewrite K in I. rewrite <- in_rev in *. unfold t_keys in I. apply in_map_iff in I.
    destruct I as (p & <- & I). apply filter_In in I. destruct I as [_ I]. apply mem_In in I. exact I.
Qed.

(* ---------- one batch ---------- *)
Lemma map_docs_spec vd ps : forall rs, map_docs vd ps = Some rs ->
  map fst rs = map fst ps /\ forall p, In p ps -> exists m, map_doc vd p = Some m /\ In m rs /\ fst m = fst p.
Proof.
  induction ps as [|p r IH]; intros rs H; cbn [map_docs] in H.
  - injection H as <-. split; [reflexivity|]. intros p [].
  - destruct (map_doc vd p) as [m|] eqn:M; [|discriminate]. destruct (map_docs vd r) as [ms|] eqn:R; [|discriminate].
    injection H as <-. destruct (IH ms eq_refl) as [E F].
    assert (FM : fst m = fst p).
    { unfold map_doc in M. destruct (snd p) as [d|]; [destruct (vd_map vd d); [|discriminate]|]; injection M as <-; reflexivity. }
    split; [cbn [map]; congruence|]. intros q [<-|I]; [exists m; repeat split; [exact M|left; reflexivity|exact FM]|].
    destruct (F q I) as (x & X1 & X2 & X3). exists x. repeat split; [exact X1|right; exact X2|exact X3].
Qed.
Lemma emitted_spec d l id k : h_id (d_header d) = id ->
  emitted (map (fun q => mk_em (fst q) (d_header d) (snd q)) l) id k = option_map (mk_map (d_header d)) (last_value k l).
Proof.
  intros E. unfold emitted. induction l as [|[j v] r IH]; [reflexivity|]. cbn [map filter last_value em_key fst snd].
  destruct (bytes_eqb k j) eqn:K; cbn [last_em em_src].
  - destruct (last_em id (filter _ (map _ r))) as [x|] eqn:L.
    + cbn [option_map] in IH |- *. rewrite IH. destruct (last_value k r); [reflexivity|discriminate IH].
    + cbn [option_map] in IH. destruct (last_value k r); [discriminate|]. rewrite E, bytes_eqb_refl. reflexivity.
  - rewrite IH. destruct (last_value k r); reflexivity.
Qed.
Definition permutes {A} (shuffle : list A -> list A) : Prop := forall l, Permutation (shuffle l) l.

Lemma map_batch_spec shuffle vd docs ids vs vs' :
  permutes shuffle -> vs_ok vd vs -> docs_ok docs -> sorted ids -> map_batch shuffle vd docs ids vs = Done vs' ->
  vs_ok vd vs' /\ vs_invalid vs' = vs_invalid vs /\ (forall id, In id ids -> fresh vd docs vs' id) /\
  (forall id k, ~ In id ids -> find_map id (at_key (vs_entries vs') k) = find_map id (at_key (vs_entries vs) k)).
Proof.
  intros P OK [W D] S H. unfold map_batch in H. rewrite load_docs_spec in H by assumption.
  destruct (map_docs vd (map (fun i => (i, t_get i docs)) (rev ids))) as [rs|] eqn:M; [|discriminate].
  destruct (map_docs_spec _ _ _ M) as [F1 F2]. rewrite map_map, map_id in F1.
  assert (PI : forall m, In m (shuffle rs) <-> In m rs).
  { intros m. split; apply Permutation_in; [|symmetry]; apply P. }
  assert (PF : Permutation (map fst (shuffle rs)) ids).
  { rewrite (Permutation_map fst (P rs)), F1. symmetry. apply Permutation_rev. }
  assert (ND : NoDup (map fst (shuffle rs))).
  { eapply Permutation_NoDup; [symmetry; exact PF|]. apply sorted_NoDup, S. }
  assert (X : forall id, In id ids -> exists ems, In (id, ems) (shuffle rs) /\ map_doc vd (id, t_get id docs) = Some (id, ems)).
  { intros id I. destruct (F2 (id, t_get id docs)) as ([i ems] & A & B & C).
    { apply in_map_iff. exists id. split; [reflexivity|]. apply in_rev. rewrite rev_involutive. exact I. }
    cbn in C. subst i. exists ems. split; [apply PI, B|exact A]. }
  assert (OS : own_source (shuffle rs)).
  { intros id ems e I J. assert (I' : In id ids).
    { eapply Permutation_in; [exact PF|]. apply (in_map fst) in I. exact I. }
    destruct (X id I') as (ems' & A & B).
    assert (E : ems = ems') by (eapply mapped_unique; [exact ND|exact I|exact A]). subst ems'.
    unfold map_doc in B. cbn [snd fst] in B. destruct (t_get id docs) as [d|] eqn:G.
    - destruct (vd_map vd d) as [l|]; [|discriminate]. injection B as B. subst ems. apply in_map_iff in J.
      destruct J as (q & <- & _). cbn. apply D, G.
    - injection B as B. subst ems. destruct J. }
  destruct (apply_batch_spec _ _ _ _ OK OS ND H) as (OK' & INV & IN & OUT).
  split; [exact OK'|]. split; [exact INV|]. split.
  - intros id I. destruct (X id I) as (ems & A & B). unfold fresh. unfold map_doc in B. cbn [snd fst] in B.
    destruct (t_get id docs) as [d|] eqn:G.
    + destruct (vd_map vd d) as [l|] eqn:L; [|discriminate]. injection B as B. exists l. split; [reflexivity|].
      intros k. rewrite (IN id ems k A). subst ems. apply emitted_spec. apply D, G.
    + injection B as B. intros k. rewrite (IN id ems k A). subst ems. reflexivity.
  - intros id k N. apply OUT. intros I. apply N. eapply Permutation_in; [exact PF|exact I].
Qed.

(* ---------- several batches ---------- *)
Lemma map_batches_spec shuffle vd docs : permutes shuffle -> docs_ok docs -> forall bs vs vs', vs_ok vd vs ->
  Forall sorted bs -> NoDup (concat bs) -> map_batches shuffle vd docs bs vs = Done vs' ->
  vs_ok vd vs' /\ vs_invalid vs' = vs_invalid vs /\ (forall id, In id (concat bs) -> fresh vd docs vs' id) /\
  (forall id k, ~ In id (concat bs) -> find_map id (at_key (vs_entries vs') k) = find_map id (at_key (vs_entries vs) k)).
Proof.
  intros P D. induction bs as [|b r IH]; intros vs vs' OK S N H; cbn [map_batches] in H.
  - injection H as <-. repeat split; auto; try apply OK. intros id [].
  - destruct (map_batch shuffle vd docs b vs) as [v1|x|] eqn:B; try discriminate. inversion_clear S as [|? ? S1 S2].
    destruct (map_batch_spec _ _ _ _ _ _ P OK D S1 B) as (OK1 & I1 & F1 & O1).
    cbn [concat] in *.
    assert (NR : NoDup (concat r)). { clear -N. induction b; [exact N|]. inversion_clear N. auto. }
    assert (DJ : forall x, In x b -> ~ In x (concat r)).
    { clear -N. induction b as [|y b IHb]; intros x [] J; inversion_clear N as [|? ? N1 N2].
      - subst. apply N1. apply in_or_app. right. exact J.
      - exact (IHb N2 x H J). }
    destruct (IH v1 vs' OK1 S2 NR H) as (OK2 & I2 & F2 & O2).
    split; [exact OK2|]. split; [congruence|]. split.
    + intros id I. apply in_app_or in I. destruct I as [I|I]; [|apply F2, I].
      eapply fresh_same; [|apply F1, I]. intros k. apply O2. apply DJ, I.
    + intros id k X. rewrite O2, O1; [reflexivity| |]; intros I; apply X; apply in_or_app; auto.
Qed.
Lemma chunks_concat {A} n (l : list A) : (0 < n)%nat -> concat (chunks n l) = l.
Proof.
  intros Hn. unfold chunks. assert (G : forall f (l : list A), (length l <= f)%nat -> concat (chunks_fuel f n l) = l).
  { induction f as [|f IH]; intros m L; [destruct m; [reflexivity|cbn in L; lia]|].
    destruct m as [|x m]; [reflexivity|]. cbn [chunks_fuel concat]. rewrite IH.
    - apply firstn_skipn.
    - rewrite skipn_length. cbn [length] in L |- *. lia. }
  apply G. lia.
Qed.
Lemma sorted_firstn n l : sorted l -> sorted (firstn n l).
Proof.
  revert l; induction n as [|n IH]; intros [|k r] H; try constructor. cbn [firstn].
  apply sorted_above_intro; [apply IH; eapply sorted_above_sorted; exact H|].
  intros j I. eapply sorted_above_In; [exact H|]. rewrite <- (firstn_skipn n r). apply in_or_app. left. exact I.
Qed.
Lemma sorted_skipn n l : sorted l -> sorted (skipn n l).
Proof.
  revert l; induction n as [|n IH]; intros [|k r] H; try exact H. cbn [skipn]. apply IH. eapply sorted_above_sorted; exact H.
Qed.
Lemma chunks_sorted n l : sorted l -> Forall sorted (chunks n l).
Proof.
  unfold chunks. generalize (length l) as f. intros f. revert l. induction f as [|f IH]; intros l H; [constructor|].
  destruct l as [|k r]; [constructor|]. cbn [chunks_fuel]. constructor; [apply sorted_firstn, H|apply IH, sorted_skipn, H].
Qed.
Lemma map_request_spec shuffle vd docs ids vs vs' :
  permutes shuffle -> vs_ok vd vs -> docs_ok docs -> sorted ids -> map_request shuffle vd docs ids vs = Done vs' ->
  vs_ok vd vs' /\ vs_invalid vs' = vs_invalid vs /\ (forall id, In id ids -> fresh vd docs vs' id) /\
  (forall id k, ~ In id ids -> find_map id (at_key (vs_entries vs') k) = find_map id (at_key (vs_entries vs) k)).
Proof.
  intros P OK D S H. unfold map_request in H.
  assert (C : concat (chunks batch_size ids) = ids) by (apply chunks_concat; unfold batch_size; lia).
  apply map_batches_spec in H; [|exact P|exact D|exact OK|apply chunks_sorted, S|rewrite C; apply sorted_NoDup, S].
  rewrite C in H. exact H.
Qed.

(* ---------- a mapper transaction ---------- *)
Lemma remove_all_wf {V} ids : forall t : tree V, t_wf t -> t_wf (remove_all ids t).
Proof. induction ids as [|i r IH]; intros t W; [exact W|]. apply IH, wf_remove, W. Qed.
Lemma remove_all_get {V} ids : forall (t : tree V) k, t_get k (remove_all ids t) = if mem k ids then None else t_get k t.
Proof.
  induction ids as [|i r IH]; intros t k; [reflexivity|]. cbn [remove_all fold_left]. fold (remove_all r (t_remove i t)).
  rewrite IH, get_remove. cbn [mem existsb]. fold (mem k r).
  destruct (bytes_eqb k i); cbn [orb]; destruct (mem k r); reflexivity.
Qed.
Definition invalid (vs : vstate) (id : bytes) : Prop := In id (t_keys (vs_invalid vs)).

Lemma vs_ok_invalid vd e d i j : t_wf j -> vs_ok vd (mk_vs e d i) -> vs_ok vd (mk_vs e d j).
Proof. intros W [A B C D E F G H]. constructor; auto. Qed.

Lemma map_chunk_spec shuffle vd docs ids vs vs' :
  permutes shuffle -> vs_ok vd vs -> docs_ok docs -> sorted ids -> map_chunk shuffle vd docs ids vs = Done vs' ->
  vs_ok vd vs' /\ (forall id, invalid vs' id <-> invalid vs id /\ ~ In id ids) /\
  (forall id, In id ids -> fresh vd docs vs' id) /\
  (forall id k, ~ In id ids -> find_map id (at_key (vs_entries vs') k) = find_map id (at_key (vs_entries vs) k)).
Proof.
  intros P OK D S H. unfold map_chunk in H. destruct (map_request shuffle vd docs ids vs) as [v|x|] eqn:M; try discriminate.
  injection H as <-. destruct (map_request_spec _ _ _ _ _ _ P OK D S M) as (OK1 & I1 & F1 & O1).
  split; [|split; [|split]].
  - destruct v as [e dm iv]. eapply vs_ok_invalid; [|exact OK1]. apply remove_all_wf. apply OK1.
  - intros id. unfold invalid. cbn [vs_invalid]. rewrite !keys_get, remove_all_get, I1.
    destruct (mem id ids) eqn:E; [apply mem_In in E|apply mem_false in E]; split.
    + intros [x X]; discriminate.
    + intros [_ X]; contradiction.
    + intros X; split; assumption.
    + intros [X _]; exact X.
  - exact F1.
  - exact O1.
Qed.

(* ---------- a whole run ---------- *)
Lemma map_view_fuel_spec shuffle vd docs : permutes shuffle -> docs_ok docs -> forall fuel ids vs vs', vs_ok vd vs ->
  sorted ids -> (length ids <= fuel)%nat -> map_view_fuel shuffle fuel vd docs ids vs = Done vs' ->
  vs_ok vd vs' /\ (forall id, invalid vs' id <-> invalid vs id /\ ~ In id ids) /\
  (forall id, In id ids -> fresh vd docs vs' id) /\
  (forall id k, ~ In id ids -> find_map id (at_key (vs_entries vs') k) = find_map id (at_key (vs_entries vs) k)).
Proof.
  intros P D. induction fuel as [|f IH]; intros ids vs vs' OK S L H.
  - destruct ids; [|cbn in L; lia]. cbn in H. injection H as <-.
    split; [exact OK|]. split; [intros id; split; [intros X; split; [exact X|intros []]|intros [X _]; exact X]|].
    split; [intros id []|auto].
  - destruct ids as [|i r].
    { cbn in H. injection H as <-.
      split; [exact OK|]. split; [intros id; split; [intros X; split; [exact X|intros []]|intros [X _]; exact X]|].
      split; [intros id []|auto]. }
    set (l := i :: r) in *. cbn [map_view_fuel] in H. fold l in H.
    change (match l with [] => Done vs | _ :: _ =>
      match map_chunk shuffle vd docs (skipn (length l - view_chunk) l) vs with
      | Done vs'0 => map_view_fuel shuffle f vd docs (firstn (length l - view_chunk) l) vs'0
      | e => e end end = Done vs') in H || idtac.
    set (n := (length l - view_chunk)%nat) in *.
    assert (Hn : (n < length l)%nat).
    { unfold n. assert (0 < view_chunk)%nat by (unfold view_chunk; lia). assert (0 < length l)%nat by (unfold l; cbn; lia). lia. }
    destruct (map_chunk shuffle vd docs (skipn n l) vs) as [v1|x|] eqn:C;
      [|unfold l in H; discriminate|unfold l in H; discriminate].
    destruct (map_chunk_spec _ _ _ _ _ _ P OK D (sorted_skipn n l S) C) as (OK1 & I1 & F1 & O1).
    assert (H' : map_view_fuel shuffle f vd docs (firstn n l) v1 = Done vs') by exact H.
    apply IH in H'; [|exact OK1|apply sorted_firstn, S|rewrite firstn_length; lia].
    destruct H' as (OK2 & I2 & F2 & O2).
    assert (SP : forall x, In x l <-> In x (firstn n l) \/ In x (skipn n l)).
    { intros x. rewrite <- (firstn_skipn n l) at 1. apply in_app_iff. }
    assert (DJ : forall x, In x (skipn n l) -> ~ In x (firstn n l)).
    { assert (N : NoDup (firstn n l ++ skipn n l)) by (rewrite firstn_skipn; apply sorted_NoDup, S). clear -N.
      induction (firstn n l) as [|y a IHa]; intros x X; [intros []|]. inversion_clear N as [|? ? N1 N2].
      intros [<-|J]; [apply N1; apply in_or_app; right; exact X|exact (IHa N2 x X J)]. }
    split; [exact OK2|]. split; [|split].
    + intros id. rewrite I2, I1, SP. tauto.
    + intros id I. apply SP in I. destruct I as [I|I]; [apply F2, I|].
      eapply fresh_same; [|apply F1, I]. intros k. apply O2, DJ, I.
    + intros id k X. rewrite O2, O1; [reflexivity| |]; intros I; apply X, SP; auto.
Qed.
Theorem map_view_spec shuffle vd docs vs vs' :
  permutes shuffle -> docs_ok docs -> vs_ok vd vs -> map_view shuffle vd docs vs = Done vs' ->
  vs_ok vd vs' /\ (forall id, ~ invalid vs' id) /\
  (forall id, invalid vs id -> fresh vd docs vs' id) /\
  (forall id k, ~ invalid vs id -> find_map id (at_key (vs_entries vs') k) = find_map id (at_key (vs_entries vs) k)).
Proof.
  intros P D OK H. unfold map_view in H. apply map_view_fuel_spec in H; auto.
  - destruct H as (A & B & C & E). split; [exact A|]. split; [|split; [exact C|exact E]].
    intros id I. apply B in I. destruct I as [I J]. exact (J I).
  - apply OK.
  - unfold t_keys. rewrite map_length. lia.
Qed.
