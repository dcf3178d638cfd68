(* Facts about Files.v: blocks, chunks, appending, deleting, truncating. *)
From Verif Require Import Base Key KeyProofs Files.
From Coq Require Import Permutation Sorted ZifyBool.
Local Open Scope N_scope.

(* ---------- blocks ---------- *)
Lemma to_unsigned_bound8 z : to_unsigned 8 z < 256 ^ N.of_nat 8.
Proof. unfold to_unsigned, umod. assert (H : (0 < Z.of_N (256 ^ N.of_nat 8))%Z) by reflexivity.
  pose proof (Z.mod_pos_bound z _ H). apply N2Z.inj_lt. rewrite Z2N.id by lia. lia. Qed.
Definition trailer (f : N) (t : Z) : bytes := be 4 f ++ be 8 (to_unsigned 8 t).
Lemma trailer_length f t : length (trailer f t) = 12%nat.
Proof. unfold trailer. rewrite app_length, !be_length. reflexivity. Qed.
Lemma block_length c f t : length (block_bytes c f t) = (length c + 12)%nat.
Proof. unfold block_bytes. fold (trailer f t). rewrite app_length, trailer_length. reflexivity. Qed.
Lemma block_map_length c f t : map_length (block_bytes c f t) = length c.
Proof. unfold map_length. rewrite block_length. lia. Qed.
Lemma skipn_app_exact {A} (a b : list A) : skipn (length a) (a ++ b) = b.
Proof. induction a; [reflexivity|]. exact IHa. Qed.
Lemma firstn_app_exact {A} (a b : list A) : firstn (length a) (a ++ b) = a.
Proof. induction a; cbn; [reflexivity|]. rewrite IHa. reflexivity. Qed.
Lemma block_data c f t : firstn (length (block_bytes c f t) - 12) (block_bytes c f t) = c.
Proof. rewrite block_length. replace (length c + 12 - 12)%nat with (length c) by lia. unfold block_bytes. apply firstn_app_exact. Qed.
Lemma block_file_id c f t : f < 256 ^ 4 -> map_file_id (block_bytes c f t) = f.
Proof.
  intros H. unfold map_file_id. rewrite block_length. replace (length c + 12 - 12)%nat with (length c) by lia.
  unfold block_bytes. rewrite skipn_app_exact. rewrite <- (be_length 4 f) at 1. rewrite firstn_app_exact. apply of_be_be. exact H.
Qed.
Lemma block_timestamp c f t : (i64_min <= t <= i64_max)%Z -> map_timestamp (block_bytes c f t) = t.
Proof.
  intros H. unfold map_timestamp. rewrite block_length. unfold block_bytes. rewrite app_assoc.
  replace (length c + 12 - 8)%nat with (length (c ++ be 4 f)) by (rewrite app_length, be_length; lia).
  rewrite skipn_app_exact, of_be_be by apply to_unsigned_bound8.
  assert (U : Z.of_N (umod 8) = 18446744073709551616%Z) by reflexivity.
  assert (D : umod 8 / 2 = 9223372036854775808) by reflexivity.
  unfold to_signed, to_unsigned. rewrite U, D. unfold i64_min, i64_max in H.
  destruct (Z.leb_spec 0 t).
  - rewrite Z.mod_small by lia. destruct (N.ltb_spec (Z.to_N t) 9223372036854775808); [rewrite Z2N.id by lia; reflexivity|lia].
  - replace (t mod 18446744073709551616)%Z with (t + 18446744073709551616)%Z.
    2:{ rewrite <- (Z.mod_add t 1) by lia. rewrite Z.mul_1_l, Z.mod_small by lia. reflexivity. }
    destruct (N.ltb_spec (Z.to_N (t + 18446744073709551616)) 9223372036854775808); [lia|]. rewrite Z2N.id by lia. lia.
Qed.

(* ---------- chunks ---------- *)
Lemma chunks_aux_concat n fuel l : (0 < n)%nat -> (length l <= fuel)%nat -> concat (chunks_aux fuel n l) = l.
Proof.
  intros Hn. revert l; induction fuel as [|k IH]; intros l Hl; cbn [chunks_aux].
  - destruct l; [reflexivity|cbn in Hl; lia].
  - destruct l as [|x r] eqn:E; [reflexivity|]. rewrite <- E in *. cbn [concat]. rewrite IH.
    + apply firstn_skipn.
    + rewrite skipn_length. subst l. cbn [length] in *. lia.
Qed.
Lemma chunks_concat n l : (0 < n)%nat -> concat (chunks n l) = l.
Proof. intros H. apply chunks_aux_concat; [exact H|lia]. Qed.
Lemma chunks_aux_ok n fuel l : (0 < n)%nat -> Forall (fun c => (0 < length c <= n)%nat) (chunks_aux fuel n l).
Proof.
  intros Hn. revert l; induction fuel as [|k IH]; intros l; cbn [chunks_aux]; [constructor|].
  destruct l as [|x r]; [constructor|]. constructor; [|apply IH]. rewrite firstn_length. cbn [length]. lia.
Qed.

(* ---------- the collection of blocks ---------- *)
Definition good_block (bs : nat) (b : bytes) : Prop :=
  exists c f t, b = block_bytes c f t /\ f < u32_mod /\ (0 < length c <= bs)%nat.
Record wf (bs : nat) (db : fdb) : Prop := {
  wf_sorted : StronglySorted N.lt (map fst (blocks db));
  wf_blocks : Forall (good_block bs) (map snd (blocks db));
  wf_files : Forall (fun id => id < u32_mod) (map fst (files db))
}.
(* the blocks of a file, and their data *)
Definition entries (f : N) (bl : list (N * bytes)) : list (N * bytes) := filter (fun p => map_file_id (snd p) =? f) bl.
Definition payload (b : bytes) : bytes := firstn (length b - 12) b.
Definition data_of (l : list (N * bytes)) : bytes := concat (map (fun p => payload (snd p)) l).

Lemma sorted_app_one l x : StronglySorted N.lt l -> (forall y, In y l -> y < x) -> StronglySorted N.lt (l ++ [x]).
Proof.
  induction l as [|a r IH]; cbn; intros H F; [repeat constructor|].
  inversion H; subst. constructor.
  - apply IH; [assumption|]. intros y Hy. apply F. right. exact Hy.
  - apply Forall_app. split; [assumption|]. constructor; [apply F; left; reflexivity|constructor].
Qed.
Lemma last_id_app {A} (l : list (N * A)) p : last_id (l ++ [p]) = Some (fst p).
Proof. unfold last_id. rewrite map_app. cbn. rewrite last_last. reflexivity. Qed.
Lemma next_id_above (l : list (N * bytes)) id : StronglySorted N.lt (map fst l) -> next_id u64_mod (last_id l) = Some id -> forall y, In y (map fst l) -> y < id.
Proof.
  destruct l as [|p r] using rev_ind; [intros _ _ y []|]. clear IHr. rewrite last_id_app. cbn [next_id].
  destruct (fst p + 1 <? u64_mod); [|discriminate]. intros S [= <-] y Hy.
  rewrite map_app in *. cbn in *. apply in_app_iff in Hy as [Hy|[<-|[]]]; [|lia].
  assert (y < fst p); [|lia].
  revert S Hy. generalize (map fst r). clear. induction l as [|a l IH]; cbn; intros S E; [destruct E|]. destruct E as [E|E]; inversion S as [|? ? S1 F]; subst.
  - rewrite Forall_forall in F. apply F. apply in_app_iff. right. left. reflexivity.
  - apply IH; assumption.
Qed.
Lemma insert_blocks_spec bs : forall l l', StronglySorted N.lt (map fst l) -> insert_blocks bs l = Some l' ->
  exists new, l' = l ++ new /\ map snd new = bs /\ StronglySorted N.lt (map fst l').
Proof.
  induction bs as [|b r IH]; intros l l' S; cbn [insert_blocks].
  - intros [= <-]. exists []. rewrite app_nil_r. repeat split; assumption.
  - destruct (next_id u64_mod (last_id l)) as [id|] eqn:E; [|discriminate]. intros H.
    assert (S' : StronglySorted N.lt (map fst (l ++ [(id, b)]))).
    { rewrite map_app. apply sorted_app_one; [exact S|]. eapply next_id_above; eassumption. }
    destruct (IH _ _ S' H) as (new & -> & M & S2). exists ((id, b) :: new). rewrite <- app_assoc in *. cbn in *. rewrite M. repeat split; assumption.
Qed.

Lemma entries_app f a b : entries f (a ++ b) = entries f a ++ entries f b.
Proof. apply filter_app. Qed.
Lemma data_of_app a b : data_of (a ++ b) = data_of a ++ data_of b.
Proof. unfold data_of. rewrite map_app, concat_app. reflexivity. Qed.
Lemma entries_new f g t (new : list (N * bytes)) cs : g < u32_mod -> map snd new = map (fun c => block_bytes c g t) cs ->
  data_of (entries f new) = if f =? g then concat cs else [].
Proof.
  intros Hg. revert cs; induction new as [|[i b] r IH]; intros [|c cs] M; try discriminate.
  - destruct (f =? g); reflexivity.
  - cbn in M. injection M as -> M. cbn [entries filter snd]. rewrite block_file_id by exact Hg. fold (entries f r). rewrite N.eqb_sym.
    destruct (f =? g) eqn:E.
    + unfold data_of in *. cbn [map concat snd]. unfold payload at 1. rewrite block_data. rewrite (IH _ M). reflexivity.
    + apply (IH _ M).
Qed.

(* Block::append *)
Lemma append_spec bs data g t db db' : (0 < bs)%nat -> wf bs db -> append bs data g t db = Done db' ->
  wf bs db' /\ files db' = files db /\
  forall f, data_of (entries f (blocks db')) = data_of (entries f (blocks db)) ++ (if f =? g then data else []).
Proof.
  intros Hb W. unfold append. destruct data as [|x r] eqn:ED.
  - intros [= <-]. split; [exact W|]. split; [reflexivity|]. intros f. destruct (f =? g); rewrite app_nil_r; reflexivity.
  - rewrite <- ED. destruct bs as [|bs']; [lia|]. set (bs := S bs') in *.
    destruct (lookup g (files db)) as [fl|] eqn:L; [|discriminate].
    destruct (insert_blocks _ _) as [l|] eqn:I; [|discriminate]. intros [= <-]. cbn [blocks files].
    assert (Hg : g < u32_mod).
    { pose proof (wf_files _ _ W) as F. revert L F. generalize (files db). clear. induction l as [|[i a] r IH]; cbn; [discriminate|].
      destruct (N.eqb_spec g i) as [->|]; intros H F; inversion F; subst; auto. }
    destruct (insert_blocks_spec _ _ _ (wf_sorted _ _ W) I) as (new & -> & M & S2).
    split; [|split; [reflexivity|]].
    + constructor; cbn [blocks files]; [exact S2| |apply (wf_files _ _ W)].
      rewrite map_app, Forall_app. split; [apply (wf_blocks _ _ W)|]. rewrite M. apply Forall_map.
      assert (C : Forall (fun c => (0 < length c <= bs)%nat) (chunks bs data)) by (apply chunks_aux_ok; exact Hb).
      eapply Forall_impl; [|exact C]. intros c Hc. exists c, g, t. repeat split; [assumption|apply Hc|apply Hc].
    + intros f. rewrite entries_app, data_of_app. f_equal. rewrite (entries_new f g t _ _ Hg M). rewrite chunks_concat by exact Hb. reflexivity.
Qed.

(* ---------- for_file ---------- *)
Definition info_of (p : N * bytes) : block_info := BI 0 (map_length (snd p)) (map_timestamp (snd p)) (fst p) (snd p).
Lemma by_file_eq f db : by_file f db = map info_of (entries f (blocks db)).
Proof. reflexivity. Qed.
Definition id_sorted (l : list block_info) : Prop := StronglySorted (fun a b => bi_id a < bi_id b) l.
Lemma insert_info_perm b l : Permutation (b :: l) (insert_info b l).
Proof.
  induction l as [|c r IH]; cbn; [apply Permutation_refl|]. destruct (bi_id b <=? bi_id c); [apply Permutation_refl|].
  eapply perm_trans; [apply perm_swap|]. constructor. exact IH.
Qed.
Lemma sort_perm l : Permutation l (sort_infos l).
Proof. induction l as [|b r IH]; cbn; [constructor|]. eapply perm_trans; [constructor; exact IH|apply insert_info_perm]. Qed.
Lemma insert_info_sorted b l : id_sorted l -> (forall c, In c l -> bi_id c <> bi_id b) -> id_sorted (insert_info b l).
Proof.
  intros S N. induction l as [|c r IH]; cbn; [repeat constructor|]. inversion S; subst.
  destruct (N.leb_spec (bi_id b) (bi_id c)).
  - assert (bi_id c <> bi_id b) by (apply N; left; reflexivity). constructor; [exact S|]. constructor; [lia|].
    eapply Forall_impl; [|exact H2]. intros a Ha. cbn in Ha. lia.
  - constructor; [apply IH; [assumption|]; intros x Hx; apply N; right; exact Hx|].
    eapply Permutation_Forall; [apply insert_info_perm|]. constructor; [lia|exact H2].
Qed.
Lemma sort_sorted l : NoDup (map bi_id l) -> id_sorted (sort_infos l).
Proof.
  induction l as [|b r IH]; cbn; intros N; [constructor|]. inversion N; subst. apply insert_info_sorted; [apply IH; assumption|].
  intros c Hc E. apply H1. rewrite <- E. apply in_map. eapply Permutation_in; [apply Permutation_sym, sort_perm|exact Hc].
Qed.
Lemma id_sorted_unique l l' : id_sorted l -> id_sorted l' -> Permutation l l' -> l = l'.
Proof.
  revert l'; induction l as [|a r IH]; intros l' S S' P.
  - apply Permutation_nil in P. congruence.
  - destruct l' as [|b r']; [apply Permutation_sym, Permutation_nil in P; discriminate|].
    inversion S; inversion S'; subst. rewrite Forall_forall in H2, H6.
    assert (a = b).
    { assert (I1 : In a (b :: r')) by (eapply Permutation_in; [exact P|left; reflexivity]).
      assert (I2 : In b (a :: r)) by (eapply Permutation_in; [apply Permutation_sym, P|left; reflexivity]).
      destruct I1 as [|I1]; [congruence|]. destruct I2 as [|I2]; [congruence|]. specialize (H2 _ I2). specialize (H6 _ I1). cbn in *. lia. }
    subst b. f_equal. apply IH; [assumption..|]. eapply Permutation_cons_inv, P.
Qed.
Lemma id_sorted_nodup l : id_sorted l -> NoDup (map bi_id l).
Proof.
  induction l as [|a r IH]; cbn; intros S; constructor; inversion S; subst; [|apply IH; assumption].
  intros X. apply in_map_iff in X as (b & E & I). rewrite Forall_forall in H2. specialize (H2 _ I). cbn in H2. lia.
Qed.
Lemma sort_infos_eq l q : id_sorted l -> Permutation q l -> sort_infos q = l.
Proof.
  intros S P. apply id_sorted_unique; [|exact S|].
  - apply sort_sorted. eapply Permutation_NoDup; [apply Permutation_map, Permutation_sym, P|]. apply id_sorted_nodup, S.
  - eapply perm_trans; [apply Permutation_sym, sort_perm|exact P].
Qed.
Lemma filter_sorted {A} (R : A -> A -> Prop) f l : StronglySorted R l -> StronglySorted R (filter f l).
Proof.
  induction 1 as [|a r S IH F]; cbn; [constructor|]. destruct (f a); [|exact IH]. constructor; [exact IH|].
  rewrite Forall_forall in *. intros x Hx. apply F. apply filter_In in Hx. tauto.
Qed.
Lemma sorted_map {A B} (R : B -> B -> Prop) (g : A -> B) l : StronglySorted R (map g l) <-> StronglySorted (fun a b => R (g a) (g b)) l.
Proof.
  induction l as [|a r IH]; cbn; [split; constructor|]. split; intros S; inversion S; subst; constructor; try (apply IH; assumption).
  - rewrite Forall_forall in *. intros x Hx. apply H2. apply in_map, Hx.
  - rewrite Forall_forall in *. intros y Hy. apply in_map_iff in Hy as (x & <- & Hx). apply H2, Hx.
Qed.
Lemma entries_sorted f bl : StronglySorted N.lt (map fst bl) -> StronglySorted N.lt (map fst (entries f bl)).
Proof. intros S. apply sorted_map. apply filter_sorted. apply sorted_map. exact S. Qed.
Lemma infos_sorted es : StronglySorted N.lt (map fst es) -> id_sorted (map info_of es).
Proof. intros S. unfold id_sorted. apply (proj2 (sorted_map (fun a b => bi_id a < bi_id b) info_of es)). cbn. apply (proj1 (sorted_map N.lt fst es)). exact S. Qed.
Lemma for_file_eq bs f db q : wf bs db -> Permutation q (by_file f db) -> for_file_of q = set_offsets 0 (map info_of (entries f (blocks db))).
Proof.
  intros W P. unfold for_file_of. f_equal. apply sort_infos_eq; [|exact P].
  apply infos_sorted, entries_sorted, (wf_sorted _ _ W).
Qed.

(* ---------- deleting ---------- *)
Definition in_ids (ids : list N) (id : N) : bool := existsb (N.eqb id) ids.
Lemma lookup_in {A} id (l : list (N * A)) a : StronglySorted N.lt (map fst l) -> In (id, a) l -> lookup id l = Some a.
Proof.
  induction l as [|[i b] r IH]; cbn; intros S []; inversion S; subst.
  - injection H as -> ->. rewrite N.eqb_refl. reflexivity.
  - destruct (N.eqb_spec id i) as [->|]; [|apply IH; assumption]. exfalso. rewrite Forall_forall in H3.
    specialize (H3 i). cbn in H3. assert (i < i) by (apply H3; change i with (fst (i, a)); apply in_map, H). lia.
Qed.
Lemma delete_id_sorted {A} id (l : list (N * A)) : StronglySorted N.lt (map fst l) -> StronglySorted N.lt (map fst (delete_id id l)).
Proof. intros S. apply sorted_map. apply filter_sorted. apply sorted_map. exact S. Qed.
Lemma delete_blocks_spec ds : forall bl, StronglySorted N.lt (map fst bl) -> NoDup (map bi_id ds) -> (forall b, In b ds -> In (bi_id b, bi_rev b) bl) ->
  delete_blocks ds bl = Done (filter (fun p => negb (in_ids (map bi_id ds) (fst p))) bl).
Proof.
  induction ds as [|b r IH]; intros bl S N H; cbn [delete_blocks map in_ids existsb].
  - f_equal. symmetry. clear. induction bl as [|p r IH]; cbn; [reflexivity|]. f_equal. exact IH.
  - inversion N; subst. rewrite (lookup_in _ _ _ S (H b (or_introl eq_refl))), bytes_eqb_refl.
    rewrite IH; [|apply delete_id_sorted, S|assumption|].
    + f_equal. unfold delete_id. clear. induction bl as [|p l IH]; cbn [filter]; [reflexivity|]. cbn [map in_ids existsb].
      rewrite (N.eqb_sym (bi_id b) (fst p)). destruct (fst p =? bi_id b); cbn [negb orb filter]; [exact IH|].
      unfold in_ids at 1. destruct (existsb (N.eqb (fst p)) (map bi_id r)); cbn [filter negb]; [|f_equal]; exact IH.
    + intros c Hc. unfold delete_id. apply filter_In. split; [apply H; right; exact Hc|]. cbn.
      destruct (N.eqb_spec (bi_id b) (bi_id c)) as [E|]; [|reflexivity]. exfalso. apply H2. rewrite E. apply in_map, Hc.
Qed.
Lemma wf_filter bs fl bl g : wf bs (FDb fl bl) -> wf bs (FDb fl (filter g bl)).
Proof.
  intros W. constructor; cbn.
  - apply sorted_map, filter_sorted, sorted_map. apply (wf_sorted _ _ W).
  - pose proof (wf_blocks _ _ W) as F. cbn in F. rewrite Forall_map in *. rewrite Forall_forall in *. intros x Hx. apply F. apply filter_In in Hx. tauto.
  - apply (wf_files _ _ W).
Qed.

(* deleting some of the blocks of g *)
Lemma apply_deletes_spec bs g db ds dels : wf bs db -> Permutation ds (map info_of dels) -> NoDup (map fst dels) ->
  (forall p, In p dels -> In p (entries g (blocks db))) ->
  exists db', apply_deletes ds db = Done db' /\ wf bs db' /\ files db' = files db /\
    (forall f, f <> g -> entries f (blocks db') = entries f (blocks db)) /\
    entries g (blocks db') = filter (fun p => negb (in_ids (map fst dels) (fst p))) (entries g (blocks db)).
Proof.
  intros W P ND H. unfold apply_deletes.
  assert (E1 : delete_blocks ds (blocks db) = Done (filter (fun p => negb (in_ids (map bi_id ds) (fst p))) (blocks db))).
  { apply delete_blocks_spec; [apply (wf_sorted _ _ W)| |].
    - eapply Permutation_NoDup; [apply Permutation_map, Permutation_sym, P|]. rewrite map_map. exact ND.
    - intros b Hb. assert (I : In b (map info_of dels)) by (eapply Permutation_in; [exact P|exact Hb]).
      apply in_map_iff in I as (p & <- & I). apply H in I. apply filter_In in I. cbn. destruct p. tauto. }
  assert (E2 : forall x, in_ids (map bi_id ds) x = in_ids (map fst dels) x).
  { intros x. unfold in_ids. apply eq_iff_eq_true. rewrite !existsb_exists.
    assert (PM : Permutation (map bi_id ds) (map fst dels)) by (apply (Permutation_map bi_id) in P; rewrite map_map in P; exact P).
    split; intros (y & I & E); exists y; (split; [|exact E]); [eapply Permutation_in; [exact PM|exact I]|eapply Permutation_in; [apply Permutation_sym, PM|exact I]]. }
  rewrite E1. eexists. split; [reflexivity|]. split; [apply wf_filter; destruct db; exact W|]. split; [reflexivity|]. cbn [blocks].
  assert (C : forall (f : N) (a b : (N*bytes) -> bool) l, filter a (filter b l) = filter b (filter a l)).
  { clear. intros _ a b l. induction l as [|x r IH]; cbn; [reflexivity|]. destruct (b x) eqn:B, (a x) eqn:A; cbn; rewrite ?A, ?B, IH; reflexivity. }
  split.
  - intros f Hf. unfold entries. rewrite (C f). fold (entries f (blocks db)).
    erewrite (filter_ext (A := N * bytes) _ (fun p => negb (in_ids (map fst dels) (fst p)))); [|intros p; rewrite E2; reflexivity].
    assert (A : forall p, In p (entries f (blocks db)) -> negb (in_ids (map fst dels) (fst p)) = true).
    { intros p Ip. apply filter_In in Ip as (Ip & Ep). apply negb_true_iff. unfold in_ids. destruct (existsb _ _) eqn:X; [|reflexivity].
      apply existsb_exists in X as (y & Iy & Ey). apply N.eqb_eq in Ey. subst y. apply in_map_iff in Iy as (p' & E & Ip').
      apply H in Ip'. apply filter_In in Ip' as (Ip' & Ep').
      assert (p = p').
      { destruct p as [i b], p' as [i' b']. cbn in E. subst i'. f_equal. pose proof (lookup_in _ _ _ (wf_sorted _ _ W) Ip) as L1.
        pose proof (lookup_in _ _ _ (wf_sorted _ _ W) Ip') as L2. congruence. }
      subst p'. lia. }
    revert A. generalize (entries f (blocks db)). clear. induction l as [|x r IH]; cbn; intros A; [reflexivity|].
    rewrite (A x (or_introl eq_refl)). f_equal. apply IH. intros p Hp. apply A. right. exact Hp.
  - unfold entries. rewrite (C g). apply filter_ext. intros p. rewrite E2. reflexivity.
Qed.

(* ---------- truncation ---------- *)
Definition total (l : list block_info) : nat := fold_right (fun b a => (bi_length b + a)%nat) O l.
Lemma total_app a b : total (a ++ b) = (total a + total b)%nat.
Proof. unfold total. induction a; cbn; [reflexivity|]. rewrite IHa. lia. Qed.
Lemma total_rev l : total (rev l) = total l.
Proof. induction l as [|b r IH]; cbn; [reflexivity|]. rewrite total_app, IH. unfold total. cbn. lia. Qed.
Lemma loop_end fuel r l : truncate_loop fuel r RemovingEnd l = truncate_loop fuel r RemovingStart (rev l).
Proof.
  revert r l; induction fuel as [|k IH]; intros r l; cbn [truncate_loop]; [reflexivity|].
  destruct (0 <? r)%nat; [|reflexivity]. destruct l as [|b l] using rev_ind; [reflexivity|]. clear IHl.
  rewrite app_length. cbn [length]. replace (length l + 1 - 1)%nat with (length l) by lia. rewrite rev_app_distr. cbn [rev app].
  replace (match l ++ [b] with [] => true | _ => false end) with false by (destruct l; reflexivity).
  cbn [andb negb nth_error]. rewrite nth_error_app2 by lia. rewrite Nat.sub_diag. cbn [nth_error].
  destruct (bi_length b <=? r)%nat; [|reflexivity]. f_equal. rewrite IH. f_equal.
  rewrite (skipn_all2 (l ++ [b])) by (rewrite app_length; cbn; lia). rewrite firstn_app_exact, app_nil_r. reflexivity.
Qed.
Lemma loop_start fuel : forall r l, (length l < fuel)%nat ->
  exists a b, l = a ++ b /\ truncate_loop fuel r RemovingStart l = a /\ (total a <= r)%nat /\
    (r = total a \/ b = [] \/ exists x b', b = x :: b' /\ (r - total a < bi_length x)%nat).
Proof.
  induction fuel as [|k IH]; intros r l Hl; [lia|]. cbn [truncate_loop].
  destruct (Nat.ltb_spec 0 r); cbn [andb].
  2:{ exists [], l. repeat split; [cbn; lia|]. left. cbn. lia. }
  destruct l as [|x l]; [exists [], []; cbn; repeat split; [lia|tauto]|]. cbn [negb nth_error].
  destruct (Nat.leb_spec (bi_length x) r).
  - cbn [firstn skipn app]. destruct (IH (r - bi_length x)%nat l) as (a & b & -> & -> & T & D); [cbn in Hl; lia|].
    exists (x :: a), b. cbn [total fold_right]. fold (total a). repeat split; [lia|]. destruct D as [D|[D|(y & b' & D1 & D2)]]; [left; lia|tauto|].
    right. right. exists y, b'. split; [exact D1|lia].
  - exists [], (x :: l). cbn. repeat split; [lia|]. right. right. exists x, l. split; [reflexivity|lia].
Qed.
Lemma payload_length bs b : good_block bs b -> length (payload b) = map_length b /\ (0 < map_length b <= bs)%nat.
Proof. intros (c & f & t & -> & _ & L). unfold payload. rewrite block_data, block_map_length. tauto. Qed.
Lemma total_data bs es : Forall (good_block bs) (map snd es) -> total (map info_of es) = length (data_of es).
Proof.
  induction es as [|p r IH]; cbn; intros F; [reflexivity|]. inversion F; subst. unfold data_of in *. cbn. rewrite app_length.
  destruct (payload_length _ _ H1) as (-> & _). rewrite <- IH by assumption. reflexivity.
Qed.
Lemma set_offsets_lengths l o : map bi_length (set_offsets o l) = map bi_length l /\ map bi_id (set_offsets o l) = map bi_id l /\ map bi_rev (set_offsets o l) = map bi_rev l /\ length (set_offsets o l) = length l.
Proof.
  revert o; induction l as [|b r IH]; intros o; cbn; [repeat split|]. destruct (IH (o + bi_length b)%nat) as (-> & -> & -> & ->). repeat split.
Qed.
Lemma entries_good bs f db : wf bs db -> Forall (good_block bs) (map snd (entries f (blocks db))).
Proof.
  intros W. pose proof (wf_blocks _ _ W) as F. rewrite Forall_map in *. rewrite Forall_forall in *. intros x Hx. apply F. apply filter_In in Hx. tauto.
Qed.
(* infos up to their offset *)
Definition same_info (a b : block_info) : Prop := bi_length a = bi_length b /\ bi_time a = bi_time b /\ bi_id a = bi_id b /\ bi_rev a = bi_rev b.
Lemma set_offsets_same l o : Forall2 same_info (set_offsets o l) l.
Proof. revert o; induction l as [|b r IH]; intros o; cbn; constructor; [repeat split|apply IH]. Qed.
Lemma delete_blocks_same a b : Forall2 same_info a b -> forall bl, delete_blocks a bl = delete_blocks b bl.
Proof.
  induction 1 as [|x y a b (E1 & E2 & E3 & E4) F IH]; intros bl; cbn; [reflexivity|]. rewrite E3, E4. destruct (lookup (bi_id y) bl); [|reflexivity].
  destruct (bytes_eqb b0 (bi_rev y)); [apply IH|reflexivity].
Qed.
Lemma truncate_loop_same fuel from : forall r a b, Forall2 same_info a b -> Forall2 same_info (truncate_loop fuel r from a) (truncate_loop fuel r from b).
Proof.
  assert (S : forall fuel r a b, Forall2 same_info a b -> Forall2 same_info (truncate_loop fuel r RemovingStart a) (truncate_loop fuel r RemovingStart b)).
  { clear. induction fuel as [|k IH]; intros r a b F; cbn [truncate_loop]; [constructor|].
    destruct (0 <? r)%nat; cbn [andb]; [|constructor]. inversion F; subst; cbn [negb nth_error]; [constructor|].
    pose proof H as (E & _). rewrite E. destruct (bi_length y <=? r)%nat; [|constructor]. constructor; [assumption|]. cbn [firstn skipn app]. apply IH. assumption. }
  intros r a b F. destruct from; [apply S, F|]. rewrite !loop_end. apply S. clear - F. induction F; cbn; [constructor|]. apply Forall2_app; [assumption|]. constructor; [assumption|constructor].
Qed.
Lemma total_same a b : Forall2 same_info a b -> total a = total b /\ length a = length b.
Proof. induction 1 as [|x y a b (E & _) F (T & L)]; cbn; [tauto|]. fold (total a) (total b). lia. Qed.
Lemma filter_all {A} (f : A -> bool) l : (forall x, In x l -> f x = true) -> filter f l = l.
Proof. induction l as [|a r IH]; cbn; intros H; [reflexivity|]. rewrite (H a (or_introl eq_refl)). f_equal. apply IH. intros x Hx. apply H. right. exact Hx. Qed.
Lemma filter_none {A} (f : A -> bool) l : (forall x, In x l -> f x = false) -> filter f l = [].
Proof. induction l as [|a r IH]; cbn; intros H; [reflexivity|]. rewrite (H a (or_introl eq_refl)). apply IH. intros x Hx. apply H. right. exact Hx. Qed.
Lemma in_ids_true ids x : in_ids ids x = true <-> In x ids.
Proof. unfold in_ids. rewrite existsb_exists. split; [intros (y & I & E); apply N.eqb_eq in E; subst; exact I|intros I; exists x; split; [exact I|apply N.eqb_refl]]. Qed.
Lemma sorted_nodup l : StronglySorted N.lt l -> NoDup l.
Proof. induction 1 as [|a r S IH F]; constructor; [|exact IH]. intros I. rewrite Forall_forall in F. specialize (F _ I). lia. Qed.
Lemma remove_part (a b : list (N * bytes)) : NoDup (map fst (a ++ b)) ->
  filter (fun p => negb (in_ids (map fst a) (fst p))) (a ++ b) = b /\ filter (fun p => negb (in_ids (map fst b) (fst p))) (a ++ b) = a.
Proof.
  rewrite map_app. intros N.
  assert (D : forall x, In x (map fst a) -> In x (map fst b) -> False).
  { revert N. generalize (map fst a) (map fst b). clear. induction l as [|y l IH]; cbn; intros l0 N x I1 I2; [exact I1|]. inversion N as [|? ? N1 N2]; subst. destruct I1 as [->|I1].
    - apply N1. apply in_app_iff. tauto.
    - eapply IH; eassumption. }
  split; rewrite filter_app.
  - rewrite (filter_none _ a), (filter_all _ b); [reflexivity| |].
    + intros p Hp. apply negb_true_iff. destruct (in_ids _ _) eqn:E; [|reflexivity]. exfalso. apply in_ids_true in E. eapply D; [exact E|apply in_map, Hp].
    + intros p Hp. apply negb_false_iff. apply in_ids_true, in_map, Hp.
  - rewrite (filter_all _ a), (filter_none _ b), app_nil_r; [reflexivity| |].
    + intros p Hp. apply negb_false_iff. apply in_ids_true, in_map, Hp.
    + intros p Hp. apply negb_true_iff. destruct (in_ids _ _) eqn:E; [|reflexivity]. exfalso. apply in_ids_true in E. eapply D; [apply in_map, Hp|exact E].
Qed.

Lemma nodup_app {A} (a b : list A) : NoDup (a ++ b) -> NoDup a /\ NoDup b.
Proof.
  induction a as [|x a IH]; cbn; intros N; [split; [constructor|exact N]|]. inversion N as [|? ? N1 N2]; subst. destruct (IH N2) as (P & Q).
  split; [|exact Q]. constructor; [|exact P]. intros X. apply N1. apply in_app_iff. tauto.
Qed.
(* what truncating does to the contents *)
Definition truncated (bs n : nat) (from : truncate_from) (c c' : bytes) : Prop :=
  (match from with RemovingStart => exists gone, c = gone ++ c' | RemovingEnd => exists gone, c = c' ++ gone end) /\
  ((length c <= n)%nat -> c' = c) /\
  ((n < length c)%nat -> (n <= length c' < n + bs)%nat) /\
  (n = O -> c' = []).
Lemma split_numbers (bs n tot ta tb : nat) : (0 < bs)%nat -> tot = (ta + tb)%nat -> (n <= tot)%nat -> (ta <= tot - n)%nat ->
  (tot - n = ta \/ tb = 0 \/ exists x rest, tb = x + rest /\ x <= bs /\ 0 < x /\ tot - n - ta < x)%nat ->
  (n <= tb < n + bs)%nat /\ (n = 0 -> tb = 0)%nat /\ (tot = n -> ta = 0)%nat.
Proof. intros. destruct H3 as [H3|[H3|(x & rest & H3 & H4 & H5 & H6)]]; lia. Qed.
Lemma data_of_nil_total es bs : Forall (good_block bs) (map snd es) -> length (data_of es) = O -> es = [].
Proof. intros F E. destruct es as [|p r]; [reflexivity|]. inversion F; subst. unfold data_of in E. cbn in E. rewrite app_length in E. destruct (payload_length _ _ H1). lia. Qed.

Lemma truncate_spec bs g n from db q : (0 < bs)%nat -> wf bs db -> Permutation q (by_file g db) ->
  exists db', apply_deletes (truncate_ops (for_file_of q) n from) db = Done db' /\ wf bs db' /\ files db' = files db /\
    (forall f, f <> g -> entries f (blocks db') = entries f (blocks db)) /\
    truncated bs n from (data_of (entries g (blocks db))) (data_of (entries g (blocks db'))).
Proof.
  intros Hb W P. rewrite (for_file_eq _ _ _ _ W P).
  set (es := entries g (blocks db)) in *.
  assert (GE : Forall (good_block bs) (map snd es)) by (apply entries_good; exact W).
  assert (NE : NoDup (map fst es)) by (apply sorted_nodup, entries_sorted, (wf_sorted _ _ W)).
  pose proof (set_offsets_same (map info_of es) 0) as SAME.
  (* drop the offsets *)
  assert (EQ : apply_deletes (truncate_ops (set_offsets 0 (map info_of es)) n from) db = apply_deletes (truncate_ops (map info_of es) n from) db).
  { unfold apply_deletes, truncate_ops. destruct (total_same _ _ SAME) as (T & L). fold (total (set_offsets 0 (map info_of es))) (total (map info_of es)). rewrite T, L.
    destruct (n <=? total (map info_of es))%nat; [|reflexivity]. rewrite (delete_blocks_same _ _ (truncate_loop_same _ _ _ _ _ SAME)). reflexivity. }
  rewrite EQ. clear EQ SAME. unfold truncate_ops. fold (total (map info_of es)). rewrite (total_data _ _ GE).
  destruct (Nat.leb_spec n (length (data_of es))) as [Le|Gt].
  2:{ exists db. split; [unfold apply_deletes; cbn; destruct db; reflexivity|]. split; [exact W|]. split; [reflexivity|]. split; [reflexivity|]. fold es.
      split; [destruct from; [exists []|exists []; rewrite app_nil_r]; reflexivity|]. split; [reflexivity|]. split; [lia|]. intros ->. lia. }
  set (r := (length (data_of es) - n)%nat).
  assert (SP : exists a b, es = a ++ b /\
     match from with
     | RemovingStart => truncate_loop (S (length (map info_of es))) r from (map info_of es) = map info_of a
     | RemovingEnd => truncate_loop (S (length (map info_of es))) r from (map info_of es) = map info_of (rev b) end /\
     (let gone := length (data_of (match from with RemovingStart => a | _ => b end)) in
      let kept := length (data_of (match from with RemovingStart => b | _ => a end)) in
      length (data_of es) = (gone + kept)%nat /\ (gone <= r)%nat /\
      (r = gone \/ kept = 0 \/ exists x rest, kept = x + rest /\ x <= bs /\ 0 < x /\ r - gone < x)%nat)).
  { assert (MS : forall (l : list (N * bytes)) a b, map info_of l = a ++ b -> exists a' b', l = a' ++ b' /\ map info_of a' = a /\ map info_of b' = b).
    { clear. intros l a b. revert l; induction a as [|x a IH]; intros l E; [exists [], l; repeat split; exact E|].
      destruct l as [|y l]; [discriminate|]. cbn in E. injection E as <- E. destruct (IH _ E) as (a' & b' & -> & <- & <-). exists (y :: a'), b'. repeat split. }
    destruct from.
    - destruct (loop_start (S (length (map info_of es))) r (map info_of es)) as (a & b & E & L & T & D); [lia|].
      destruct (MS _ _ _ E) as (a' & b' & E' & <- & <-). exists a', b'. split; [exact E'|]. split; [exact L|].
      assert (GA : Forall (good_block bs) (map snd a') /\ Forall (good_block bs) (map snd b')) by (rewrite E', map_app, Forall_app in GE; exact GE).
      destruct GA as (GA & GB). cbn zeta. rewrite (total_data _ _ GA) in *. split; [rewrite E', data_of_app, app_length; reflexivity|]. split; [exact T|].
      destruct D as [D|[D|(x & b2 & D1 & D2)]]; [tauto| |].
      + right. left. apply map_eq_nil in D. subst b'. reflexivity.
      + right. right. destruct b' as [|p b']; [discriminate|]. injection D1 as <- <-. inversion GB; subst.
        destruct (payload_length _ _ H1) as (PL & PB). exists (length (payload (snd p))), (length (data_of b')). change (data_of (p :: b')) with (payload (snd p) ++ data_of b'). rewrite app_length.
        cbn in D2. repeat split; lia.
    - rewrite loop_end. destruct (loop_start (S (length (map info_of es))) r (rev (map info_of es))) as (a & b & E & L & T & D); [rewrite rev_length; lia|].
      assert (E2 : map info_of es = rev b ++ rev a) by (rewrite <- rev_app_distr, <- E, rev_involutive; reflexivity).
      destruct (MS _ _ _ E2) as (a' & b' & E' & Ea & Eb). exists a', b'. split; [exact E'|].
      assert (Lb : a = map info_of (rev b')) by (rewrite map_rev, Eb, rev_involutive; reflexivity).
      split; [rewrite L; exact Lb|].
      assert (GA : Forall (good_block bs) (map snd a') /\ Forall (good_block bs) (map snd b')) by (rewrite E', map_app, Forall_app in GE; exact GE).
      destruct GA as (GA & GB). cbn zeta.
      assert (TA : total a = length (data_of b')) by (rewrite Lb, map_rev, total_rev; apply (total_data _ _ GB)). rewrite TA in *.
      split; [rewrite E', data_of_app, app_length; lia|]. split; [exact T|].
      destruct D as [D|[D|(x & b2 & D1 & D2)]]; [tauto| |].
      + right. left. subst b. cbn in Ea. apply map_eq_nil in Ea. subst a'. reflexivity.
      + right. right. subst b. cbn in Ea. destruct a' as [|p a' _] using rev_ind; [destruct (rev b2); discriminate|].
        rewrite map_app in Ea. cbn in Ea. apply app_inj_tail in Ea as (_ & <-). rewrite map_app, Forall_app in GA. destruct GA as (_ & GA). inversion GA; subst.
        destruct (payload_length _ _ H1) as (PL & PB). exists (length (payload (snd p))), (length (data_of a')). rewrite data_of_app, app_length. replace (data_of [p]) with (payload (snd p)) by (unfold data_of; cbn; rewrite app_nil_r; reflexivity).
        cbn in D2. repeat split; lia. }
  destruct SP as (a & b & E & L & T1 & T2 & T3).
  pose proof NE as NE'. rewrite E in NE'. pose proof (remove_part _ _ NE') as (RA & RB). rewrite map_app in NE'.
  destruct from.
  - rewrite L. destruct (apply_deletes_spec bs g db (map info_of a) a W (Permutation_refl _)) as (db' & A1 & A2 & A3 & A4 & A5).
    + exact (proj1 (nodup_app _ _ NE')).
    + intros p Hp. fold es. rewrite E. apply in_app_iff. tauto.
    + exists db'. split; [exact A1|]. split; [exact A2|]. split; [exact A3|]. split; [exact A4|]. fold es in A5. rewrite A5, E, RA.
      destruct (split_numbers bs n _ _ _ Hb T1 Le T2 T3) as (K1 & K2 & K3). rewrite <- E. split; [exists (data_of a); rewrite E; apply data_of_app|]. split.
      * intros Hn. assert (X : length (data_of a) = O) by lia. rewrite E, data_of_app. destruct (data_of a); [reflexivity|discriminate].
      * split; [intros _; lia|]. intros ->. destruct (data_of b); [reflexivity|cbn in K2; lia].
  - rewrite L. destruct (apply_deletes_spec bs g db (map info_of (rev b)) b W) as (db' & A1 & A2 & A3 & A4 & A5).
    + rewrite map_rev. apply Permutation_sym, Permutation_rev.
    + exact (proj2 (nodup_app _ _ NE')).
    + intros p Hp. fold es. rewrite E. apply in_app_iff. tauto.
    + exists db'. split; [exact A1|]. split; [exact A2|]. split; [exact A3|]. split; [exact A4|]. fold es in A5. rewrite A5, E, RB.
      destruct (split_numbers bs n _ _ _ Hb T1 Le T2 T3) as (K1 & K2 & K3). rewrite <- E. split; [exists (data_of b); rewrite E; apply data_of_app|]. split.
      * intros Hn. assert (X : length (data_of b) = O) by lia. rewrite E, data_of_app. destruct (data_of b); [rewrite app_nil_r; reflexivity|discriminate].
      * split; [intros _; lia|]. intros ->. destruct (data_of a); [reflexivity|cbn in K2; lia].
Qed.

(* deleting all blocks of a file *)
Lemma delete_for_file_spec bs g db q : wf bs db -> Permutation q (by_file g db) ->
  exists db', apply_deletes q db = Done db' /\ wf bs db' /\ files db' = files db /\
    (forall f, f <> g -> entries f (blocks db') = entries f (blocks db)) /\ entries g (blocks db') = [].
Proof.
  intros W P. destruct (apply_deletes_spec bs g db q (entries g (blocks db)) W P) as (db' & A1 & A2 & A3 & A4 & A5).
  - apply sorted_nodup, entries_sorted, (wf_sorted _ _ W).
  - tauto.
  - exists db'. repeat split; try assumption; try apply A2. rewrite A5. apply filter_none. intros p Hp. apply negb_false_iff, in_ids_true, in_map, Hp.
Qed.
