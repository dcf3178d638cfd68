(* Mapping documents succeeds unless the view's own functions fail or a unique key is
   taken. *)
From Verif Require Import Base Key KeyPrefix DocId Tree View ViewProofs ViewMap Docs DocsProofs DocsSpec DocsMore.
Local Open Scope N_scope.

(* reduce gives a value, or reports that it is not implemented *)
Definition reduce_total (vd : vdef) : Prop := forall l, (exists r, vd_reduce vd l = Done r) \/ vd_reduce vd l = Fail ReduceUnimplemented.

Lemma try_reduce_total vd flag k l old : reduce_total vd -> exists p, try_reduce vd flag k l old = Done p.
Proof.
  intros R. unfold try_reduce. destruct flag; [|eauto]. destruct (R (pairs k l)) as [(r & ->)| ->]; eauto.
Qed.
Lemma add_total vd news : is_unique (vd_policy vd) = false -> forall l, exists l', add_mappings vd news l = Done l'.
Proof.
  intros U. induction news as [|n r IH]; intros l; cbn [add_mappings]; [eauto|]. rewrite U. cbn [andb]. destruct l; apply IH.
Qed.
Lemma swap_total vd flag k clean news old : reduce_total vd -> (is_unique (vd_policy vd) = false \/ news = None) ->
  exists op f, swap_entry vd flag k clean news old = Done (op, f, None).
Proof.
  intros R U. unfold swap_entry. set (e := match old with Some e => e | None => mk_entry [] [] end).
  assert (T : forall l r f, exists op g, match news with
      | None => Done (KSet (mk_entry l r), f, None)
      | Some ns =>
          match add_mappings vd ns l with
          | Done l' =>
              match try_reduce vd f k l' r with
              | Done (r', f') => Done (KSet (mk_entry l' r'), f', None)
              | Fail x => Done (KSkip, f, Some x)
              | Panic => Panic
              end
          | Fail x => Done (KSkip, f, Some x)
          | Panic => Panic
          end
      end = Done (op, g, None : option verr) :> outcome _ verr).
  { intros l r f. destruct news as [ns|]; [|eauto]. destruct U as [U|U]; [|discriminate].
    destruct (add_total vd ns U l) as (l' & ->). destruct (try_reduce_total vd f k l' r R) as ([r' f'] & ->). eauto. }
  destruct clean as [ids|].
  - destruct (match filter _ (e_maps e) with [] => match news with None => true | Some _ => false end | _ => false end); [eauto|].
    destruct (try_reduce_total vd flag k (filter (fun m => negb (mem (m_id m) ids)) (e_maps e)) (e_reduced e) R) as ([r f] & ->). apply T.
  - apply T.
Qed.
Lemma swap_all_total vd clean news keys : reduce_total vd -> (is_unique (vd_policy vd) = false \/ forall k, news k = None) ->
  forall flag t, exists t', swap_all vd clean news keys flag None t = Done t'.
Proof.
  intros R U. induction keys as [|k ks IH]; intros flag t; cbn [swap_all]; [eauto|].
  destruct (swap_total vd flag k (clean k) (news k) (t_get k t) R) as (op & f & ->).
  - destruct U as [U|U]; auto.
  - apply IH.
Qed.
Lemma apply_batch_total vd vs rs : reduce_total vd -> (is_unique (vd_policy vd) = false \/ forall m, In m rs -> snd m = []) ->
  exists vs', apply_batch vd vs rs = Done vs'.
Proof.
  intros R U. unfold apply_batch.
  destruct (swap_all_total vd (clean_of (stale (vs_docmap vs) rs)) (news_of rs) (batch_keys (stale (vs_docmap vs) rs) rs) R) with (flag := true) (t := vs_entries vs) as (t & ->); [|eauto].
  destruct U as [U|U]; [auto|right]. intros k. unfold news_of.
  replace (flat_map snd rs) with (@nil emission); [reflexivity|]. symmetry. induction rs as [|m r IH]; [reflexivity|]. cbn [flat_map].
  rewrite (U m) by (left; reflexivity). apply IH. intros x I. apply U. right. exact I.
Qed.
Definition maps_total (vd : vdef) (docs : tree doc) (ids : list bytes) : Prop :=
  forall id d, In id ids -> t_get id docs = Some d -> vd_map vd d <> None.
Lemma map_docs_total vd ps : (forall p, In p ps -> map_doc vd p <> None) -> exists rs, map_docs vd ps = Some rs.
Proof.
  induction ps as [|p r IH]; intros H; cbn [map_docs]; [eauto|]. destruct (map_doc vd p) as [m|] eqn:M.
  - destruct IH as (rs & ->); [|eauto]. intros q I. apply H. right. exact I.
  - exfalso. apply (H p); [left; reflexivity|exact M].
Qed.
Lemma map_batch_total sh vd docs ids vs : permutes sh -> reduce_total vd -> t_wf docs -> sorted ids ->
  ((is_unique (vd_policy vd) = false /\ maps_total vd docs ids) \/ forall id, In id ids -> t_get id docs = None) ->
  exists vs', map_batch sh vd docs ids vs = Done vs'.
Proof.
  intros P R W S H. unfold map_batch. rewrite load_docs_spec by assumption.
  destruct (map_docs_total vd (map (fun i => (i, t_get i docs)) (rev ids))) as (rs & M).
  - intros p I. apply in_map_iff in I. destruct I as (i & <- & I). apply in_rev in I. unfold map_doc. cbn [fst snd].
    destruct (t_get i docs) as [d|] eqn:G; [|discriminate]. destruct H as [[_ H]|H].
    + specialize (H i d I G). destruct (vd_map vd d); [discriminate|congruence].
    + rewrite (H i I) in G. discriminate.
  - rewrite M. apply apply_batch_total; [exact R|]. destruct H as [[U _]|H]; [auto|right]. intros m I.
    apply (Permutation.Permutation_in _ (P rs)) in I. clear -M H I.
    assert (G : forall p, In p (map (fun i => (i, t_get i docs)) (rev ids)) -> snd p = None).
    { intros p J. apply in_map_iff in J. destruct J as (i & <- & J). apply H, in_rev, J. }
    revert rs M I. induction (map (fun i => (i, t_get i docs)) (rev ids)) as [|p r IH]; intros rs M I; cbn [map_docs] in M.
    + injection M as <-. destruct I.
    + unfold map_doc in M. rewrite (G p) in M by (left; reflexivity). destruct (map_docs vd r) as [ms|] eqn:Q; [|discriminate]. injection M as <-.
      destruct I as [<-|I]; [reflexivity|]. eapply IH; eauto. intros q J. apply G. right. exact J.
Qed.
Lemma map_batches_total sh vd docs : permutes sh -> reduce_total vd -> t_wf docs -> forall bs vs, Forall sorted bs ->
  ((is_unique (vd_policy vd) = false /\ maps_total vd docs (concat bs)) \/ forall id, In id (concat bs) -> t_get id docs = None) ->
  exists vs', map_batches sh vd docs bs vs = Done vs'.
Proof.
  intros P R W. induction bs as [|b r IH]; intros vs S H; cbn [map_batches]; [eauto|]. inversion_clear S as [|? ? S1 S2].
  destruct (map_batch_total sh vd docs b vs P R W S1) as (v1 & ->).
  - destruct H as [[U H]|H]; [left; split; [exact U|]|right]; intros id; intros; apply (H id); auto; cbn; apply in_or_app; auto.
  - apply IH; [exact S2|]. destruct H as [[U H]|H]; [left; split; [exact U|]|right]; intros id; intros; apply (H id); auto; cbn; apply in_or_app; auto.
Qed.
Lemma map_request_total sh vd docs ids vs : permutes sh -> reduce_total vd -> t_wf docs -> sorted ids ->
  ((is_unique (vd_policy vd) = false /\ maps_total vd docs ids) \/ forall id, In id ids -> t_get id docs = None) ->
  exists vs', map_request sh vd docs ids vs = Done vs'.
Proof.
  intros P R W S H. apply map_batches_total; auto; [apply chunks_sorted, S|].
  rewrite chunks_concat by (unfold batch_size; lia). exact H.
Qed.
Lemma map_chunk_total sh vd docs ids vs : permutes sh -> reduce_total vd -> t_wf docs -> sorted ids ->
  is_unique (vd_policy vd) = false -> maps_total vd docs ids -> exists vs', map_chunk sh vd docs ids vs = Done vs'.
Proof.
  intros P R W S U M. unfold map_chunk. destruct (map_request_total sh vd docs ids vs P R W S (or_introl (conj U M))) as (v & ->). eauto.
Qed.
Lemma map_view_fuel_total sh vd docs : permutes sh -> reduce_total vd -> t_wf docs -> is_unique (vd_policy vd) = false ->
  forall fuel ids vs, sorted ids -> maps_total vd docs ids -> exists vs', map_view_fuel sh fuel vd docs ids vs = Done vs'.
Proof.
  intros P R W U. induction fuel as [|f IH]; intros ids vs S M; cbn [map_view_fuel]; [destruct ids; eauto|].
  destruct ids as [|i r] eqn:Q; [eauto|]. rewrite <- Q in *. set (n := (length ids - view_chunk)%nat).
  assert (SP : forall x, In x (firstn n ids) \/ In x (skipn n ids) -> In x ids) by (intros x H; rewrite <- (firstn_skipn n ids); apply in_or_app, H).
  destruct (map_chunk_total sh vd docs (skipn n ids) vs P R W) as (v & ->); auto.
  - apply sorted_skipn, S.
  - intros id d I. apply M, SP. auto.
  - apply IH; [apply sorted_firstn, S|]. intros id d I. apply M, SP. auto.
Qed.
Lemma map_view_total sh vd docs vs : permutes sh -> reduce_total vd -> t_wf docs -> is_unique (vd_policy vd) = false ->
  t_wf (vs_invalid vs) -> (forall id d, t_get id docs = Some d -> vd_map vd d <> None) -> exists vs', map_view sh vd docs vs = Done vs'.
Proof. intros P R W U I M. apply map_view_fuel_total; auto. intros id d _. apply M. Qed.

(* ---------- unique views: an error names a real conflict ---------- *)
Lemma add_conflict vd news : forall l c x, add_mappings vd news l = Fail (UniqueKeyViolation c x) -> 
  (forall a b, In a news -> In b news -> h_id (em_src a) = h_id (em_src b)) ->
  exists n m, In n news /\ In m l /\ c = em_src n /\ x = m_src m /\ m_id m <> h_id (em_src n).
Proof.
  induction news as [|n r IH]; intros l c x H SAME; cbn [add_mappings] in H; [discriminate|].
  assert (TL : forall a b, In a r -> In b r -> h_id (em_src a) = h_id (em_src b)) by (intros; apply SAME; right; assumption).
  assert (REC : forall l', add_mappings vd r (put_mapping (em_src n) (em_value n) l') = Fail (UniqueKeyViolation c x) ->
    exists n0 m, In n0 (n :: r) /\ In m l' /\ c = em_src n0 /\ x = m_src m /\ m_id m <> h_id (em_src n0)).
  { intros l' H'. destruct (IH _ _ _ H' TL) as (n0 & m & I & J & A & B & D). exists n0, m.
    assert (PI : forall q, In m (put_mapping (em_src n) (em_value n) q) -> In m q \/ m = mk_map (em_src n) (em_value n)).
    { clear. induction q as [|y q IH]; cbn [put_mapping]; [intros [<-|[]]; auto|]. destruct (bytes_eqb _ _); cbn [In]; intuition. }
    destruct (PI l' J) as [K|K].
    - split; [right; exact I|]. auto.
    - exfalso. apply D. rewrite K. apply (SAME n n0); [left; reflexivity|right; exact I]. }
  destruct l as [|m l]; [apply REC, H|].
  destruct (is_unique (vd_policy vd) && negb (bytes_eqb (m_id m) (h_id (em_src n)))) eqn:U; [|apply REC, H].
  injection H as <- <-. exists n, m. apply andb_true_iff in U. destruct U as [_ U]. apply negb_true_iff, bytes_eqb_neq in U.
  split; [left; reflexivity|]. split; [left; reflexivity|]. auto.
Qed.
Lemma swap_err_conflict vd flag k clean news old op f c x :
  (forall l, vd_reduce vd l <> Fail (UniqueKeyViolation c x)) ->
  swap_entry vd flag k clean news old = Done (op, f, Some (UniqueKeyViolation c x)) ->
  (forall a b, In a (dflt news) -> In b (dflt news) -> h_id (em_src a) = h_id (em_src b)) ->
  exists n m, In n (dflt news) /\ In m (old_maps old) /\ c = em_src n /\ x = m_src m /\ m_id m <> h_id (em_src n).
Proof.
  intros R H SAME. unfold swap_entry in H.
  assert (TR : forall fl l o, try_reduce vd fl k l o <> Fail (UniqueKeyViolation c x)).
  { intros fl l o E. unfold try_reduce in E. destruct fl; [|discriminate]. specialize (R (pairs k l)). destruct (vd_reduce vd (pairs k l)) as [r|[]|]; congruence. }
  set (e := match old with Some e => e | None => mk_entry [] [] end) in *.
  assert (OM : e_maps e = old_maps old) by (unfold e, old_maps; destruct old; reflexivity).
  assert (FIN : forall l r g, (forall m, In m l -> In m (old_maps old)) -> match news with
      | None => Done (KSet (mk_entry l r), g, None)
      | Some ns =>
          match add_mappings vd ns l with
          | Done l' =>
              match try_reduce vd g k l' r with
              | Done (r', f') => Done (KSet (mk_entry l' r'), f', None)
              | Fail x => Done (KSkip, g, Some x)
              | Panic => Panic
              end
          | Fail x => Done (KSkip, g, Some x)
          | Panic => Panic
          end
      end = Done (op, f, Some (UniqueKeyViolation c x)) :> outcome _ verr ->
      exists n m, In n (dflt news) /\ In m (old_maps old) /\ c = em_src n /\ x = m_src m /\ m_id m <> h_id (em_src n)).
  { intros l r g SUB E. destruct news as [ns|]; [|discriminate]. cbn [dflt] in *. destruct (add_mappings vd ns l) as [l'|y|] eqn:A.
    - destruct (try_reduce vd g k l' r) as [[r' f']|y|] eqn:T; try discriminate. injection E as _ _ ->. exfalso. exact (TR _ _ _ T).
    - injection E as _ _ ->. destruct (add_conflict vd ns l c x A SAME) as (n & m & I & J & K). exists n, m. auto.
    - discriminate. }
  destruct clean as [ids|].
  - destruct (match filter _ (e_maps e) with [] => match news with None => true | Some _ => false end | _ => false end); [discriminate|].
    destruct (try_reduce vd flag k (filter (fun m => negb (mem (m_id m) ids)) (e_maps e)) (e_reduced e)) as [[r g]|y|] eqn:T; try discriminate.
    + eapply FIN; [|exact H]. intros m I. apply filter_In in I. rewrite <- OM. apply I.
    + injection H as _ _ ->. exfalso. exact (TR _ _ _ T).
  - eapply FIN; [|exact H]. intros m. rewrite OM. auto.
Qed.
Lemma swap_no_fail vd flag k clean news old x : swap_entry vd flag k clean news old <> Fail x.
Proof.
  unfold swap_entry. destruct clean as [ids|]; [destruct (match filter _ _ with [] => match news with None => true | Some _ => false end | _ => false end); [discriminate|]; destruct (try_reduce _ _ _ _ _) as [[r g]|y|]; try discriminate|];
    (destruct news as [ns|]; [|discriminate]; destruct (add_mappings _ _ _) as [l'|y|]; try discriminate; destruct (try_reduce _ _ _ _ _) as [[r' f']|z|]; discriminate).
Qed.
Lemma swap_all_conflict vd clean news keys c x : NoDup keys -> (forall l, vd_reduce vd l <> Fail (UniqueKeyViolation c x)) ->
  (forall k a b, In a (dflt (news k)) -> In b (dflt (news k)) -> h_id (em_src a) = h_id (em_src b)) ->
  forall flag err t, swap_all vd clean news keys flag err t = Fail (UniqueKeyViolation c x) ->
  err = Some (UniqueKeyViolation c x) \/
  exists k n m, In k keys /\ In n (dflt (news k)) /\ In m (at_key t k) /\ c = em_src n /\ x = m_src m /\ m_id m <> h_id (em_src n).
Proof.
  intros ND R SAME. induction keys as [|k ks IH]; intros flag err t H; cbn [swap_all] in H.
  - destruct err; [injection H as ->; auto|discriminate].
  - inversion_clear ND as [|? ? N1 N2]. destruct (swap_entry vd flag k (clean k) (news k) (t_get k t)) as [[[op f] er]|y|] eqn:S; try discriminate.
    2: { exfalso. eapply swap_no_fail, S. }
    destruct (IH N2 _ _ _ H) as [E|(k' & n & m & I & J & K & L)].
    + destruct er as [y|]; [|auto]. injection E as ->. right. apply swap_err_conflict in S; [|exact R|apply SAME].
      destruct S as (n & m & A & B & D). exists k, n, m. split; [left; reflexivity|]. split; [exact A|]. split; [|exact D]. exact B.
    + right. exists k', n, m. split; [right; exact I|]. split; [exact J|]. split; [|exact L]. unfold at_key in *.
      assert (D : bytes_eqb k' k = false) by (apply bytes_eqb_neq; intros ->; contradiction).
      destruct op; [exact K| |]; [rewrite get_set, D in K|rewrite get_remove, D in K]; exact K.
Qed.

Lemma swap_all_conflict' vd clean news keys c x : (forall c x l ns, add_mappings vd ns l <> Fail (UniqueKeyViolation c x)) ->
  (forall l c x, vd_reduce vd l <> Fail (UniqueKeyViolation c x)) ->
  forall flag err t, swap_all vd clean news keys flag err t = Fail (UniqueKeyViolation c x) -> err = Some (UniqueKeyViolation c x).
Proof.
  intros NA R. induction keys as [|k ks IH]; intros flag err t H; cbn [swap_all] in H.
  - destruct err; [injection H as ->; auto|discriminate].
  - destruct (swap_entry vd flag k (clean k) (news k) (t_get k t)) as [[[op f] er]|y|] eqn:S; try discriminate.
    2: { exfalso. eapply swap_no_fail, S. }
    specialize (IH _ _ _ H). destruct er as [y|]; [|exact IH]. injection IH as ->. exfalso.
    assert (TR : forall fl l o, try_reduce vd fl k l o <> Fail (UniqueKeyViolation c x)).
    { intros fl l o E. unfold try_reduce in E. destruct fl; [|discriminate]. specialize (R (pairs k l) c x). destruct (vd_reduce vd (pairs k l)) as [r|[]|]; congruence. }
    unfold swap_entry in S. set (e := match t_get k t with Some e => e | None => mk_entry [] [] end) in *.
    destruct (clean k) as [ids|].
    + destruct (match filter _ (e_maps e) with [] => match news k with None => true | Some _ => false end | _ => false end); [discriminate|].
      destruct (try_reduce vd flag k (filter (fun m => negb (mem (m_id m) ids)) (e_maps e)) (e_reduced e)) as [[r g]|y|] eqn:T; try discriminate.
      * destruct (news k) as [ns|]; [|discriminate]. specialize (NA c x (filter (fun m => negb (mem (m_id m) ids)) (e_maps e)) ns). destruct (add_mappings vd ns _) as [l'|y|]; [|congruence|discriminate].
        specialize (TR g l' r). destruct (try_reduce vd g k l' r) as [[r' f']|z|]; congruence.
      * injection S as _ _ ->. exact (TR _ _ _ T).
    + destruct (news k) as [ns|]; [|discriminate]. specialize (NA c x (e_maps e) ns). destruct (add_mappings vd ns _) as [l'|y|]; [|congruence|discriminate].
      specialize (TR flag l' (e_reduced e)). destruct (try_reduce vd flag k l' _) as [[r' f']|z|]; congruence.
Qed.
