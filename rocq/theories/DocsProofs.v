From Verif Require Import Base Key KeyPrefix DocId Tree View ViewProofs ViewMap Docs.
Local Open Scope N_scope.

(* ---------- invariants ---------- *)
Definition env_ok (E : env) : Prop := NoDup (map vw_name (ev_views E)).
Definition coll_ok (E : env) (t : tree doc) : Prop :=
  docs_ok t /\ forall id d, t_get id t = Some d -> r_sha (h_rev (d_header d)) = ev_hash E (d_contents d).
Definition view_ok (v : view) (docs : tree doc) (vs : vstate) (ex : bytes -> Prop) : Prop :=
  vs_ok (vw_def v) vs /\
  forall id, ~ invalid vs id -> ~ (is_eager (vd_policy (vw_def v)) = false /\ ex id) -> fresh (vw_def v) docs vs id.
Definition work_ok (E : env) (w : work) (ex : bytes -> bytes -> Prop) : Prop :=
  (forall c, coll_ok E (w_docs w c)) /\
  forall v, In v (ev_views E) -> view_ok v (w_docs w (vw_coll v)) (w_views w (vw_name v)) (ex (vw_coll v)).

Lemma rev_eqb_spec a b : rev_eqb a b = true <-> a = b.
Proof.
  unfold rev_eqb. destruct a as [i s], b as [j t]. cbn. rewrite andb_true_iff, N.eqb_eq, bytes_eqb_spec. split.
  - intros [-> ->]. reflexivity.
  - injection 1 as -> ->. auto.
Qed.
Lemma header_eqb_spec a b : header_eqb a b = true <-> a = b.
Proof.
  unfold header_eqb. destruct a as [i s], b as [j t]. cbn. rewrite andb_true_iff, rev_eqb_spec, bytes_eqb_spec. split.
  - intros [-> ->]. reflexivity.
  - injection 1 as -> ->. auto.
Qed.
Lemma upd_same {A} (f : bytes -> A) k v : upd f k v k = v.
Proof. unfold upd. rewrite bytes_eqb_refl. reflexivity. Qed.
Lemma upd_other {A} (f : bytes -> A) k v j : j <> k -> upd f k v j = f j.
Proof. intros H. unfold upd. apply bytes_eqb_neq in H. rewrite H. reflexivity. Qed.

(* ---------- eager views ---------- *)
Definition eager_in (c : bytes) (v : view) : bool := bytes_eqb (vw_coll v) c && is_eager (vd_policy (vw_def v)).
Lemma update_eager_spec views c id : forall w w', NoDup (map vw_name views) -> update_eager views c id w = Done w' ->
  w_docs w' = w_docs w /\
  (forall v, In v views -> eager_in c v = true ->
     map_request (fun l => l) (vw_def v) (w_docs w c) [id] (w_views w (vw_name v)) = Done (w_views w' (vw_name v))) /\
  (forall n, (forall v, In v views -> eager_in c v = true -> vw_name v <> n) -> w_views w' n = w_views w n).
Proof.
  induction views as [|v r IH]; intros w w' ND H; cbn [update_eager] in H.
  - injection H as <-. split; [reflexivity|]. split; [intros v []|auto].
  - cbn [map] in ND. inversion_clear ND as [|? ? N1 N2]. fold (eager_in c v) in H.
    destruct (eager_in c v) eqn:EV.
    + destruct (map_request _ (vw_def v) (w_docs w c) [id] (w_views w (vw_name v))) as [vs|x|] eqn:M; try discriminate.
      destruct (IH _ _ N2 H) as (D & A & B). split; [exact D|]. split.
      * intros u [<-|I] EU.
        -- rewrite B; [|intros u I EU2 X; apply N1; rewrite <- X; apply in_map; exact I].
           cbn. rewrite upd_same. exact M.
        -- rewrite <- (A u I EU). cbn. rewrite upd_other; [reflexivity|]. intros X. apply N1. rewrite <- X. apply in_map. exact I.
      * intros n F. rewrite B by (intros u I; apply F; right; exact I). cbn. apply upd_other.
        intros X. apply (F v (or_introl eq_refl) EV). congruence.
    + destruct (IH _ _ N2 H) as (D & A & B). split; [exact D|]. split.
      * intros u [<-|I] EU; [congruence|]. apply A; assumption.
      * intros n F. apply B. intros u I. apply F. right. exact I.
Qed.

Lemma permutes_id {A} : permutes (fun l : list A => l). Proof. intros l. apply Permutation.Permutation_refl. Qed.

(* ---------- changing one document ---------- *)
Definition change_doc (E : env) (w : work) (c id : bytes) (od : option doc) (w' : work) : Prop :=
  (forall d, od = Some d -> h_id (d_header d) = id /\ r_sha (h_rev (d_header d)) = ev_hash E (d_contents d)) /\
  update_eager (ev_views E) c id
    (set_docs w c (match od with Some d => t_set id d (w_docs w c) | None => t_remove id (w_docs w c) end)) = Done w'.

Lemma change_docs E w c id od w' : env_ok E -> change_doc E w c id od w' ->
  w_docs w' = upd (w_docs w) c (match od with Some d => t_set id d (w_docs w c) | None => t_remove id (w_docs w c) end).
Proof. intros EO [_ H]. destruct (update_eager_spec _ _ _ _ _ EO H) as (D & _). exact D. Qed.
Lemma change_get E w c id od w' : env_ok E -> change_doc E w c id od w' ->
  forall c' i, t_get i (w_docs w' c') = if bytes_eqb c' c && bytes_eqb i id then od else t_get i (w_docs w c').
Proof.
  intros EO H c' i. rewrite (change_docs _ _ _ _ _ _ EO H). unfold upd.
  destruct (bytes_eqb c' c) eqn:C; cbn [andb]; [|reflexivity]. apply bytes_eqb_spec in C. subst c'.
  destruct od as [d|]; [rewrite get_set|rewrite get_remove]; reflexivity.
Qed.
Lemma change_ok E w c id od w' ex : env_ok E -> change_doc E w c id od w' -> work_ok E w ex ->
  work_ok E w' (fun c' i => ex c' i \/ (c' = c /\ i = id)).
Proof.
  intros EO CD [DO VO]. pose proof CD as [OD UE]. destruct (update_eager_spec _ _ _ _ _ EO UE) as (D & A & B).
  assert (DO' : forall c', coll_ok E (w_docs w' c')).
  { intros c'. pose proof (change_get _ _ _ _ _ _ EO CD c') as G. split; [split|].
    - rewrite D. cbn. unfold upd. destruct (bytes_eqb c' c); [|apply DO]. destruct od; [apply wf_set|apply wf_remove]; apply DO.
    - intros i d X. rewrite G in X. destruct (bytes_eqb c' c && bytes_eqb i id) eqn:Q; [|eapply DO; exact X].
      apply andb_true_iff in Q. destruct Q as [_ Q]. apply bytes_eqb_spec in Q. subst i. apply OD, X.
    - intros i d X. rewrite G in X. destruct (bytes_eqb c' c && bytes_eqb i id) eqn:Q; [|eapply DO; exact X].
      apply OD, X. }
  split; [exact DO'|]. intros v I. destruct (VO v I) as [OK FR].
  pose proof (change_get _ _ _ _ _ _ EO CD (vw_coll v)) as G.
  destruct (eager_in c v) eqn:EV.
  - pose proof (A v I EV) as M. cbn [set_docs w_docs w_views] in M. rewrite upd_same in M.
    unfold eager_in in EV. apply andb_true_iff in EV. destruct EV as [EC EE]. apply bytes_eqb_spec in EC.
    assert (DC : match od with Some d => t_set id d (w_docs w c) | None => t_remove id (w_docs w c) end = w_docs w' c).
    { rewrite D. cbn. rewrite upd_same. reflexivity. }
    rewrite DC in M.
    destruct (map_request_spec (fun l => l) _ _ _ _ _ permutes_id OK (proj1 (DO' c)) (conj I Logic.I : sorted [id]) M) as (OK' & IV & F & O)
      || destruct (map_request_spec (fun l => l) _ _ _ _ _ permutes_id OK (proj1 (DO' c)) (Logic.I : sorted [id]) M) as (OK' & IV & F & O).
    split; [exact OK'|]. intros i NI _. rewrite EC. destruct (bytes_dec i id) as [->|NE]; [apply F; left; reflexivity|].
    eapply fresh_same; [intros k; apply O; intros [X|[]]; congruence|].
    eapply fresh_docs; [|apply FR].
    + rewrite <- EC, G. apply bytes_eqb_neq in NE. rewrite NE, andb_false_r, EC. reflexivity.
    + unfold invalid in *. rewrite IV in NI. exact NI.
    + intros [X _]. congruence.
  - assert (VS : w_views w' (vw_name v) = w_views w (vw_name v)).
    { rewrite B; [reflexivity|]. intros u J EU X. assert (u = v).
      { clear -EO I J X. unfold env_ok in EO. induction (ev_views E) as [|y l IH]; [destruct I|].
        cbn [map] in EO. inversion_clear EO as [|? ? N1 N2]. destruct I as [->|I], J as [->|J]; auto.
        - exfalso. apply N1. rewrite <- X. apply in_map, J.
        - exfalso. apply N1. rewrite X. apply in_map, I. }
      congruence. }
    rewrite VS. split; [exact OK|]. intros i NI NX.
    destruct (bytes_eqb (vw_coll v) c && bytes_eqb i id) eqn:Q.
    + apply andb_true_iff in Q. destruct Q as [Q1 Q2]. unfold eager_in in EV. rewrite Q1 in EV. cbn [andb] in EV.
      exfalso. apply NX. split; [exact EV|]. right. apply bytes_eqb_spec in Q1, Q2. auto.
    + eapply fresh_docs; [rewrite G, Q; reflexivity|]. apply FR; [exact NI|]. intros [X Y]. apply NX. split; [exact X|left; exact Y].
Qed.

(* ---------- one operation ---------- *)
Definition res_change (r : opres) : list (bytes * bytes * bool) :=
  match r with RUpdated c h => [(c, h_id h, false)] | RDeleted c id => [(c, id, true)] | RSuccess => [] end.
(* what an operation does when it succeeds *)
Inductive op_effect (E : env) (w : work) (o : operation) : work -> opres -> Prop :=
| eff_none res : (res = RSuccess \/ exists id old, t_get id (w_docs w (op_coll o)) = Some old /\ res = RUpdated (op_coll o) (d_header old)) ->
    op_effect E w o w res
| eff_set id d w' : change_doc E w (op_coll o) id (Some d) w' -> op_effect E w o w' (RUpdated (op_coll o) (d_header d))
| eff_del id old w' : t_get id (w_docs w (op_coll o)) = Some old -> change_doc E w (op_coll o) id None w' ->
    op_effect E w o w' (RDeleted (op_coll o) id).

Lemma finish_inv E c id w res w' r : finish E c id w res = Done (w', r) ->
  r = res /\ update_eager (ev_views E) c id w = Done w'.
Proof. unfold finish. destruct (update_eager (ev_views E) c id w); try discriminate. injection 1 as <- <-. auto. Qed.

Lemma exec_op_effect E w o w' res : (forall c, coll_ok E (w_docs w c)) -> exec_op E w o = Done (w', res) -> op_effect E w o w' res.
Proof.
  intros OK. unfold exec_op. destruct o as [c cmd]. cbn [op_cmd op_coll]. 
  assert (UP : forall id check contents, exec_update E w c id check contents = Done (w', res) -> op_effect E w (mk_op c cmd) w' res).
  { intros id check contents. unfold exec_update. destruct (t_get id (w_docs w c)) as [old|] eqn:G.
    - destruct (match check with None => true | Some r => rev_eqb (h_rev (d_header old)) r end); [|discriminate].
      destruct (next_revision E (h_rev (d_header old)) contents) as [[r|]|e|] eqn:NR; try discriminate.
      + intros H. apply finish_inv in H. destruct H as [-> H].
        apply (eff_set E w (mk_op c cmd) id (mk_doc (mk_header id r) contents)). split; [|exact H].
        intros d X. injection X as <-. cbn. split; [reflexivity|]. unfold next_revision in NR.
        destruct (bytes_eqb (ev_hash E contents) (r_sha (h_rev (d_header old)))); [discriminate|].
        destruct (r_id (h_rev (d_header old)) + 1 <? 2 ^ 32); [|discriminate]. injection NR as <-. reflexivity.
      + intros H. injection H as <- <-. apply eff_none. right. exists id, old. auto.
    - destruct check as [r|]; [discriminate|]. intros H. apply finish_inv in H. destruct H as [-> H].
      apply (eff_set E w (mk_op c cmd) id (new_doc E id contents)). split; [|exact H].
      intros d X. injection X as <-. split; reflexivity. }
  destruct cmd as [oid contents|h contents|id contents|h|id rv].
  - unfold exec_insert. 
    destruct (match oid with Some i => Done i | None => match ev_pk E c with Some t => next_id t (t_last (w_docs w c)) | None => Fail CollectionNotFound end end)
      as [i|e|]; try discriminate.
    destruct (t_get i (w_docs w c)) as [old|] eqn:G; [discriminate|].
    intros H. apply finish_inv in H. destruct H as [-> H].
    apply (eff_set E w (mk_op c (Insert oid contents)) i (new_doc E i contents)). split; [|exact H].
    intros d X. injection X as <-. split; reflexivity.
  - apply UP.
  - apply UP.
  - unfold exec_delete. destruct (t_get (h_id h) (w_docs w c)) as [old|] eqn:G; [|discriminate].
    destruct (header_eqb (d_header old) h) eqn:Q; [|discriminate]. apply header_eqb_spec in Q.
    intros H. apply finish_inv in H. destruct H as [-> H].
    apply (eff_del E w (mk_op c (Delete h)) (h_id h) old); [exact G|]. split; [discriminate|].
    rewrite Q in H. exact H.
  - unfold exec_check. destruct (t_get id (w_docs w c)); [|discriminate].
    destruct rv as [r|]; [destruct (rev_eqb (h_rev (d_header d)) r); [|discriminate]|]; intros H; injection H as <- <-;
      apply eff_none; left; reflexivity.
Qed.

Definition ex_of (l : list (bytes * bytes * bool)) (c id : bytes) : Prop := exists del, In (c, id, del) l.
Lemma work_ok_weaken E w (ex ex' : bytes -> bytes -> Prop) : (forall c i, ex c i -> ex' c i) -> work_ok E w ex -> work_ok E w ex'.
Proof.
  intros S [A B]. split; [exact A|]. intros v I. destruct (B v I) as [B1 B2]. split; [exact B1|].
  intros id NI NX. apply B2; [exact NI|]. intros [X Y]. apply NX. split; [exact X|apply S, Y].
Qed.
Lemma exec_op_ok E w o w' res ex : env_ok E -> work_ok E w ex -> exec_op E w o = Done (w', res) ->
  work_ok E w' (fun c i => ex c i \/ ex_of (res_change res) c i).
Proof.
  intros EO OK H. apply exec_op_effect in H; [|apply OK]. destruct H as [res H|id d w' H|id old w' G H].
  - eapply work_ok_weaken; [|exact OK]. auto.
  - pose proof (proj1 (proj1 H d eq_refl)) as HI.
    eapply work_ok_weaken; [|eapply change_ok; eassumption].
    intros c i [X|[-> ->]]; [left; exact X|]. right. exists false. cbn. left. congruence.
  - eapply work_ok_weaken; [|eapply change_ok; eassumption].
    intros c i [X|[-> ->]]; [left; exact X|]. right. exists true. cbn. left. reflexivity.
Qed.

(* ---------- the change list ---------- *)
Definition changes_wf (ch : changes) : Prop := Forall (fun d => change_coll ch d <> None) (ch_docs ch).
Lemma iter_changes_app colls ds more : Forall (fun d => nth_error colls (N.to_nat (fst (fst d))) <> None) ds ->
  iter_changes colls (ds ++ more) = iter_changes colls ds ++ iter_changes colls more.
Proof.
  induction ds as [|[[i id] del] r IH]; intros F; [reflexivity|]. inversion_clear F as [|? ? F1 F2]. cbn [app iter_changes].
  cbn [fst] in F1. destruct (nth_error colls (N.to_nat i)); [|contradiction]. cbn [app]. rewrite IH by exact F2. reflexivity.
Qed.
Lemma iter_changes_more colls c ds : Forall (fun d => nth_error colls (N.to_nat (fst (fst d))) <> None) ds ->
  iter_changes (colls ++ [c]) ds = iter_changes colls ds /\
  Forall (fun d => nth_error (colls ++ [c]) (N.to_nat (fst (fst d))) <> None) ds.
Proof.
  induction ds as [|[[i id] del] r IH]; intros F; [split; [reflexivity|constructor]|].
  inversion_clear F as [|? ? F1 F2]. destruct (IH F2) as [A B]. cbn [fst] in F1.
  assert (Q : nth_error (colls ++ [c]) (N.to_nat i) = nth_error colls (N.to_nat i)).
  { apply nth_error_app1. apply nth_error_Some. exact F1. }
  split.
  - cbn [iter_changes]. rewrite Q, A. reflexivity.
  - constructor; [cbn [fst]; rewrite Q; exact F1|exact B].
Qed.
Lemma index_of_spec c l : forall i j, index_of c l i = Some j -> i <= j /\ nth_error l (N.to_nat (j - i)) = Some c.
Proof.
  induction l as [|x r IH]; intros i j H; cbn [index_of] in H; [discriminate|].
  destruct (bytes_eqb c x) eqn:X.
  - injection H as <-. apply bytes_eqb_spec in X. subst. split; [lia|]. rewrite N.sub_diag. reflexivity.
  - apply IH in H. destruct H as [H1 H2]. split; [lia|].
    replace (N.to_nat (j - i)) with (S (N.to_nat (j - (i + 1)))) by lia. exact H2.
Qed.
Lemma record_change_spec ch c id del ch' : changes_wf ch -> record_change ch c id del = Done ch' ->
  changes_wf ch' /\ changes_iter ch' = changes_iter ch ++ [(c, id, del)].
Proof.
  intros W. unfold record_change. destruct (index_of c (ch_colls ch) 0) as [i|] eqn:I.
  - injection 1 as <-. apply index_of_spec in I. destruct I as [_ I]. rewrite N.sub_0_r in I. split.
    + unfold changes_wf, change_coll in *. cbn. apply Forall_app. split; [exact W|]. constructor; [cbn; congruence|constructor].
    + unfold changes_iter. cbn. rewrite iter_changes_app by exact W. cbn. rewrite I. reflexivity.
  - destruct (N.of_nat (length (ch_colls ch)) <? 65536) eqn:L; [|discriminate]. injection 1 as <-.
    destruct (iter_changes_more (ch_colls ch) c (ch_docs ch) W) as [A B].
    assert (Q : nth_error (ch_colls ch ++ [c]) (length (ch_colls ch)) = Some c).
    { rewrite nth_error_app2 by lia. rewrite Nat.sub_diag. reflexivity. }
    split.
    + unfold changes_wf, change_coll. cbn. apply Forall_app. split; [exact B|]. constructor; [|constructor].
      cbn. rewrite Nat2N.id, Q. discriminate.
    + unfold changes_iter. cbn. rewrite iter_changes_app by exact B. rewrite A. cbn. rewrite Nat2N.id, Q. reflexivity.
Qed.
Lemma record_result_spec ch r ch' : changes_wf ch -> record_result ch r = Done ch' ->
  changes_wf ch' /\ changes_iter ch' = changes_iter ch ++ res_change r.
Proof.
  destruct r; cbn [record_result res_change]; intros W H.
  - injection H as <-. rewrite app_nil_r. auto.
  - eapply record_change_spec; eassumption.
  - eapply record_change_spec; eassumption.
Qed.

(* ---------- a run of operations ---------- *)
Inductive steps (E : env) : work -> list operation -> work -> list opres -> Prop :=
| steps_nil w : steps E w [] w []
| steps_cons w o w1 r ops w2 rs : exec_op E w o = Done (w1, r) -> steps E w1 ops w2 rs -> steps E w (o :: ops) w2 (r :: rs).

Lemma run_ops_spec E ops : forall w ch rs w' ch' rs', changes_wf ch -> run_ops E ops w ch rs = Done (w', ch', rs') ->
  exists new, rs' = rs ++ new /\ steps E w ops w' new /\ changes_wf ch' /\
    changes_iter ch' = changes_iter ch ++ flat_map res_change new.
Proof.
  induction ops as [|o r IH]; intros w ch rs w' ch' rs' W H; cbn [run_ops] in H.
  - injection H as <- <- <-. exists []. rewrite !app_nil_r. repeat split; auto. constructor.
  - destruct (exec_op E w o) as [[w1 res]|e|] eqn:X; try discriminate.
    destruct (record_result ch res) as [ch1|e|] eqn:R; try discriminate.
    destruct (record_result_spec _ _ _ W R) as [W1 C1].
    destruct (IH _ _ _ _ _ _ W1 H) as (new & -> & S & W2 & C2). exists (res :: new).
    rewrite <- app_assoc. split; [reflexivity|]. split; [econstructor; eassumption|]. split; [exact W2|].
    rewrite C2, C1. cbn [flat_map]. rewrite app_assoc. reflexivity.
Qed.
Lemma steps_ok E w ops w' rs : env_ok E -> steps E w ops w' rs -> forall ex, work_ok E w ex ->
  work_ok E w' (fun c i => ex c i \/ ex_of (flat_map res_change rs) c i).
Proof.
  intros EO S. induction S as [w|w o w1 r ops w2 rs X S IH]; intros ex OK.
  - eapply work_ok_weaken; [|exact OK]. auto.
  - eapply work_ok_weaken; [|apply IH; eapply exec_op_ok; eassumption].
    cbn. intros c i [[A|[d A]]|[d A]]; [left; exact A| |]; right; exists d; apply in_or_app; auto.
Qed.

(* ---------- invalidation ---------- *)
Lemma inv_views_docs views c id : forall w, w_docs (invalidate_views views c id w) = w_docs w.
Proof.
  induction views as [|v r IH]; intros w; [reflexivity|]. cbn [invalidate_views]. rewrite IH.
  destruct (bytes_eqb (vw_coll v) c && negb (is_eager (vd_policy (vw_def v)))); reflexivity.
Qed.
Definition add_invalid (vs : vstate) (id : bytes) : vstate := mk_vs (vs_entries vs) (vs_docmap vs) (t_set id tt (vs_invalid vs)).
Definition lazy_in (c : bytes) (v : view) : bool := bytes_eqb (vw_coll v) c && negb (is_eager (vd_policy (vw_def v))).
Lemma inv_views_spec views c id : NoDup (map vw_name views) -> forall w,
  (forall v, In v views -> w_views (invalidate_views views c id w) (vw_name v) =
     if lazy_in c v then add_invalid (w_views w (vw_name v)) id else w_views w (vw_name v)) /\
  (forall n, ~ In n (map vw_name views) -> w_views (invalidate_views views c id w) n = w_views w n).
Proof.
  induction views as [|v r IH]; intros ND w; [split; [intros v []|reflexivity]|].
  cbn [map] in ND. inversion_clear ND as [|? ? N1 N2]. cbn [invalidate_views]. fold (lazy_in c v).
  match goal with |- context [invalidate_views r c id ?x] => destruct (IH N2 x) as [A B] end.
  split.
  - intros u [<-|I].
    + rewrite B by exact N1. destruct (lazy_in c v); [cbn; rewrite upd_same|]; reflexivity.
    + rewrite (A u I). assert (U : vw_name u <> vw_name v). { intros X. apply N1. rewrite <- X. apply in_map, I. }
      destruct (lazy_in c v); cbn; rewrite ?(upd_other _ _ _ _ U); reflexivity.
  - intros n NI. rewrite B by (intros I; apply NI; right; exact I).
    destruct (lazy_in c v); [cbn; apply upd_other|reflexivity]. intros ->. apply NI. left. reflexivity.
Qed.
Lemma inv_views_ok E c id w ex : env_ok E -> work_ok E w ex ->
  work_ok E (invalidate_views (ev_views E) c id w) (fun c' i => ex c' i /\ ~ (c' = c /\ i = id)).
Proof.
  intros EO [D V]. rewrite <- (inv_views_docs (ev_views E) c id w) in D. split; [exact D|].
  intros v I. destruct (V v I) as [OK FR]. rewrite inv_views_docs.
  destruct (inv_views_spec (ev_views E) c id EO w) as [A _]. rewrite (A v I). destruct (lazy_in c v) eqn:L.
  - split.
    + unfold add_invalid. destruct (w_views w (vw_name v)) as [e d i0]. cbn. eapply vs_ok_invalid; [|exact OK]. apply wf_set, OK.
    + intros i NI NX. eapply fresh_same; [reflexivity|]. apply FR.
      * intros Y. apply NI. unfold invalid in *. cbn. apply keys_set. right. exact Y.
      * intros [X Y]. apply NX. split; [exact X|]. split; [exact Y|]. intros [_ ->]. apply NI.
        unfold invalid. cbn. apply keys_set. left. reflexivity.
  - split; [exact OK|]. intros i NI NX. apply FR; [exact NI|]. intros [X Y]. apply NX. split; [exact X|]. split; [exact Y|].
    intros [Z _]. unfold lazy_in in L. rewrite Z, bytes_eqb_refl, X in L. discriminate.
Qed.
Lemma invalidate_spec E ch : forall ds w w', env_ok E ->
  fold_left (inv_step E ch) ds (Done w) = Done w' ->
  w_docs w' = w_docs w /\
  forall ex, work_ok E w ex -> work_ok E w' (fun c i => ex c i /\ ~ ex_of (iter_changes (ch_colls ch) ds) c i).
Proof.
  induction ds as [|d r IH]; intros w w' EO H; cbn [fold_left inv_step] in H.
  - injection H as <-. split; [reflexivity|]. intros ex OK. eapply work_ok_weaken; [|exact OK].
    intros c i X. split; [exact X|]. intros [y []].
  - destruct (change_coll ch d) as [c|] eqn:C.
    2: { exfalso. clear -H. induction r as [|x r IH]; cbn [fold_left] in H; [discriminate|exact (IH H)]. }
    destruct (IH _ _ EO H) as [A B]. rewrite inv_views_docs in A. split; [exact A|]. intros ex OK.
    eapply work_ok_weaken; [|apply B, inv_views_ok; [exact EO|exact OK]].
    cbn. intros c' i [[X Y] Z]. split; [exact X|]. intros [del J]. destruct d as [[ix id] dl]. cbn [iter_changes] in J.
    unfold change_coll in C. cbn [fst] in C. rewrite C in J. cbn [In fst snd] in *. destruct J as [J|J].
    + injection J as <- <- <-. apply Y. auto.
    + apply Z. exists del. exact J.
Qed.
Lemma invalidate_total E ch : changes_wf ch -> forall w, exists w', invalidate E ch w = Done w'.
Proof.
  unfold invalidate, changes_wf. intros W. induction (ch_docs ch) as [|d r IH]; intros w; cbn [fold_left inv_step]; [eauto|].
  inversion_clear W as [|? ? W1 W2]. destruct (change_coll ch d) as [c|]; [|contradiction]. apply IH, W2.
Qed.

(* ---------- a transaction ---------- *)
Definition nothing : bytes -> bytes -> Prop := fun _ _ => False.
Definition db_ok (E : env) (s : dbstate) : Prop := work_ok E (db_work s) nothing.

(* the only ways a transaction ends *)
Lemma apply_cases E p s ops s' o : apply_transaction E p s ops = (s', o) ->
  (exists rs w ch w', o = Done rs /\ forallb (op_allowed p) ops = true /\ colls_defined E ops = true /\
     run_ops E ops (db_work s) (mk_changes [] []) [] = Done (w, ch, rs) /\ invalidate E ch w = Done w' /\
     s' = mk_db w' (db_log s ++ [(next_tx (db_log s), Some ch)])) \/
  (s' = s /\ forall rs, o <> Done rs).
Proof.
  unfold apply_transaction, apply_to_roots. destruct (forallb (op_allowed p) ops) eqn:P.
  2: { injection 1 as <- <-. right. split; [reflexivity|discriminate]. }
  destruct (colls_defined E ops) eqn:C.
  2: { injection 1 as <- <-. right. split; [reflexivity|discriminate]. }
  destruct (run_ops E ops (db_work s) (mk_changes [] []) []) as [[[w ch] rs]|e|] eqn:R.
  - destruct (invalidate E ch w) as [w'|e|] eqn:I.
    + injection 1 as <- <-. left. exists rs, w, ch, w'. auto 10.
    + injection 1 as <- <-. right. split; [reflexivity|discriminate].
    + injection 1 as <- <-. right. split; [reflexivity|discriminate].
  - injection 1 as <- <-. right. split; [reflexivity|discriminate].
  - injection 1 as <- <-. right. split; [reflexivity|discriminate].
Qed.
Lemma apply_success E p s ops s' rs : apply_transaction E p s ops = (s', Done rs) ->
  exists w ch, steps E (db_work s) ops w rs /\ changes_wf ch /\ changes_iter ch = flat_map res_change rs /\
    invalidate E ch w = Done (db_work s') /\ db_log s' = db_log s ++ [(next_tx (db_log s), Some ch)].
Proof.
  intros H. apply apply_cases in H. destruct H as [(rs' & w & ch & w' & X & _ & _ & R & I & ->)|[_ X]].
  - injection X as <-. apply run_ops_spec in R; [|constructor]. destruct R as (new & Y & S & W & C).
    cbn [app] in Y. subst new. exists w, ch. cbn in C. auto.
  - exfalso. exact (X rs eq_refl).
Qed.
Theorem apply_ok E p s ops s' o : env_ok E -> db_ok E s -> apply_transaction E p s ops = (s', o) -> db_ok E s'.
Proof.
  intros EO OK H. destruct o as [rs|e|].
  - apply apply_success in H. destruct H as (w & ch & S & W & C & I & _). unfold db_ok in *.
    pose proof (steps_ok _ _ _ _ _ EO S _ OK) as OK1. apply invalidate_spec in I; [|exact EO]. destruct I as [_ I].
    eapply work_ok_weaken; [|apply I, OK1]. cbn. intros c i [[[]|X] Y]. apply Y.
    unfold changes_iter in C. rewrite C. exact X.
  - apply apply_cases in H. destruct H as [(rs & _ & _ & _ & X & _)|[-> _]]; [discriminate|exact OK].
  - apply apply_cases in H. destruct H as [(rs & _ & _ & _ & X & _)|[-> _]]; [discriminate|exact OK].
Qed.
