(* Transactions touch only the trees they lock; the invariant of overlapping
   transactions. *)
From Verif Require Import Base Key KeyPrefix DocId Tree View Docs DocsProofs DocsSpec ConcTx ConcTxSpec.
Local Open Scope N_scope.

Lemma tname_eqb_spec a b : tname_eqb a b = true <-> a = b.
Proof. destruct a, b; cbn; rewrite ?bytes_eqb_spec; split; intros H; try discriminate H; try (inversion H; reflexivity); try (f_equal; exact H). Qed.
Lemma tname_eqb_refl a : tname_eqb a a = true.
Proof. apply tname_eqb_spec. reflexivity. Qed.
Lemma tmem_spec t l : tmem t l = true <-> In t l.
Proof.
  unfold tmem. rewrite existsb_exists. split.
  - intros (x & I & H). apply tname_eqb_spec in H. subst. exact I.
  - intros I. exists t. split; [exact I|apply tname_eqb_refl].
Qed.

Lemma same_refl t a : same_tree t a a.
Proof. destruct t; reflexivity. Qed.
Lemma same_sym t a b : same_tree t a b -> same_tree t b a.
Proof. destruct t; cbn; congruence. Qed.
Lemma same_trans t a b c : same_tree t a b -> same_tree t b c -> same_tree t a c.
Proof. destruct t; cbn; congruence. Qed.

Lemma upd_same {A} (f : bytes -> A) k v : upd f k v k = v.
Proof. unfold upd. rewrite bytes_eqb_refl. reflexivity. Qed.
Lemma upd_other {A} (f : bytes -> A) k v j : j <> k -> upd f k v j = f j.
Proof. unfold upd. intros H. destruct (bytes_eqb j k) eqn:X; [apply bytes_eqb_spec in X; contradiction|reflexivity]. Qed.

Lemma copy_same t a b : same_tree t (copy_tree t a b) a.
Proof. destruct t; cbn; unfold upd; rewrite bytes_eqb_refl; reflexivity. Qed.
Lemma copy_other t u a b : t <> u -> same_tree u (copy_tree t a b) b.
Proof.
  intros H. destruct t as [c|c|c|c], u as [d|d|d|d]; cbn; unfold upd; try reflexivity;
    (destruct (bytes_eqb d c) eqn:X; [apply bytes_eqb_spec in X; subst; cbn; try reflexivity; exfalso; apply H; reflexivity|reflexivity]).
Qed.

(* agreement on a set of trees *)
Definition agree (F : list tname) (a b : work) : Prop := forall t, In t F -> same_tree t a b.
Definition outside (F : list tname) (a b : work) : Prop := forall t, ~ In t F -> same_tree t a b.
Lemma agree_refl F a : agree F a a.
Proof. intros t _. apply same_refl. Qed.
Lemma agree_sym F a b : agree F a b -> agree F b a.
Proof. intros H t I. apply same_sym, H, I. Qed.
Lemma agree_trans F a b c : agree F a b -> agree F b c -> agree F a c.
Proof. intros H K t I. eapply same_trans; [apply H, I|apply K, I]. Qed.
Lemma outside_refl F a : outside F a a.
Proof. intros t _. apply same_refl. Qed.
Lemma outside_trans F a b c : outside F a b -> outside F b c -> outside F a c.
Proof. intros H K t I. eapply same_trans; [apply H, I|apply K, I]. Qed.

(* the outcome is the same up to agreement, and nothing outside F changes *)
Definition wout {B} (F : list tname) (P : B -> work) (Q : B -> B -> Prop) (x y : outcome B terr) : Prop :=
  match x, y with
  | Done a, Done b => agree F (P a) (P b) /\ Q a b
  | Fail e, Fail f => e = f
  | Panic, Panic => True
  | _, _ => False
  end.

(* ---- one view ---- *)
Definition with_inv (vs : vstate) (i : tree unit) : vstate := mk_vs (vs_entries vs) (vs_docmap vs) i.
Lemma apply_batch_inv vd vs rs i : apply_batch vd (with_inv vs i) rs =
  match apply_batch vd vs rs with Done v => Done (with_inv v i) | Fail e => Fail e | Panic => Panic end.
Proof. unfold apply_batch. cbn. destruct (swap_all _ _ _ _ _ _ _); reflexivity. Qed.
Lemma apply_batch_keeps vd vs rs v : apply_batch vd vs rs = Done v -> vs_invalid v = vs_invalid vs.
Proof. unfold apply_batch. destruct (swap_all _ _ _ _ _ _ _); intros H; inversion H; reflexivity. Qed.
Lemma map_batches_inv sh vd docs bs : forall vs i, map_batches sh vd docs bs (with_inv vs i) =
  match map_batches sh vd docs bs vs with Done v => Done (with_inv v i) | Fail e => Fail e | Panic => Panic end.
Proof.
  induction bs as [|b r IH]; intros vs i; [reflexivity|]. cbn [map_batches]. unfold map_batch.
  destruct (map_docs _ _) as [rs|]; [|reflexivity]. rewrite apply_batch_inv.
  destruct (apply_batch vd vs (sh rs)); [apply IH|reflexivity|reflexivity].
Qed.
Lemma map_batches_keeps sh vd docs bs : forall vs v, map_batches sh vd docs bs vs = Done v -> vs_invalid v = vs_invalid vs.
Proof.
  induction bs as [|b r IH]; intros vs v; [intros H; inversion H; reflexivity|]. cbn [map_batches]. unfold map_batch.
  destruct (map_docs _ _) as [rs|]; [|discriminate].
  destruct (apply_batch vd vs (sh rs)) eqn:X; [|discriminate|discriminate]. intros H. apply IH in H.
  rewrite H. eapply apply_batch_keeps, X.
Qed.
Lemma map_request_same sh vd docs ids a b : vs_entries a = vs_entries b -> vs_docmap a = vs_docmap b ->
  match map_request sh vd docs ids a, map_request sh vd docs ids b with
  | Done x, Done y => vs_entries x = vs_entries y /\ vs_docmap x = vs_docmap y
  | Fail e, Fail f => e = f
  | Panic, Panic => True
  | _, _ => False
  end.
Proof.
  intros H K. unfold map_request.
  assert (X : a = with_inv b (vs_invalid a)) by (destruct a; unfold with_inv; cbn in *; congruence).
  rewrite X, map_batches_inv. destruct (map_batches _ _ _ _ b); cbn; auto.
Qed.

(* ---- eager views ---- *)
Definition views_trees (l : list view) (c : bytes) : list tname :=
  flat_map (fun v => if bytes_eqb (vw_coll v) c
                     then if is_eager (vd_policy (vw_def v)) then [TMap (vw_name v); TEntries (vw_name v)]
                          else [TInvalid (vw_name v)]
                     else []) l.
Lemma set_view_agree F a b n x y : agree F a b -> vs_entries x = vs_entries y -> vs_docmap x = vs_docmap y ->
  (vs_invalid x = vs_invalid (w_views a n)) -> (vs_invalid y = vs_invalid (w_views b n)) ->
  agree F (set_view a n x) (set_view b n y).
Proof.
  intros H E1 E2 E3 E4 t I. specialize (H t I).
  destruct t as [c|v|v|v]; cbn in *; [exact H| | | ]; unfold upd; destruct (bytes_eqb v n) eqn:X; try exact H;
    try (apply bytes_eqb_spec in X; subst v); congruence.
Qed.
Lemma set_view_outside F a n x : In (TMap n) F -> In (TEntries n) F -> vs_invalid x = vs_invalid (w_views a n) ->
  outside F a (set_view a n x).
Proof.
  intros I J K t T. destruct t as [c|v|v|v]; cbn; [reflexivity| | |]; unfold upd; destruct (bytes_eqb v n) eqn:X; try reflexivity;
    apply bytes_eqb_spec in X; subst v; try contradiction; congruence.
Qed.
Lemma eager_agree F c id : forall l a b, In (TDocs c) F -> incl (views_trees l c) F -> agree F a b ->
  wout F (fun w => w) (fun _ _ => True) (update_eager l c id a) (update_eager l c id b).
Proof.
  induction l as [|v r IH]; intros a b D I A; cbn [update_eager].
  - split; [exact A|exact Logic.I].
  - unfold views_trees in I. cbn [flat_map] in I. fold (views_trees r c) in I.
    destruct (bytes_eqb (vw_coll v) c) eqn:EC; cbn [andb]; [|apply IH; [exact D|intros t T; apply I; apply in_or_app; right; exact T|exact A]].
    destruct (is_eager (vd_policy (vw_def v))) eqn:EE.
    + assert (M : In (TMap (vw_name v)) F) by (apply I; left; reflexivity).
      assert (N1 : In (TEntries (vw_name v)) F) by (apply I; right; left; reflexivity).
      pose proof (A _ D) as AD. cbn in AD. rewrite AD.
      pose proof (map_request_same (fun l => l) (vw_def v) (w_docs b c) [id] (w_views a (vw_name v)) (w_views b (vw_name v))
                    (A _ N1) (A _ M)) as R.
      destruct (map_request _ _ _ _ (w_views a _)) as [x|e|] eqn:XA, (map_request _ _ _ _ (w_views b _)) as [y|f|] eqn:XB; try contradiction.
      * apply IH; [exact D|intros t T; apply I; apply in_or_app; right; exact T|].
        apply set_view_agree; [exact A|apply R|apply R| |].
        -- unfold map_request in XA. eapply map_batches_keeps, XA.
        -- unfold map_request in XB. eapply map_batches_keeps, XB.
      * cbn. subst. reflexivity.
      * exact Logic.I.
    + apply IH; [exact D|intros t T; apply I; apply in_or_app; right; exact T|exact A].
Qed.
Lemma eager_outside F c id : forall l a w, incl (views_trees l c) F -> update_eager l c id a = Done w -> outside F a w.
Proof.
  induction l as [|v r IH]; intros a w I; cbn [update_eager].
  - intros H. inversion H. apply outside_refl.
  - unfold views_trees in I. cbn [flat_map] in I. fold (views_trees r c) in I.
    assert (I' : incl (views_trees r c) F) by (intros t T; apply I; apply in_or_app; right; exact T).
    destruct (bytes_eqb (vw_coll v) c) eqn:EC; cbn [andb]; [|apply IH, I'].
    destruct (is_eager (vd_policy (vw_def v))) eqn:EE; [|apply IH, I'].
    destruct (map_request _ _ _ _ _) as [x|e|] eqn:X; [|discriminate|discriminate].
    intros H. eapply outside_trans; [|eapply IH; [exact I'|exact H]].
    apply set_view_outside; [apply I; left; reflexivity|apply I; right; left; reflexivity|].
    unfold map_request in X. eapply map_batches_keeps, X.
Qed.

(* ---- operations ---- *)
Lemma set_docs_agree F a b c t : agree F a b -> agree F (set_docs a c t) (set_docs b c t).
Proof. intros H u I. specialize (H u I). destruct u as [d|d|d|d]; cbn in *; try exact H. unfold upd. destruct (bytes_eqb d c); [reflexivity|exact H]. Qed.
Lemma set_docs_outside F a c t : In (TDocs c) F -> outside F a (set_docs a c t).
Proof.
  intros H u I. destruct u as [d|d|d|d]; cbn; try reflexivity. unfold upd. destruct (bytes_eqb d c) eqn:X; [|reflexivity].
  apply bytes_eqb_spec in X. subst. contradiction.
Qed.
Notation fst_eq := (fun (a b : work * opres) => snd a = snd b).
Lemma finish_agree E F c id a b res : incl (coll_trees E c) F -> agree F a b ->
  wout F fst fst_eq (finish E c id a res) (finish E c id b res).
Proof.
  intros I A. unfold finish.
  assert (W := eager_agree F c id (ev_views E) a b (I _ (or_introl eq_refl)) (fun t T => I _ (or_intror T)) A).
  destruct (update_eager _ _ _ a), (update_eager _ _ _ b); cbn in *; try contradiction; auto.
  destruct W. auto.
Qed.
Lemma finish_outside E F c id a res w r : incl (coll_trees E c) F -> finish E c id a res = Done (w, r) -> outside F a w.
Proof.
  intros I. unfold finish. destruct (update_eager _ _ _ a) eqn:X; intros H; inversion H; subst.
  eapply eager_outside; [|exact X]. intros t T. apply I. right. exact T.
Qed.
Lemma finish_coll E c id a res w r : finish E c id a res = Done (w, r) -> r = res.
Proof. unfold finish. destruct (update_eager _ _ _ a); intros H; inversion H; reflexivity. Qed.

Lemma op_agree E F o a b : incl (coll_trees E (op_coll o)) F -> agree F a b ->
  wout F fst fst_eq (exec_op E a o) (exec_op E b o).
Proof.
  intros I A. assert (D : w_docs a (op_coll o) = w_docs b (op_coll o)) by (apply (A (TDocs (op_coll o))), I; left; reflexivity).
  destruct o as [c cmd]. cbn [op_coll] in *. unfold exec_op. cbn [op_cmd op_coll].
  assert (FD : forall id t res, wout F fst fst_eq (finish E c id (set_docs a c t) res) (finish E c id (set_docs b c t) res)).
  { intros. apply finish_agree; [exact I|apply set_docs_agree, A]. }
  assert (SD : forall r, wout F fst fst_eq (Done (a, r)) (Done (b, r))) by (intros; cbn; auto).
  destruct cmd as [oid ct|h ct|id ct|h|id rv].
  - unfold exec_insert. rewrite D. destruct oid as [i|].
    + destruct (t_get i _); [reflexivity|apply FD].
    + destruct (ev_pk E c) as [k|]; [|reflexivity]. destruct (next_id k _) as [i|e|]; [|reflexivity|exact Logic.I].
      destruct (t_get i _); [reflexivity|apply FD].
  - unfold exec_update. rewrite D. destruct (t_get _ _) as [old|]; [|reflexivity].
    destruct (rev_eqb _ _); [|reflexivity]. destruct (next_revision _ _ _) as [[r|]|e|]; [apply FD|apply SD|reflexivity|exact Logic.I].
  - unfold exec_update. rewrite D. destruct (t_get _ _) as [old|]; [|apply FD].
    destruct (next_revision _ _ _) as [[r|]|e|]; [apply FD|apply SD|reflexivity|exact Logic.I].
  - unfold exec_delete. rewrite D. destruct (t_get _ _) as [old|]; [|reflexivity]. destruct (header_eqb _ _); [apply FD|reflexivity].
  - unfold exec_check. rewrite D. destruct (t_get _ _) as [old|]; [|reflexivity]. destruct rv as [r|]; [destruct (rev_eqb _ _)|];
      [apply SD|reflexivity|apply SD].
Qed.
Definition res_coll (r : opres) (c : bytes) : Prop := match r with RSuccess => True | RUpdated d _ => d = c | RDeleted d _ => d = c end.
Lemma op_outside E F o a w r : incl (coll_trees E (op_coll o)) F -> exec_op E a o = Done (w, r) -> outside F a w /\ res_coll r (op_coll o).
Proof.
  intros I. destruct o as [c cmd]. cbn [op_coll] in *. unfold exec_op. cbn [op_cmd op_coll].
  assert (FD : forall id t res, res_coll res c -> finish E c id (set_docs a c t) res = Done (w, r) -> outside F a w /\ res_coll r c).
  { intros id t res C H. split; [|rewrite (finish_coll _ _ _ _ _ _ _ H); exact C].
    eapply outside_trans; [apply set_docs_outside, I; left; reflexivity|eapply finish_outside; [exact I|exact H]]. }
  assert (SD : forall x, res_coll x c -> (Done (a, x) : outcome (work * opres) terr) = Done (w, r) -> outside F a w /\ res_coll r c).
  { intros x C H. inversion H; subst. split; [apply outside_refl|exact C]. }
  destruct cmd as [oid ct|h ct|id ct|h|id rv].
  - unfold exec_insert. destruct oid as [i|].
    + destruct (t_get i _); [discriminate|apply FD; reflexivity].
    + destruct (ev_pk E c) as [k|]; [|discriminate]. destruct (next_id k _) as [i|e|]; [|discriminate|discriminate].
      destruct (t_get i _); [discriminate|apply FD; reflexivity].
  - unfold exec_update. destruct (t_get _ _) as [old|]; [|discriminate].
    destruct (rev_eqb _ _); [|discriminate]. destruct (next_revision _ _ _) as [[r'|]|e|]; [apply FD; reflexivity|apply SD; reflexivity|discriminate|discriminate].
  - unfold exec_update. destruct (t_get _ _) as [old|]; [|apply FD; reflexivity].
    destruct (next_revision _ _ _) as [[r'|]|e|]; [apply FD; reflexivity|apply SD; reflexivity|discriminate|discriminate].
  - unfold exec_delete. destruct (t_get _ _) as [old|]; [|discriminate]. destruct (header_eqb _ _); [apply FD; reflexivity|discriminate].
  - unfold exec_check. destruct (t_get _ _) as [old|]; [|discriminate]. destruct rv as [r'|]; [destruct (rev_eqb _ _)|];
      [apply SD; exact Logic.I|discriminate|apply SD; exact Logic.I].
Qed.

Definition ops_trees (E : env) (ops : list operation) : list tname := flat_map (fun o => coll_trees E (op_coll o)) ops.
Notation out3 := (work * changes * list opres)%type.
Definition run_eq (F : list tname) (x y : outcome out3 terr) : Prop :=
  wout F (fun p => fst (fst p)) (fun p q => snd (fst p) = snd (fst q) /\ snd p = snd q) x y.
Lemma run_agree E F : forall ops a b ch rs, incl (ops_trees E ops) F -> agree F a b -> run_eq F (run_ops E ops a ch rs) (run_ops E ops b ch rs).
Proof.
  induction ops as [|o r IH]; intros a b ch rs I A; cbn [run_ops].
  - cbn. auto.
  - assert (I1 : incl (coll_trees E (op_coll o)) F) by (intros t T; apply I; unfold ops_trees; cbn [flat_map]; apply in_or_app; left; exact T).
    assert (I2 : incl (ops_trees E r) F) by (intros t T; apply I; unfold ops_trees; cbn [flat_map]; apply in_or_app; right; exact T).
    assert (W := op_agree E F o a b I1 A).
    destruct (exec_op E a o) as [[w1 r1]|e|], (exec_op E b o) as [[w2 r2]|f|]; cbn in W; try contradiction; try exact W.
    destruct W as [W1 W2]; cbn in W2; subst r2. destruct (record_result ch r1); [apply IH; assumption|reflexivity|exact Logic.I].
Qed.
Lemma record_colls ch r c ch' : record_result ch r = Done ch' -> res_coll r c -> incl (ch_colls ch') (c :: ch_colls ch).
Proof.
  assert (X : forall id b, record_change ch c id b = Done ch' -> incl (ch_colls ch') (c :: ch_colls ch)).
  { intros id b. unfold record_change. destruct (index_of _ _ _).
    - intros H. inversion H. cbn. intros x I. right. exact I.
    - destruct (_ <? _); intros H; inversion H. cbn. intros x I. apply in_app_or in I. destruct I as [I|[<-|[]]]; [right; exact I|left; reflexivity]. }
  destruct r as [|d h|d id]; cbn; [intros H _; inversion H; intros x I; right; exact I|intros H <-; eapply X, H|intros H <-; eapply X, H].
Qed.
Lemma run_outside E F : forall ops a ch rs w ch' rs', incl (ops_trees E ops) F -> run_ops E ops a ch rs = Done (w, ch', rs') ->
  outside F a w /\ incl (ch_colls ch') (map op_coll ops ++ ch_colls ch).
Proof.
  induction ops as [|o r IH]; intros a ch rs w ch' rs' I; cbn [run_ops].
  - intros H. inversion H; subst. split; [apply outside_refl|intros x X; exact X].
  - assert (I1 : incl (coll_trees E (op_coll o)) F) by (intros t T; apply I; unfold ops_trees; cbn [flat_map]; apply in_or_app; left; exact T).
    assert (I2 : incl (ops_trees E r) F) by (intros t T; apply I; unfold ops_trees; cbn [flat_map]; apply in_or_app; right; exact T).
    destruct (exec_op E a o) as [[w1 r1]|e|] eqn:X; [|discriminate|discriminate].
    destruct (op_outside E F o a w1 r1 I1 X) as [O1 C1].
    destruct (record_result ch r1) as [ch1|e|] eqn:R; [|discriminate|discriminate].
    intros H. destruct (IH _ _ _ _ _ _ I2 H) as [O2 C2]. split; [eapply outside_trans; eassumption|].
    intros x X1. apply C2 in X1. apply in_app_or in X1. cbn [map app]. destruct X1 as [X1|X1].
    + right. apply in_or_app. left. exact X1.
    + apply (record_colls _ _ _ _ R C1) in X1. destruct X1 as [<-|X1]; [left; reflexivity|right; apply in_or_app; right; exact X1].
Qed.

(* ---- invalidation ---- *)
Lemma invalidate_views_agree F c id : forall l a b, agree F a b -> agree F (invalidate_views l c id a) (invalidate_views l c id b).
Proof.
  induction l as [|v r IH]; intros a b A; cbn [invalidate_views]; [exact A|]. apply IH.
  destruct (_ && _); [|exact A]. intros t I. specialize (A t I).
  destruct t as [d|d|d|d]; cbn in *; [exact A| | |]; unfold upd; destruct (bytes_eqb d (vw_name v)) eqn:X; try exact A;
    apply bytes_eqb_spec in X; subst d; cbn; congruence.
Qed.
Lemma invalidate_views_outside F c id : forall l a, incl (views_trees l c) F -> outside F a (invalidate_views l c id a).
Proof.
  induction l as [|v r IH]; intros a I; cbn [invalidate_views]; [apply outside_refl|].
  unfold views_trees in I. cbn [flat_map] in I. fold (views_trees r c) in I.
  eapply outside_trans; [|apply IH; intros t T; apply I; apply in_or_app; right; exact T].
  destruct (bytes_eqb (vw_coll v) c) eqn:EC; cbn [andb]; [|apply outside_refl].
  destruct (is_eager (vd_policy (vw_def v))); cbn [negb]; [apply outside_refl|].
  intros t T. destruct t as [d|d|d|d]; cbn; [reflexivity| | |]; unfold upd; destruct (bytes_eqb d (vw_name v)) eqn:X; try reflexivity;
    apply bytes_eqb_spec in X; subst d; cbn; try reflexivity.
  exfalso. apply T, I. left. reflexivity.
Qed.
Lemma inv_agree E F ch : forall ds x y, wout F (fun w => w) (fun _ _ => True) x y ->
  wout F (fun w => w) (fun _ _ => True) (fold_left (inv_step E ch) ds x) (fold_left (inv_step E ch) ds y).
Proof.
  induction ds as [|d r IH]; intros x y W; cbn [fold_left]; [exact W|]. apply IH.
  destruct x as [a|e|], y as [b|f|]; cbn in W; try contradiction; cbn [inv_step]; [|exact W|exact Logic.I].
  destruct (change_coll ch d) as [c|]; [|exact Logic.I]. split; [apply invalidate_views_agree, W|exact Logic.I].
Qed.
Lemma inv_fold_not_done E ch : forall ds x, (forall w, x <> Done w) -> fold_left (inv_step E ch) ds x = x.
Proof. induction ds as [|d r IH]; intros x H; cbn [fold_left]; [reflexivity|]. destruct x; [exfalso; eapply H; reflexivity| |]; cbn [inv_step]; apply IH; intros w X; discriminate X. Qed.
Lemma inv_outside E F ch : (forall c, In c (ch_colls ch) -> incl (coll_trees E c) F) ->
  forall ds a w, fold_left (inv_step E ch) ds (Done a) = Done w -> outside F a w.
Proof.
  intros C. induction ds as [|d r IH]; intros a w; cbn [fold_left]; [intros H; inversion H; apply outside_refl|].
  cbn [inv_step]. destruct (change_coll ch d) as [c|] eqn:X.
  - intros H. eapply outside_trans; [|apply IH, H]. apply invalidate_views_outside.
    unfold change_coll in X. apply nth_error_In in X. intros t T. apply (C c X). right. exact T.
  - rewrite inv_fold_not_done; [discriminate|intros w' X'; discriminate X'].
Qed.

(* ---- a whole transaction ---- *)
(* what a transaction on work w leads to: its trees, its log entry and its results *)
Definition effect (E : env) (j : job) (w : work) : outcome (work * option changes * list opres) terr :=
  match j with
  | JTx ops =>
      if colls_defined E ops then
        match run_ops E ops w (mk_changes [] []) [] with
        | Done (w1, ch, rs) => match invalidate E ch w1 with
                               | Done w2 => Done (w2, Some ch, rs) | Fail e => Fail e | Panic => Panic end
        | Fail e => Fail e
        | Panic => Panic
        end
      else Fail CollectionNotFound
  | JMap v sh ids =>
      match map_chunk sh (vw_def v) (w_docs w (vw_coll v)) ids (w_views w (vw_name v)) with
      | Done vs => Done (set_view w (vw_name v) vs, None, [])
      | Fail e => Fail (ViewError e)
      | Panic => Panic
      end
  end.
Lemma alone_effect E s j : alone E s j =
  match effect E j (db_work s) with
  | Done (w, d, rs) => (mk_db w (db_log s ++ [(next_tx (db_log s), d)]), Done rs)
  | Fail e => (s, Fail e)
  | Panic => (s, Panic)
  end.
Proof.
  destruct j as [ops|v sh ids]; cbn [alone effect].
  - unfold apply_to_roots. destruct (colls_defined E ops); [|reflexivity].
    destruct (run_ops _ _ _ _ _) as [[[w ch] rs]|e|]; [|reflexivity|reflexivity]. destruct (invalidate _ _ _); reflexivity.
  - unfold mapper_step. destruct (map_chunk _ _ _ _ _); reflexivity.
Qed.
Notation eff := (work * option changes * list opres)%type.
Definition eff_eq (F : list tname) (x y : outcome eff terr) : Prop :=
  wout F (fun p => fst (fst p)) (fun p q => snd (fst p) = snd (fst q) /\ snd p = snd q) x y.
Lemma map_chunk_same sh vd docs ids a b : vs_entries a = vs_entries b -> vs_docmap a = vs_docmap b -> vs_invalid a = vs_invalid b ->
  map_chunk sh vd docs ids a = map_chunk sh vd docs ids b.
Proof. intros. replace a with b; [reflexivity|destruct a, b; cbn in *; congruence]. Qed.
Lemma effect_agree E j F a b : incl (job_trees E j) F -> agree F a b -> eff_eq F (effect E j a) (effect E j b).
Proof.
  destruct j as [ops|v sh ids]; cbn [job_trees effect]; intros I A.
  - destruct (colls_defined E ops); [|reflexivity].
    assert (R := run_agree E F ops a b (mk_changes [] []) [] I A).
    destruct (run_ops E ops a _ _) as [[[w1 c1] r1]|e|], (run_ops E ops b _ _) as [[[w2 c2] r2]|f|]; cbn in R; try contradiction; try exact R.
    destruct R as (A1 & -> & ->).
    assert (V := inv_agree E F c2 (ch_docs c2) (Done w1) (Done w2) (conj A1 Logic.I)).
    unfold invalidate. destruct (fold_left _ _ (Done w1)) as [x|e|], (fold_left _ _ (Done w2)) as [y|f|]; cbn in V; try contradiction; try exact V.
    cbn. destruct V. auto.
  - assert (H1 := A (TInvalid (vw_name v)) ltac:(apply I; cbn; auto)). assert (H2 := A (TMap (vw_name v)) ltac:(apply I; cbn; auto)).
    assert (H3 := A (TDocs (vw_coll v)) ltac:(apply I; cbn; auto)). assert (H4 := A (TEntries (vw_name v)) ltac:(apply I; cbn; auto)).
    cbn in H1, H2, H3, H4. rewrite H3, (map_chunk_same _ _ _ _ _ _ H4 H2 H1).
    destruct (map_chunk _ _ _ _ _) as [vs|e|]; cbn; auto. split; [|auto].
    intros t T. specialize (A t T). destruct t as [d|d|d|d]; cbn in *; [exact A| | |]; unfold upd; destruct (bytes_eqb d _); (reflexivity || exact A).
Qed.
Lemma effect_outside E j a w d rs : effect E j a = Done (w, d, rs) -> outside (job_trees E j) a w.
Proof.
  destruct j as [ops|v sh ids]; cbn [effect job_trees].
  - destruct (colls_defined E ops); [|discriminate].
    destruct (run_ops E ops a _ _) as [[[w1 c1] r1]|e|] eqn:R; [|discriminate|discriminate].
    destruct (run_outside E (ops_trees E ops) ops _ _ _ _ _ _ (fun t T => T) R) as [O C].
    destruct (invalidate E c1 w1) as [w2|e|] eqn:V; intros H; inversion H; subst.
    eapply outside_trans; [exact O|]. unfold invalidate in V. eapply inv_outside; [|exact V].
    intros c K. apply C in K. rewrite app_nil_r in K. apply in_map_iff in K. destruct K as (o & <- & K).
    intros t T. unfold ops_trees. apply in_flat_map. exists o. split; assumption.
  - destruct (map_chunk _ _ _ _ _) as [vs|e|]; intros H; inversion H; subst.
    intros t T. cbn in T. destruct t as [x|x|x|x]; cbn; [reflexivity| | |]; unfold upd; destruct (bytes_eqb x _) eqn:X; try reflexivity;
      apply bytes_eqb_spec in X; subst x; exfalso; apply T; auto.
Qed.

(* ---- the transactions under way ---- *)
Lemma get_txn_In i x : forall l, get_txn i l = Some x -> In (i, x) l.
Proof.
  induction l as [|[j y] l IH]; cbn [get_txn]; [discriminate|]. destruct (j =? i) eqn:X.
  - intros H. inversion H; subst. apply N.eqb_eq in X. subst. left. reflexivity.
  - intros H. right. apply IH, H.
Qed.
Lemma In_get_txn i x : forall l, NoDup (map fst l) -> In (i, x) l -> get_txn i l = Some x.
Proof.
  induction l as [|[j y] l IH]; cbn [get_txn map]; intros ND I; [destruct I|]. inversion_clear ND as [|? ? N1 N2].
  destruct I as [I|I].
  - inversion I; subst. rewrite N.eqb_refl. reflexivity.
  - destruct (j =? i) eqn:X; [|apply IH; assumption]. apply N.eqb_eq in X. subst. exfalso. apply N1.
    apply in_map_iff. exists (i, x). auto.
Qed.
Lemma put_fst i x l : map fst (put_txn i x l) = map fst l.
Proof. unfold put_txn. rewrite map_map. apply map_ext. intros [j y]. cbn. destruct (j =? i) eqn:X; [apply N.eqb_eq in X; cbn; congruence|reflexivity]. Qed.
Lemma put_In i x l j y : In (j, y) (put_txn i x l) -> (j = i /\ y = x) \/ (j <> i /\ In (j, y) l).
Proof.
  unfold put_txn. rewrite in_map_iff. intros ([k z] & H & I). cbn in H. destruct (k =? i) eqn:X.
  - inversion H; subst. left. auto.
  - inversion H; subst. right. split; [apply N.eqb_neq, X|exact I].
Qed.
Lemma put_get i x l : In i (map fst l) -> get_txn i (put_txn i x l) = Some x.
Proof.
  induction l as [|[j y] l IH]; cbn; [intros []|]. destruct (j =? i) eqn:X.
  - intros _. cbn. rewrite N.eqb_refl. reflexivity.
  - cbn. rewrite X. intros [->|I]; [rewrite N.eqb_refl in X; discriminate|apply IH, I].
Qed.
Lemma put_keeps i x l j : In j (map fst l) -> In j (map fst (put_txn i x l)).
Proof. rewrite put_fst. auto. Qed.
Lemma drop_In i l j y : In (j, y) (drop_txn i l) <-> j <> i /\ In (j, y) l.
Proof. unfold drop_txn. rewrite filter_In. cbn. rewrite negb_true_iff, N.eqb_neq. tauto. Qed.
Lemma drop_NoDup i l : NoDup (map fst l) -> NoDup (map fst (drop_txn i l)).
Proof.
  induction l as [|[j y] l IH]; cbn; intros ND; [constructor|]. inversion_clear ND as [|? ? N1 N2].
  destruct (negb (j =? i)); [|apply IH, N2]. cbn. constructor; [|apply IH, N2].
  intros X. apply N1. apply in_map_iff in X. destruct X as ([k z] & <- & X). apply drop_In in X. apply in_map_iff. exists (k, z). tauto.
Qed.
Lemma in_put_other i x l j y : j <> i -> In (j, y) l -> In (j, y) (put_txn i x l).
Proof. intros H I. unfold put_txn. apply in_map_iff. exists (j, y). cbn. apply N.eqb_neq in H. rewrite H. auto. Qed.

Lemma serial_app E : forall o1 s o2 s', serial E s (o1 ++ o2) s' <-> exists m, serial E s o1 m /\ serial E m o2 s'.
Proof.
  induction o1 as [|[[i j] r] o1 IH]; intros s o2 s'; cbn [app serial].
  - split; [intros H; exists s; auto|intros (m & -> & H); exact H].
  - rewrite IH. split; [intros (H & m & K)|intros (m & (H & K) & L)]; [exists m; tauto|]. split; [exact H|]. exists m. auto.
Qed.

Section Inv.
Context (E : env) (s0 : dbstate).
Notation order := (list (N * job * result)).

Definition txn_inv (D : dbstate) (pub : work) (o : order) (i : N) (x : txn) : Prop :=
  let F := x_locks x in
  match x_phase x with
  | PRun rest ch rs =>
      F = job_trees E (x_job x) /\ ~ In i (ids_of o) /\ agree F pub (db_work D) /\
      exists ops, x_job x = JTx ops /\ colls_defined E ops = true /\ incl (ops_trees E rest) F /\
        run_eq F (run_ops E ops (db_work D) (mk_changes [] []) []) (run_ops E rest (x_work x) ch rs)
  | PMap =>
      F = job_trees E (x_job x) /\ ~ In i (ids_of o) /\ agree F pub (db_work D) /\
      (exists v sh ids, x_job x = JMap v sh ids) /\ agree F (x_work x) (db_work D)
  | PReady d todo false rs =>
      F = job_trees E (x_job x) /\ ~ In i (ids_of o) /\ incl todo F /\
      eff_eq F (effect E (x_job x) (db_work D)) (Done (x_work x, d, rs)) /\
      (forall t, In t F -> In t todo -> same_tree t pub (db_work D)) /\
      (forall t, In t F -> ~ In t todo -> same_tree t pub (x_work x))
  | PReady d todo true rs =>
      F = job_trees E (x_job x) /\ incl todo F /\ agree F (db_work D) (x_work x) /\
      (forall t, In t F -> ~ In t todo -> same_tree t pub (x_work x)) /\
      (exists o1 o2 D1, o = o1 ++ (i, x_job x, Done rs) :: o2 /\ serial E s0 o1 D1 /\
         forall t, In t todo -> same_tree t pub (db_work D1))
  | PFailed r => agree F pub (db_work D) /\ In (i, x_job x, r) o
  end.

Lemma ids_app o p : ids_of (o ++ p) = ids_of o ++ ids_of p.
Proof. apply map_app. Qed.
Lemma run_eq_agree F ops a b z : incl (ops_trees E ops) F -> agree F a b ->
  run_eq F (run_ops E ops a (mk_changes [] []) []) z -> run_eq F (run_ops E ops b (mk_changes [] []) []) z.
Proof.
  intros I A H. assert (R := run_agree E F ops a b (mk_changes [] []) [] I A).
  destruct (run_ops E ops a _ _) as [p|e|], (run_ops E ops b _ _) as [q|f|]; cbn in R; try contradiction; destruct z as [z|z|]; cbn in *; try contradiction; try congruence.
  destruct R as (R1 & R2 & R3), H as (H1 & H2 & H3). split; [eapply agree_trans; [apply agree_sym, R1|exact H1]|]. split; congruence.
Qed.
Lemma eff_eq_agree F j a b z : incl (job_trees E j) F -> agree F a b -> eff_eq F (effect E j a) z -> eff_eq F (effect E j b) z.
Proof.
  intros I A H. assert (R := effect_agree E j F a b I A).
  destruct (effect E j a) as [p|e|], (effect E j b) as [q|f|]; cbn in R; try contradiction; destruct z as [z|z|]; cbn in *; try contradiction; try congruence.
  destruct R as (R1 & R2 & R3), H as (H1 & H2 & H3). split; [eapply agree_trans; [apply agree_sym, R1|exact H1]|]. split; congruence.
Qed.
Lemma not_in_app i (o p : order) : ~ In i (ids_of o) -> ~ In i (ids_of p) -> ~ In i (ids_of (o ++ p)).
Proof. rewrite ids_app, in_app_iff. tauto. Qed.

(* what other transactions do does not matter *)
Lemma txn_mono D D' pub pub' o p i x : agree (x_locks x) (db_work D) (db_work D') -> agree (x_locks x) pub pub' ->
  ~ In i (ids_of p) -> txn_inv D pub o i x -> txn_inv D' pub' (o ++ p) i x.
Proof.
  intros AD AP NI. unfold txn_inv. destruct (x_phase x) as [rest ch rs| |d todo lg rs|r].
  - intros (HF & NO & A & ops & J & CD & I & R).
    split; [exact HF|]. split; [apply not_in_app; assumption|].
    split; [eapply agree_trans; [apply agree_sym, AP|eapply agree_trans; [exact A|exact AD]]|].
    exists ops. split; [exact J|]. split; [exact CD|]. split; [exact I|].
    eapply run_eq_agree; [|exact AD|exact R]. rewrite HF, J. intros t T; exact T.
  - intros (HF & NO & A & J & W). split; [exact HF|]. split; [apply not_in_app; assumption|].
    split; [eapply agree_trans; [apply agree_sym, AP|eapply agree_trans; [exact A|exact AD]]|].
    split; [exact J|eapply agree_trans; [exact W|exact AD]].
  - destruct lg.
    + intros (HF & I & A & P & o1 & o2 & D1 & EO & SO & T). split; [exact HF|]. split; [exact I|].
      split; [eapply agree_trans; [apply agree_sym, AD|exact A]|]. split.
      * intros t T1 T2. eapply same_trans; [apply same_sym, AP, T1|apply P; assumption].
      * exists o1, (o2 ++ p), D1. split; [rewrite EO, <- app_assoc; reflexivity|]. split; [exact SO|].
        intros t T1. eapply same_trans; [apply same_sym, AP, I, T1|apply T, T1].
    + intros (HF & NO & I & EF & P1 & P2). split; [exact HF|]. split; [apply not_in_app; assumption|]. split; [exact I|].
      split; [eapply eff_eq_agree; [|exact AD|exact EF]; rewrite HF; intros t T; exact T|]. split.
      * intros t T1 T2. eapply same_trans; [apply same_sym, AP, T1|]. eapply same_trans; [apply P1; assumption|apply AD, T1].
      * intros t T1 T2. eapply same_trans; [apply same_sym, AP, T1|apply P2; assumption].
  - intros (A & IN). split; [eapply agree_trans; [apply agree_sym, AP|eapply agree_trans; [exact A|exact AD]]|].
    apply in_or_app. left. exact IN.
Qed.

(* private work *)
Lemma txn_step D pub o i x x' : txn_inv D pub o i x -> work_step E x = Some x' ->
  x_job x' = x_job x /\ x_locks x' = x_locks x /\
  (txn_inv D pub o i x' \/
   exists r, x_phase x' = PFailed r /\ ~ In i (ids_of o) /\ agree (x_locks x) pub (db_work D) /\ alone E D (x_job x) = (D, r)).
Proof.
  unfold txn_inv, work_step. destruct (x_phase x) as [[|op rest] ch rs| |d todo lg rs|r] eqn:PH.
  - intros (HF & NO & A & ops & J & CD & I & R) H. cbn [run_ops] in R.
    assert (EV : eff_eq (x_locks x) (effect E (x_job x) (db_work D))
              match invalidate E ch (x_work x) with Done w => Done (w, Some ch, rs) | Fail e => Fail e | Panic => Panic end).
    { rewrite J. cbn [effect]. rewrite CD. destruct (run_ops E ops _ _ _) as [[[w c] r]|e|]; cbn in R; try contradiction.
      destruct R as (R1 & -> & ->). assert (V := inv_agree E (x_locks x) ch (ch_docs ch) (Done w) (Done (x_work x)) (conj R1 Logic.I)).
      unfold invalidate. destruct (fold_left _ _ (Done w)) as [p|e|], (fold_left _ _ (Done (x_work x))) as [q|f|]; cbn in V; try contradiction; try exact V.
      cbn. destruct V. auto. }
    destruct (invalidate E ch (x_work x)) as [w|e|]; inversion H; subst x'; cbn [x_job x_locks x_phase x_work]; (split; [reflexivity|]); (split; [reflexivity|]).
    + left. split; [exact HF|]. split; [exact NO|]. split; [apply incl_refl|]. split; [exact EV|].
      split; [intros t T _; apply A, T|intros t T T'; contradiction].
    + right. exists (Fail e). split; [reflexivity|]. split; [exact NO|]. split; [exact A|]. rewrite alone_effect.
      destruct (effect E _ _) as [p|f|]; cbn in EV; try contradiction. subst. reflexivity.
    + right. exists Panic. split; [reflexivity|]. split; [exact NO|]. split; [exact A|]. rewrite alone_effect.
      destruct (effect E _ _) as [p|f|]; cbn in EV; try contradiction. reflexivity.
  - intros (HF & NO & A & ops & J & CD & I & R) H. cbn [run_ops] in R.
    assert (FA : forall r, (match r with Done _ => False | Fail e => run_ops E ops (db_work D) (mk_changes [] []) [] = Fail e
                            | Panic => run_ops E ops (db_work D) (mk_changes [] []) [] = Panic end) ->
                 alone E D (x_job x) = (D, r)).
    { intros r K. rewrite alone_effect, J. cbn [effect]. rewrite CD. destruct r; [contradiction| |]; rewrite K; reflexivity. }
    assert (I' : incl (ops_trees E rest) (x_locks x)) by (intros t T; apply I; unfold ops_trees; cbn [flat_map]; apply in_or_app; right; exact T).
    destruct (exec_op E (x_work x) op) as [[w res]|e|].
    + destruct (record_result ch res) as [ch'|e|]; inversion H; subst x'; cbn [x_job x_locks x_phase x_work]; (split; [reflexivity|]); (split; [reflexivity|]).
      * left. split; [exact HF|]. split; [exact NO|]. split; [exact A|]. exists ops. auto.
      * right. exists (Fail e). split; [reflexivity|]. split; [exact NO|]. split; [exact A|]. apply FA.
        destruct (run_ops E ops _ _ _) as [p|f|]; cbn in R; try contradiction. congruence.
      * right. exists Panic. split; [reflexivity|]. split; [exact NO|]. split; [exact A|]. apply FA.
        destruct (run_ops E ops _ _ _) as [p|f|]; cbn in R; try contradiction. reflexivity.
    + inversion H; subst x'; cbn [x_job x_locks x_phase x_work]; (split; [reflexivity|]); (split; [reflexivity|]).
      right. exists (Fail e). split; [reflexivity|]. split; [exact NO|]. split; [exact A|]. apply FA.
      destruct (run_ops E ops _ _ _) as [p|f|]; cbn in R; try contradiction. congruence.
    + inversion H; subst x'; cbn [x_job x_locks x_phase x_work]; (split; [reflexivity|]); (split; [reflexivity|]).
      right. exists Panic. split; [reflexivity|]. split; [exact NO|]. split; [exact A|]. apply FA.
      destruct (run_ops E ops _ _ _) as [p|f|]; cbn in R; try contradiction. reflexivity.
  - intros (HF & NO & A & (v & sh & ids & J) & W) H.
    assert (EV := effect_agree E (x_job x) (x_locks x) (db_work D) (x_work x) ltac:(rewrite HF; apply incl_refl) (agree_sym _ _ _ W)).
    rewrite J in H, EV. cbn [effect] in EV.
    assert (AE : alone E D (x_job x) = match effect E (x_job x) (db_work D) with
       | Done (w, d, rs) => (mk_db w (db_log D ++ [(next_tx (db_log D), d)]), Done rs) | Fail e => (D, Fail e) | Panic => (D, Panic) end)
      by apply alone_effect. rewrite J in AE. cbn [effect] in AE.
    destruct (map_chunk _ _ (w_docs (x_work x) _) _ _) as [vs|e|]; inversion H; subst x'; cbn [x_job x_locks x_phase x_work]; (split; [congruence|]); (split; [reflexivity|]).
    + left. split; [congruence|]. split; [exact NO|]. split; [apply incl_refl|]. split; [rewrite ?J; exact EV|].
      split; [intros t T _; apply A, T|intros t T T'; contradiction].
    + right. exists (Fail (ViewError e)). split; [reflexivity|]. split; [exact NO|]. split; [exact A|]. rewrite J, AE.
      destruct (map_chunk _ _ _ _ _) as [p|f|]; cbn in EV; try contradiction. inversion EV. reflexivity.
    + right. exists Panic. split; [reflexivity|]. split; [exact NO|]. split; [exact A|]. rewrite J, AE.
      destruct (map_chunk _ _ _ _ _) as [p|f|]; cbn in EV; try contradiction. reflexivity.
  - discriminate.
  - discriminate.
Qed.

Record inv (o : order) (D : dbstate) (s : cs) : Prop := mk_inv {
  i_serial : serial E s0 o D;
  i_log : c_log s = db_log D;
  i_nodup : NoDup (map fst (c_run s));
  i_locks : forall i x j y t, In (i, x) (c_run s) -> In (j, y) (c_run s) -> i <> j -> In t (x_locks x) -> ~ In t (x_locks y);
  i_free : forall t, (forall i x, In (i, x) (c_run s) -> ~ In t (x_locks x)) -> same_tree t (c_pub s) (db_work D);
  i_txn : forall i x, In (i, x) (c_run s) -> txn_inv D (c_pub s) o i x;
  i_fin : forall r, In r (c_fin s) -> In r o;
  i_order : NoDup (ids_of o);
  i_known : forall i, In i (ids_of o) -> In i (map fst (c_run s)) \/ In i (ids_of (c_fin s));
  i_disj : forall i, In i (map fst (c_run s)) -> ~ In i (ids_of (c_fin s)) }.

Lemma inv_start : inv [] s0 (cs_start s0).
Proof. constructor; cbn; try constructor; try reflexivity; try contradiction. all: intros; try apply same_refl; contradiction. Qed.

Lemma known_false s i : known_id s i = false -> ~ In i (map fst (c_run s)) /\ ~ In i (ids_of (c_fin s)).
Proof.
  unfold known_id. rewrite orb_false_iff. intros [H K]. split; intros I; apply in_map_iff in I; destruct I as (p & <- & I).
  - assert (X : existsb (fun q => fst q =? fst p) (c_run s) = true) by (apply existsb_exists; exists p; split; [exact I|apply N.eqb_refl]). congruence.
  - assert (X : existsb (fun q => fst (fst q) =? id_of p) (c_fin s) = true) by (apply existsb_exists; exists p; split; [exact I|apply N.eqb_refl]). congruence.
Qed.
Lemma not_locked s l : existsb (locked s) l = false -> forall t i x, In t l -> In (i, x) (c_run s) -> ~ In t (x_locks x).
Proof.
  intros H t i x T I K. assert (X : existsb (locked s) l = true); [|congruence].
  apply existsb_exists. exists t. split; [exact T|]. unfold locked. apply existsb_exists. exists (i, x). split; [exact I|]. apply tmem_spec, K.
Qed.
Lemma NoDup_snoc_N (l : list N) a : NoDup l -> ~ In a l -> NoDup (l ++ [a]).
Proof. intros H K. apply NoDup_rev in H. rewrite <- (rev_involutive (l ++ [a])). apply NoDup_rev. rewrite rev_app_distr. cbn. constructor; [rewrite <- in_rev; exact K|exact H]. Qed.
Lemma snd_fst_alone D j r : snd (alone E D j) = r -> serial E D [(0, j, r)] (fst (alone E D j)).
Proof. cbn. auto. Qed.

(* a transaction begins *)
Lemma inv_add o D s i x : inv o D s -> ~ In i (map fst (c_run s)) -> ~ In i (ids_of (c_fin s)) ->
  (forall t j y, In t (x_locks x) -> In (j, y) (c_run s) -> ~ In t (x_locks y)) ->
  txn_inv D (c_pub s) o i x -> inv o D (mk_cs (c_pub s) (c_log s) (c_run s ++ [(i, x)]) (c_fin s)).
Proof.
  intros V N1 N2 L T. destruct V as [V1 V2 V3 V4 V5 V6 V7 V8 V9 V10]. constructor; cbn [c_pub c_log c_run c_fin]; auto.
  - rewrite map_app. cbn. apply NoDup_snoc_N; assumption.
  - intros i1 x1 j y t I1 I2 NE T1 T2. apply in_app_or in I1. apply in_app_or in I2.
    destruct I1 as [I1|[I1|[]]], I2 as [I2|[I2|[]]].
    + exact (V4 _ _ _ _ _ I1 I2 NE T1 T2).
    + inversion I2; subst. exact (L _ _ _ T2 I1 T1).
    + inversion I1; subst. exact (L _ _ _ T1 I2 T2).
    + inversion I1; inversion I2; subst. contradiction.
  - intros t H. apply V5. intros j y I. apply (H j y). apply in_or_app. left. exact I.
  - intros j y I. apply in_app_or in I. destruct I as [I|[I|[]]]; [apply V6, I|]. inversion I; subst. exact T.
  - intros j I. destruct (V9 j I) as [K|K]; [left; rewrite map_app; apply in_or_app; left; exact K|right; exact K].
  - intros j I. rewrite map_app in I. apply in_app_or in I. destruct I as [I|[<-|[]]]; [apply V10, I|exact N2].
Qed.

Lemma inv_fresh o D s i : inv o D s -> ~ In i (map fst (c_run s)) -> ~ In i (ids_of (c_fin s)) -> ~ In i (ids_of o).
Proof. intros V N1 N2 I. destruct (i_known _ _ _ V i I); contradiction. Qed.

(* a decision: the order grows by a transaction that is under way; only its trees
   change, in the serial execution and in what is published *)
Lemma inv_decide o D s i x x' pub' log' ext D' : inv o D s -> get_txn i (c_run s) = Some x -> x_locks x' = x_locks x ->
  outside (x_locks x) (db_work D) (db_work D') -> outside (x_locks x) (c_pub s) pub' ->
  serial E s0 (o ++ ext) D' -> log' = db_log D' ->
  (ext = [] \/ exists r, ext = [(i, x_job x, r)] /\ ~ In i (ids_of o)) ->
  txn_inv D' pub' (o ++ ext) i x' ->
  inv (o ++ ext) D' (mk_cs pub' log' (put_txn i x' (c_run s)) (c_fin s)).
Proof.
  intros V G EL OD OP SE EG EX T. apply get_txn_In in G. destruct V as [V1 V2 V3 V4 V5 V6 V7 V8 V9 V10].
  assert (IE : forall j, In j (ids_of ext) -> j = i /\ ~ In i (ids_of o)).
  { intros j I. destruct EX as [->|(r & -> & NI)]; [destruct I|]. destruct I as [<-|[]]. auto. }
  assert (II : In i (map fst (c_run s))) by (apply in_map_iff; exists (i, x); auto).
  constructor; cbn [c_pub c_log c_run c_fin]; auto.
  - rewrite put_fst. exact V3.
  - intros i1 x1 j y t I1 I2 NE T1. apply put_In in I1. apply put_In in I2.
    destruct I1 as [[-> ->]|[N1 I1]], I2 as [[-> ->]|[N2 I2]].
    + contradiction.
    + rewrite EL in T1. eapply V4; [exact G|exact I2|exact NE|exact T1].
    + rewrite EL. eapply V4; [exact I1|exact G|exact NE|exact T1].
    + eapply V4; [exact I1|exact I2|exact NE|exact T1].
  - intros t H. assert (NX : ~ In t (x_locks x)).
    { intros K. apply (H i x'); [|rewrite EL; exact K]. apply get_txn_In, put_get, II. }
    assert (K : same_tree t (c_pub s) (db_work D)).
    { apply V5. intros j y I. destruct (N.eq_dec j i) as [->|NE].
      - assert (y = x) as -> by (apply In_get_txn in I; [|exact V3]; apply In_get_txn in G; [|exact V3]; congruence). exact NX.
      - apply (H j y), in_put_other; assumption. }
    eapply same_trans; [apply same_sym, OP, NX|]. eapply same_trans; [exact K|apply OD, NX].
  - intros j y I. apply put_In in I. destruct I as [[-> ->]|[NE I]]; [exact T|].
    apply (txn_mono D D' (c_pub s) pub' o ext j y).
    + intros t K. apply OD. eapply V4; [exact I|exact G|exact NE|exact K].
    + intros t K. apply OP. eapply V4; [exact I|exact G|exact NE|exact K].
    + intros K. apply IE in K. destruct K as [-> _]. contradiction.
    + apply V6, I.
  - intros r I. apply in_or_app. left. apply V7, I.
  - rewrite ids_app. destruct EX as [->|(r & -> & NI)]; [cbn; rewrite app_nil_r; exact V8|]. apply NoDup_snoc_N; assumption.
  - intros j I. rewrite ids_app in I. apply in_app_or in I. rewrite put_fst. destruct I as [I|I]; [apply V9, I|].
    apply IE in I. destruct I as [-> _]. left. exact II.
  - intros j I. rewrite put_fst in I. apply V10, I.
Qed.

Lemma inv_end o D s i x r : inv o D s -> get_txn i (c_run s) = Some x -> In (i, x_job x, r) o -> agree (x_locks x) (c_pub s) (db_work D) ->
  inv o D (mk_cs (c_pub s) (c_log s) (drop_txn i (c_run s)) (c_fin s ++ [(i, x_job x, r)])).
Proof.
  intros V G IO A. apply get_txn_In in G. destruct V as [V1 V2 V3 V4 V5 V6 V7 V8 V9 V10].
  constructor; cbn [c_pub c_log c_run c_fin]; auto.
  - apply drop_NoDup, V3.
  - intros i1 x1 j y t I1 I2. apply drop_In in I1. apply drop_In in I2. apply V4; tauto.
  - intros t H. destruct (in_dec (fun a b => match bool_dec (tname_eqb a b) true with left e => left (proj1 (tname_eqb_spec a b) e)
                             | right n => right (fun e => n (proj2 (tname_eqb_spec a b) e)) end) t (x_locks x)) as [K|K]; [apply A, K|].
    apply V5. intros j y I. destruct (N.eq_dec j i) as [->|NE].
    + assert (y = x) as -> by (apply In_get_txn in I; [|exact V3]; apply In_get_txn in G; [|exact V3]; congruence). exact K.
    + apply (H j y). apply drop_In. auto.
  - intros j y I. apply drop_In in I. apply V6. tauto.
  - intros z I. apply in_app_or in I. destruct I as [I|[<-|[]]]; [apply V7, I|exact IO].
  - intros j I. rewrite ids_app. destruct (N.eq_dec j i) as [->|NE]; [right; apply in_or_app; right; left; reflexivity|].
    destruct (V9 j I) as [K|K]; [left|right; apply in_or_app; left; exact K].
    apply in_map_iff in K. destruct K as ([k y] & <- & K). apply in_map_iff. exists (k, y). split; [reflexivity|]. apply drop_In. auto.
  - intros j I K. rewrite ids_app in K. apply in_map_iff in I. destruct I as ([k y] & <- & I). apply drop_In in I. destruct I as [NE I].
    apply in_app_or in K. destruct K as [K|[K|[]]].
    + apply (V10 k); [apply in_map_iff; exists (k, y); auto|exact K].
    + cbn in *. congruence.
Qed.

Lemma serial_snoc o D i j : serial E s0 o D -> serial E s0 (o ++ [(i, j, snd (alone E D j))]) (fst (alone E D j)).
Proof. intros H. apply serial_app. exists D. split; [exact H|]. cbn. auto. Qed.

Lemma inv_step_ok o D s e s' : inv o D s -> cstep E s e = Some s' ->
  exists ext D', inv (o ++ ext) D' s' /\ (ext = [] \/ exists x, ext = [x]).
Proof.
  intros V. destruct e as [i j|i|i t|i|i]; cbn [cstep].
  - destruct (known_id s i) eqn:KI; [discriminate|]. apply known_false in KI. destruct KI as [N1 N2].
    assert (NO := inv_fresh _ _ _ _ V N1 N2).
    destruct (job_defined E j) eqn:JD.
    + destruct (existsb _ _) eqn:LK; [discriminate|]. intros H. inversion H; subst s'. exists [], D. rewrite app_nil_r. split; [|left; reflexivity].
      assert (NL := not_locked _ _ LK). apply inv_add; auto.
      assert (AP : agree (job_trees E j) (c_pub s) (db_work D)).
      { intros u U. apply (i_free _ _ _ V). intros k y I. eapply NL; [exact U|exact I]. }
      destruct j as [ops|v sh ids]; unfold txn_inv; cbn [x_phase x_locks x_job x_work].
      * split; [reflexivity|]. split; [exact NO|]. split; [exact AP|]. exists ops. split; [reflexivity|]. split; [exact JD|].
        split; [apply incl_refl|]. apply run_agree; [apply incl_refl|apply agree_sym, AP].
      * split; [reflexivity|]. split; [exact NO|]. split; [exact AP|]. split; [eauto|exact AP].
    + intros H. inversion H; subst s'. exists [(i, j, Fail CollectionNotFound)], D. split; [|right; eauto].
      assert (AL : alone E D j = (D, Fail CollectionNotFound)).
      { rewrite alone_effect. destruct j as [ops|v sh ids]; cbn in JD; [|discriminate]. cbn [effect]. rewrite JD. reflexivity. }
      assert (SE : serial E s0 (o ++ [(i, j, Fail CollectionNotFound)]) D).
      { assert (X := serial_snoc o D i j (i_serial _ _ _ V)). rewrite AL in X. exact X. }
      destruct V as [V1 V2 V3 V4 V5 V6 V7 V8 V9 V10]. constructor; cbn [c_pub c_log c_run c_fin]; auto.
      * rewrite map_app. cbn. apply NoDup_snoc_N; assumption.
      * intros i1 x1 k y t I1 I2 NE T1 T2. apply in_app_or in I1. apply in_app_or in I2.
        destruct I1 as [I1|[I1|[]]], I2 as [I2|[I2|[]]]; [exact (V4 _ _ _ _ _ I1 I2 NE T1 T2)|inversion I2; subst; destruct T2|inversion I1; subst; destruct T1|inversion I1; subst; destruct T1].
      * intros t H1. apply V5. intros k y I. apply (H1 k y). apply in_or_app. left. exact I.
      * intros k y I. apply in_app_or in I. destruct I as [I|[I|[]]].
        -- eapply txn_mono; [apply agree_refl|apply agree_refl| |apply V6, I].
           intros K. destruct K as [K|[]]. cbn in K. subst k. apply N1. apply in_map_iff. exists (i, y). auto.
        -- inversion I; subst. unfold txn_inv. cbn [x_phase x_locks x_job]. split; [intros t []|]. apply in_or_app. right. left. reflexivity.
      * intros r I. apply in_or_app. left. apply V7, I.
      * rewrite ids_app. apply NoDup_snoc_N; assumption.
      * intros k I. rewrite ids_app in I. apply in_app_or in I. rewrite map_app. destruct I as [I|[<-|[]]].
        -- destruct (V9 k I) as [K|K]; [left; apply in_or_app; left; exact K|right; exact K].
        -- left. apply in_or_app. right. left. reflexivity.
      * intros k I. rewrite map_app in I. apply in_app_or in I. destruct I as [I|[<-|[]]]; [apply V10, I|exact N2].
  - destruct (get_txn i (c_run s)) as [x|] eqn:G; [|discriminate]. destruct (work_step E x) as [x'|] eqn:WS; [|discriminate].
    intros H. inversion H; subst s'.
    destruct (txn_step D (c_pub s) o i x x' (i_txn _ _ _ V _ _ (get_txn_In _ _ _ G)) WS) as (EJ & EL & [T|(r & PH & NO & A & AL)]).
    + exists [], D. split; [|left; reflexivity]. apply (inv_decide o D s i x x'); auto using outside_refl.
      * rewrite app_nil_r. apply V.
      * apply V.
      * rewrite app_nil_r. exact T.
    + exists [(i, x_job x, r)], D. split; [|right; eauto]. apply (inv_decide o D s i x x'); auto using outside_refl.
      * assert (X := serial_snoc o D i (x_job x) (i_serial _ _ _ V)). rewrite AL in X. exact X.
      * apply V.
      * right. exists r. auto.
      * unfold txn_inv. rewrite PH, EL, EJ. split; [exact A|]. apply in_or_app. right. left. reflexivity.
  - destruct (get_txn i (c_run s)) as [x|] eqn:G; [|discriminate].
    assert (T := i_txn _ _ _ V _ _ (get_txn_In _ _ _ G)). unfold txn_inv in T.
    destruct (x_phase x) as [| |d todo lg rs|] eqn:PH; try discriminate. destruct (tmem t todo) eqn:TM; [|discriminate].
    apply tmem_spec in TM. intros H. inversion H; subst s'. exists [], D. split; [|left; reflexivity].
    assert (TF : In t (x_locks x)) by (destruct lg; [destruct T as (_ & T & _)|destruct T as (_ & _ & T & _)]; exact (T _ TM)).
    assert (FI : forall u, In u (filter (fun u => negb (tname_eqb t u)) todo) <-> In u todo /\ t <> u).
    { intros u. rewrite filter_In, negb_true_iff. destruct (tname_eqb t u) eqn:X.
      - apply tname_eqb_spec in X. split; [intros [_ K]; discriminate K|intros [_ K]; contradiction].
      - split; [intros [K _]; split; [exact K|]|intros [K _]; auto]. intros ->. rewrite tname_eqb_refl in X. discriminate. }
    apply (inv_decide o D s i x); auto using outside_refl.
    + intros u U. apply same_sym, copy_other. intros ->. contradiction.
    + rewrite app_nil_r. apply V.
    + apply V.
    + rewrite app_nil_r. unfold txn_inv. cbn [x_phase x_locks x_job x_work].
      assert (PW : forall u, In u (x_locks x) -> ~ In u (filter (fun u => negb (tname_eqb t u)) todo) ->
                (~ In u todo -> same_tree u (c_pub s) (x_work x)) -> same_tree u (copy_tree t (x_work x) (c_pub s)) (x_work x)).
      { intros u U NU K. destruct (tname_eqb t u) eqn:X; [apply tname_eqb_spec in X; subst u; apply copy_same|].
        assert (NE : t <> u) by (intros ->; rewrite tname_eqb_refl in X; discriminate).
        eapply same_trans; [apply copy_other, NE|]. apply K. intros Z. apply NU, FI. auto. }
      destruct lg.
      * destruct T as (HF & I & A & P & o1 & o2 & D1 & EO & SO & T1). split; [exact HF|].
        split; [intros u U; apply I, FI, U|]. split; [exact A|]. split; [intros u U NU; apply PW; auto|].
        exists o1, o2, D1. split; [exact EO|]. split; [exact SO|]. intros u U. apply FI in U.
        eapply same_trans; [apply copy_other; tauto|apply T1; tauto].
      * destruct T as (HF & NO & I & EF & P1 & P2). split; [exact HF|]. split; [exact NO|].
        split; [intros u U; apply I, FI, U|]. split; [exact EF|]. split.
        -- intros u U U1. apply FI in U1. eapply same_trans; [apply copy_other; tauto|apply P1; tauto].
        -- intros u U NU. apply PW; auto.
  - destruct (get_txn i (c_run s)) as [x|] eqn:G; [|discriminate].
    assert (T := i_txn _ _ _ V _ _ (get_txn_In _ _ _ G)). unfold txn_inv in T.
    destruct (x_phase x) as [| |d todo lg rs|] eqn:PH; try discriminate. destruct lg; [discriminate|].
    intros H. inversion H; subst s'. destruct T as (HF & NO & I & EF & P1 & P2).
    assert (AE := alone_effect E D (x_job x)). destruct (effect E (x_job x) (db_work D)) as [[[w1 d1] rs1]|f|] eqn:XE; cbn in EF; try contradiction.
    destruct EF as (A & -> & ->).
    assert (SE := serial_snoc o D i (x_job x) (i_serial _ _ _ V)). rewrite AE in SE. cbn [fst snd] in SE.
    exists [(i, x_job x, Done rs)], (mk_db w1 (db_log D ++ [(next_tx (db_log D), d)])). split; [|right; eauto].
    apply (inv_decide o D s i x); auto using outside_refl.
    + cbn [db_work]. rewrite HF. eapply effect_outside, XE.
    + cbn [db_log]. rewrite (i_log _ _ _ V). reflexivity.
    + right. exists (Done rs). auto.
    + unfold txn_inv. cbn [x_phase x_locks x_job x_work db_work]. split; [exact HF|]. split; [exact I|]. split; [exact A|]. split; [exact P2|].
      exists o, [], D. split; [reflexivity|]. split; [apply V|]. intros t T1. apply P1; [apply I, T1|exact T1].
  - destruct (get_txn i (c_run s)) as [x|] eqn:G; [|discriminate].
    assert (T := i_txn _ _ _ V _ _ (get_txn_In _ _ _ G)). unfold txn_inv in T.
    destruct (x_phase x) as [| |d todo lg rs|r] eqn:PH; try discriminate.
    + destruct todo; [|discriminate]. destruct lg; [|discriminate]. intros H. inversion H; subst s'.
      destruct T as (HF & I & A & P & o1 & o2 & D1 & EO & SO & T1).
      exists [], D. rewrite app_nil_r. split; [|left; reflexivity]. apply inv_end; auto.
      * rewrite EO. apply in_or_app. right. left. reflexivity.
      * intros t K. eapply same_trans; [apply P; [exact K|intros []]|apply same_sym, A, K].
    + intros H. inversion H; subst s'. destruct T as [A IN]. exists [], D. rewrite app_nil_r. split; [|left; reflexivity].
      apply inv_end; auto.
Qed.

Lemma crun_app : forall a s b, crun E s (a ++ b) = match crun E s a with Some m => crun E m b | None => None end.
Proof. induction a as [|e a IH]; intros s b; cbn [app crun]; [reflexivity|]. destruct (cstep E s e); [apply IH|reflexivity]. Qed.

Lemma app_snoc_cases {A} (l m : list A) (y : A) : forall a x b, l ++ [y] = a ++ x :: b ->
  (b = [] /\ a = l /\ x = y) \/ exists b', b = b' ++ [y] /\ l = a ++ x :: b'.
Proof.
  intros a x b. destruct b as [|z b _] using rev_ind.
  - intros H. apply app_inj_tail in H. destruct H. left. auto.
  - intros H. right. exists b. split.
    + assert (K : l ++ [y] = (a ++ x :: b) ++ [z]) by (rewrite H, <- app_assoc; reflexivity). apply app_inj_tail in K. destruct K. congruence.
    + assert (K : l ++ [y] = (a ++ x :: b) ++ [z]) by (rewrite H, <- app_assoc; reflexivity). apply app_inj_tail in K. tauto.
Qed.

Lemma fin_step s e s' : cstep E s e = Some s' -> (forall r, In r (c_fin s) -> In r (c_fin s')) /\
  (forall i, e = End_ i -> In i (ids_of (c_fin s'))) /\
  (forall i j, e = Begin i j -> known_id s i = false).
Proof.
  destruct e as [i j|i|i t|i|i]; cbn [cstep].
  - destruct (known_id s i) eqn:KI; [discriminate|]. destruct (job_defined E j); [destruct (existsb _ _); [discriminate|]|];
      intros H; inversion H; subst; cbn [c_fin]; (split; [auto|]; split; [intros k X; discriminate X|intros k j' X; inversion X; subst; exact KI]).
  - destruct (get_txn _ _); [|discriminate]. destruct (work_step _ _); [|discriminate]. intros H; inversion H; subst; cbn.
    split; [auto|]; split; [intros k X; discriminate X|intros k j' X; discriminate X].
  - destruct (get_txn _ _) as [x|]; [|discriminate]. destruct (x_phase x); try discriminate. destruct (tmem _ _); [|discriminate]. intros H; inversion H; subst; cbn.
    split; [auto|]; split; [intros k X; discriminate X|intros k j' X; discriminate X].
  - destruct (get_txn _ _) as [x|]; [|discriminate]. destruct (x_phase x) as [| |d todo lg rs|]; try discriminate. destruct lg; [discriminate|]. intros H; inversion H; subst; cbn.
    split; [auto|]; split; [intros k X; discriminate X|intros k j' X; discriminate X].
  - destruct (get_txn _ _) as [x|]; [|discriminate].
    assert (Y : forall r, (forall z, In z (c_fin s) -> In z (c_fin s ++ [(i, x_job x, r)])) /\
      (forall i0, End_ i = End_ i0 -> In i0 (ids_of (c_fin s ++ [(i, x_job x, r)]))) /\ (forall i0 j, End_ i = Begin i0 j -> known_id s i0 = false)).
    { intros r. split; [intros z Z; apply in_or_app; left; exact Z|]. split; [|intros i0 j X; discriminate X].
      intros k X. inversion X; subst. rewrite ids_app. apply in_or_app. right. left. reflexivity. }
    destruct (x_phase x) as [| |d [|] [|] rs|r]; try discriminate; intros H; inversion H; subst; cbn [c_fin]; apply Y.
Qed.

Lemma reached tr : forall s, crun E (cs_start s0) tr = Some s -> exists o D,
  inv o D s /\ (forall i, In (End_ i) tr -> In i (ids_of (c_fin s))) /\ (forall i j, over_before tr i j -> precedes o i j).
Proof.
  induction tr as [|e tr IH] using rev_ind; intros s H.
  - cbn in H. inversion H; subst. exists [], s0. split; [apply inv_start|]. split; [intros i []|].
    intros i j (a & b & c & jb & X). destruct a; discriminate X.
  - rewrite crun_app in H. destruct (crun E (cs_start s0) tr) as [m|]; [|discriminate]. cbn [crun] in H.
    destruct (cstep E m e) as [m'|] eqn:ST; [|discriminate]. inversion H; subst m'. clear H.
    destruct (IH m eq_refl) as (o & D & V & F & P). destruct (inv_step_ok o D m e s V ST) as (ext & D' & V' & EX).
    destruct (fin_step m e s ST) as (F1 & F2 & F3).
    exists (o ++ ext), D'. split; [exact V'|]. split.
    + intros i I. apply in_app_or in I. destruct I as [I|[I|[]]]; [|apply F2; exact I].
      apply F in I. apply in_map_iff in I. destruct I as (r & <- & I). apply in_map. apply F1, I.
    + intros i j B. assert (KE : In i (ids_of o) /\ (precedes o i j \/ ~ In j (ids_of o))).
      { destruct B as (a & b & c & jb & X). rewrite app_comm_cons, app_assoc in X.
        apply (app_snoc_cases tr tr) in X. assert (FO : In (End_ i) tr -> In i (ids_of o)).
        { intros I. apply F in I. apply in_map_iff in I. destruct I as (r & <- & I). apply in_map. apply (i_fin _ _ _ V), I. }
        destruct X as [(-> & X & Y)|(c' & -> & X)].
        - split; [apply FO; rewrite <- X; apply in_or_app; right; left; reflexivity|]. right. symmetry in Y. apply F3 in Y.
          apply known_false in Y. apply (inv_fresh _ _ _ _ V); tauto.
        - split; [apply FO; rewrite X; apply in_or_app; left; apply in_or_app; right; left; reflexivity|].
          left. apply P. exists a, b, c', jb. rewrite X, <- app_assoc. reflexivity. }
      destruct KE as [IO KE]. intros o1 x o2 EO EJ.
      assert (IN : forall o3, o = o1 ++ x :: o3 -> In i (ids_of o1)).
      { intros o3 X. destruct KE as [KE|KE]; [exact (KE _ _ _ X EJ)|]. exfalso. apply KE. rewrite X, ids_app, <- EJ. apply in_or_app. right. left. reflexivity. }
      destruct EX as [->|(y & ->)]; [rewrite app_nil_r in EO; eapply IN, EO|].
      apply (app_snoc_cases o o) in EO. destruct EO as [(-> & -> & ->)|(o3 & -> & EO)]; [exact IO|eapply IN, EO].
Qed.
End Inv.
