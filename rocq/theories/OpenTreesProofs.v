(* Proofs about OpenTrees.v *)
From Coq Require Import Lia Arith.
From Verif Require Import Base Names NamesProofs Schematic SchematicProofs PropSchematic Vault PropVault OpenTrees.
Local Open Scope nat_scope.

(* ---- the specification: what belongs to a collection, and how it is stored *)
Definition owner (x : object) : option qname :=
  match x with Documents c | ViewVersions c => Some c | ViewEntries v | ViewDocumentMap v | ViewInvalidated v => Some (v_coll v) | KeyValues => None end.
Definition kind_of (x : object) : kind := match x with Documents _ => KVersioned | _ => KUnversioned end.
(* the collection's key, else the storage's default key; the storage's compression; nothing
   at all if neither is set *)
Definition at_rest (e : env) (rs : list reg) (c : N) : option settings :=
  let key := match find (fun i => (ci_name i =? c)%N) (colls rs) with
             | Some i => match ci_enc i with Some k => Some (e_key e k) | None => s_key (e_storage e) end
             | None => s_key (e_storage e)
             end in
  match key, s_comp (e_storage e) with None, None => None | k, z => Some (Settings k z) end.
(* the trees of the views of c: an eager view keeps a document map and entries up to date, any
   other only notes the changed documents *)
Definition views_of (rs : list reg) (c : N) : list view_inst := filter (fun v => (vi_coll v =? c)%N) (vws rs).
Definition uses (e : env) (rs : list reg) (c : N) (changes : bool) (x : object) : Prop :=
  x = Documents (e_cn e c) \/
  changes = true /\ exists v, In v (views_of rs c) /\
    match vi_policy v with
    | Lazy => x = ViewInvalidated (e_vn e (vi_name v))
    | _ => x = ViewDocumentMap (e_vn e (vi_name v)) \/ x = ViewEntries (e_vn e (vi_name v))
    end.
(* names as the API builds them; a view's name contains its collection's *)
Record named (e : env) (rs : list reg) : Prop := {
  nm_coll : forall c, api_qname (e_cn e c);
  nm_inj : forall a b, e_cn e a = e_cn e b -> a = b;
  nm_view : forall n, api_vname (e_vn e n);
  nm_in : forall v, In v (vws rs) -> v_coll (e_vn e (vi_name v)) = e_cn e (vi_coll v) }.

Section Open.
  Context (e : env) (rs : list reg) (Hn : named e rs).
  Context (HV : forall c, views_in_collection c (e_schema e) = views_of rs c).

  Definition settings_of (c : N) := write_settings (e_storage e) (own_key e c).
  Definition owned (P : N -> Prop) (t : troot) : Prop :=
    exists c x, P c /\ api_object x /\ owner x = Some (e_cn e c) /\ t = TRoot (tree_name x) (kind_of x) (settings_of c) /\ uses e rs c true x.
  Record oinv (P : N -> Prop) (o : open_trees) : Prop := {
    oi_index : forall n i, look n (index o) = Some i <-> exists t, nth_error (trees o) i = Some t /\ t_name t = n;
    oi_nodup : NoDup (map t_name (trees o));
    oi_owned : Forall (owned P) (trees o) }.
  Lemma owned_mono (P Q : N -> Prop) t : (forall c, P c -> Q c) -> owned P t -> owned Q t.
  Proof. intros H (c & x & A & B). exists c, x. split; [apply H, A|exact B]. Qed.
  Lemma oinv_mono (P Q : N -> Prop) o : (forall c, P c -> Q c) -> oinv P o -> oinv Q o.
  Proof. intros H [A B C]. constructor; try assumption. eapply Forall_impl; [|exact C]. intros t. apply owned_mono, H. Qed.
  Lemma oinv_none (P : N -> Prop) : oinv P no_trees.
  Proof.
    constructor; [|constructor|constructor]. intros n i. cbn. split; [discriminate|]. intros (t & A & _). destruct i; discriminate A.
  Qed.
  Lemma look_cons n m i l : look n ((m, i) :: l) = if bytes_eqb n m then Some i else look n l.
  Proof. reflexivity. Qed.
  Lemma open_tree_inv (P : N -> Prop) c x o : P c -> api_object x -> owner x = Some (e_cn e c) -> uses e rs c true x -> oinv P o ->
    oinv P (open_tree (kind_of x) (tree_name x) (settings_of c) o).
  Proof.
    intros Hc Ha Ho Hu I. unfold open_tree. destruct (look (tree_name x) (index o)) as [i|] eqn:E; [exact I|].
    destruct I as [A B C]. constructor; cbn [trees index].
    - intros n i. rewrite look_cons. destruct (bytes_eqb n (tree_name x)) eqn:Q.
      + apply bytes_eqb_spec in Q. subst n. split.
        * intros [= <-]. exists (TRoot (tree_name x) (kind_of x) (settings_of c)). split; [|reflexivity]. rewrite nth_error_app2, Nat.sub_diag by lia. reflexivity.
        * intros (t & X & Y). destruct (Nat.lt_ge_cases i (length (trees o))) as [L|L].
          -- rewrite nth_error_app1 in X by exact L. exfalso. assert (Z : look (tree_name x) (index o) = Some i) by (apply A; exists t; split; assumption). congruence.
          -- f_equal. assert (i < length (trees o ++ [TRoot (tree_name x) (kind_of x) (settings_of c)])) by (apply nth_error_Some; congruence). rewrite app_length in H. cbn in H. lia.
      + assert (Nn : n <> tree_name x) by (intros ->; rewrite (proj2 (bytes_eqb_spec _ _) eq_refl) in Q; discriminate Q).
        rewrite A. split; intros (t & X & Y); exists t; (split; [|exact Y]).
        * rewrite nth_error_app1; [exact X|]. apply nth_error_Some. congruence.
        * destruct (Nat.lt_ge_cases i (length (trees o))) as [L|L]; [rewrite nth_error_app1 in X by exact L; exact X|].
          rewrite nth_error_app2 in X by exact L. exfalso. destruct (i - length (trees o)) as [|[|j]]; cbn in X; [|discriminate X|discriminate X]. injection X as <-. cbn in Y. congruence.
    - rewrite map_app. cbn [map t_name]. apply NoDup_snoc; [exact B|]. intros X. apply in_map_iff in X. destruct X as (t & Y & Z). apply In_nth_error in Z. destruct Z as (i & Z).
      assert (W : look (tree_name x) (index o) = Some i) by (apply A; exists t; split; assumption). congruence.
    - apply Forall_app. split; [exact C|]. constructor; [|constructor]. exists c, x. repeat match goal with |- _ /\ _ => split end; try assumption. reflexivity.
  Qed.
  Lemma look_open k n s o m : look m (index o) <> None \/ m = n -> look m (index (open_tree k n s o)) <> None.
  Proof.
    unfold open_tree. destruct (look n (index o)) as [i|] eqn:E; cbn [index]; [intros [H| ->]; [exact H|congruence]|].
    rewrite look_cons. destruct (bytes_eqb m n) eqn:Q; [discriminate|]. intros [H| ->]; [exact H|]. rewrite (proj2 (bytes_eqb_spec _ _) eq_refl) in Q. discriminate Q.
  Qed.
  Lemma look_view s o v m : look m (index o) <> None -> look m (index (open_view e s o v)) <> None.
  Proof. intros H. unfold open_view. destruct (is_eager (vi_policy v)); repeat (apply look_open; left); exact H. Qed.
  Lemma look_views s vs o m : look m (index o) <> None -> look m (index (fold_left (open_view e s) vs o)) <> None.
  Proof. revert o. induction vs as [|v vs IH]; intros o H; [exact H|]. apply IH, look_view, H. Qed.

  Lemma api_view_obj v : api_object (ViewEntries (e_vn e v)) /\ api_object (ViewDocumentMap (e_vn e v)) /\ api_object (ViewInvalidated (e_vn e v)).
  Proof. pose proof (nm_view _ _ Hn v). cbn. tauto. Qed.
  Lemma open_view_inv (P : N -> Prop) c v o : P c -> In v (views_of rs c) -> oinv P o -> oinv P (open_view e (settings_of c) o v).
  Proof.
    intros Hc Hv I. pose proof (api_view_obj (vi_name v)) as (A1 & A2 & A3). pose proof Hv as Hv'. unfold views_of in Hv'. apply filter_In in Hv'. destruct Hv' as (Hi & Hq).
    apply N.eqb_eq in Hq. pose proof (nm_in _ _ Hn v Hi) as W. rewrite Hq in W.
    unfold open_view. destruct (vi_policy v) eqn:Pv; cbn [is_eager].
    - apply (open_tree_inv P c (ViewInvalidated (e_vn e (vi_name v)))); [exact Hc|exact A3|cbn; rewrite W; reflexivity| |exact I].
      right. split; [reflexivity|]. exists v. split; [exact Hv|]. rewrite Pv. reflexivity.
    - apply (open_tree_inv P c (ViewEntries (e_vn e (vi_name v)))); [exact Hc|exact A1|cbn; rewrite W; reflexivity| |].
      + right. split; [reflexivity|]. exists v. split; [exact Hv|]. rewrite Pv. right. reflexivity.
      + apply (open_tree_inv P c (ViewDocumentMap (e_vn e (vi_name v)))); [exact Hc|exact A2|cbn; rewrite W; reflexivity| |exact I].
        right. split; [reflexivity|]. exists v. split; [exact Hv|]. rewrite Pv. left. reflexivity.
    - apply (open_tree_inv P c (ViewEntries (e_vn e (vi_name v)))); [exact Hc|exact A1|cbn; rewrite W; reflexivity| |].
      + right. split; [reflexivity|]. exists v. split; [exact Hv|]. rewrite Pv. right. reflexivity.
      + apply (open_tree_inv P c (ViewDocumentMap (e_vn e (vi_name v)))); [exact Hc|exact A2|cbn; rewrite W; reflexivity| |exact I].
        right. split; [reflexivity|]. exists v. split; [exact Hv|]. rewrite Pv. left. reflexivity.
  Qed.
  Lemma open_views_inv (P : N -> Prop) c vs o : P c -> incl vs (views_of rs c) -> oinv P o -> oinv P (fold_left (open_view e (settings_of c)) vs o).
  Proof.
    intros Hc. revert o. induction vs as [|v vs IH]; intros o Hi I; [exact I|]. cbn [fold_left]. apply IH; [intros w Hw; apply Hi; right; exact Hw|].
    apply open_view_inv; [exact Hc|apply Hi; left; reflexivity|exact I].
  Qed.
  Lemma open_change_inv (P : N -> Prop) c o : P c -> oinv P o -> oinv P (open_for_change e c (settings_of c) o).
  Proof.
    intros Hc I. unfold open_for_change. rewrite HV. apply open_views_inv; [exact Hc|intros v Hv; exact Hv|].
    apply (open_tree_inv P c (Documents (e_cn e c))); [exact Hc|apply (nm_coll _ _ Hn)|reflexivity|left; reflexivity|exact I].
  Qed.
  Lemma open_change_look c o m : look m (index o) <> None -> look m (index (open_for_change e c (settings_of c) o)) <> None.
  Proof. intros H. unfold open_for_change. apply look_views, look_open. left. exact H. Qed.
  Lemma views_look s v x vs o : In v vs ->
    match vi_policy v with
    | Lazy => x = ViewInvalidated (e_vn e (vi_name v))
    | _ => x = ViewDocumentMap (e_vn e (vi_name v)) \/ x = ViewEntries (e_vn e (vi_name v))
    end -> look (tree_name x) (index (fold_left (open_view e s) vs o)) <> None.
  Proof.
    intros Hv Hx. revert o. induction vs as [|w vs IH]; intros o; [destruct Hv|]. cbn [fold_left]. destruct Hv as [->|Hv]; [|apply IH, Hv].
    apply look_views. unfold open_view. destruct (vi_policy v); cbn [is_eager].
    - subst x. apply look_open. right. reflexivity.
    - destruct Hx as [->| ->]; apply look_open; [left; apply look_open; right; reflexivity|right; reflexivity].
    - destruct Hx as [->| ->]; apply look_open; [left; apply look_open; right; reflexivity|right; reflexivity].
  Qed.
  Lemma open_change_uses c b x o : uses e rs c b x -> look (tree_name x) (index (open_for_change e c (settings_of c) o)) <> None.
  Proof.
    unfold open_for_change. rewrite HV. intros [->|(_ & v & Hv & Hx)]; [apply look_views, look_open; right; reflexivity|]. exact (views_look _ v x _ _ Hv Hx).
  Qed.

  (* the whole transaction *)
  Lemma open_all ops : forall o (P : N -> Prop), (forall c, In c ops -> key_description c (e_schema e) <> None) -> oinv P o ->
    exists o', open_for_transaction e ops o = Done o' /\ oinv (fun c => P c \/ In c ops) o' /\
      (forall m, look m (index o) <> None -> look m (index o') <> None) /\
      (forall c b x, In c ops -> uses e rs c b x -> look (tree_name x) (index o') <> None).
  Proof.
    induction ops as [|c ops IH]; intros o P Hk I.
    - exists o. split; [reflexivity|]. split; [eapply oinv_mono; [|exact I]; intros c H; left; exact H|]. split; [intros m H; exact H|intros c b x []].
    - cbn [open_for_transaction]. destruct (key_description c (e_schema e)) eqn:K; [|exfalso; apply (Hk c); [left; reflexivity|exact K]].
      fold (settings_of c).
      assert (I1 : oinv (fun d => P d \/ d = c) (open_for_change e c (settings_of c) o)).
      { apply open_change_inv; [right; reflexivity|]. eapply oinv_mono; [|exact I]. intros d H. left. exact H. }
      destruct (IH (open_for_change e c (settings_of c) o) (fun d => P d \/ d = c) ltac:(intros d Hd; apply Hk; right; exact Hd) I1) as (o' & E & I' & M & U).
      exists o'. split; [exact E|]. split; [|split].
      + eapply oinv_mono; [|exact I']. cbn. intros d [[H|H]|H]; [left; exact H|right; left; congruence|right; right; exact H].
      + intros m H. apply M, open_change_look, H.
      + intros d b x [<-|Hd] Hx; [apply M; exact (open_change_uses c b x o Hx)|exact (U d b x Hd Hx)].
  Qed.
  Lemma kind_eqb_refl k : kind_eqb k k = true.
  Proof. destruct k; reflexivity. Qed.
  Lemma find_tree_ok (P : N -> Prop) o c b x : oinv P o -> look (tree_name x) (index o) <> None -> api_object x -> owner x = Some (e_cn e c) -> uses e rs c b x ->
    find_tree o (kind_of x) x = Done (TRoot (tree_name x) (kind_of x) (settings_of c)) /\ In (TRoot (tree_name x) (kind_of x) (settings_of c)) (trees o).
  Proof.
    intros [A B C] L Ax Ox Hu. unfold find_tree. destruct (look (tree_name x) (index o)) as [i|] eqn:E; [|congruence].
    apply A in E. destruct E as (t & T & Y). pose proof (nth_error_In _ _ T) as Ti. rewrite Forall_forall in C. destruct (C t Ti) as (d & y & Pd & Ay & Oy & -> & _).
    cbn in Y. apply tree_name_inj in Y; [|exact Ay|exact Ax]. subst y. assert (d = c) as -> by (apply (nm_inj _ _ Hn); congruence).
    rewrite T. cbn [t_kind]. rewrite kind_eqb_refl. split; [reflexivity|exact Ti].
  Qed.
  Lemma uses_obj c b x : uses e rs c b x -> api_object x /\ owner x = Some (e_cn e c).
  Proof.
    intros [->|(_ & v & Hv & Hx)]; [split; [apply (nm_coll _ _ Hn)|reflexivity]|]. unfold views_of in Hv. apply filter_In in Hv. destruct Hv as (Hi & Hq). apply N.eqb_eq in Hq.
    pose proof (nm_in _ _ Hn v Hi) as W. rewrite Hq in W. pose proof (api_view_obj (vi_name v)) as (A1 & A2 & A3).
    destruct (vi_policy v); [subst x; split; [exact A3|cbn; rewrite W; reflexivity]| |]; (destruct Hx as [->| ->]; (split; [assumption|cbn; rewrite W; reflexivity])).
  Qed.
End Open.
