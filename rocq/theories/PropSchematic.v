(* C67: a schema that is accepted answers exactly as it was declared. *)
From Coq Require Import List NArith Bool Lia.
From Verif Require Import Schematic SchematicProofs.
Import ListNotations.

(* A schema whose definitions return their errors is accepted exactly when no
   two collections share a name and no two views share a name. *)
Theorem C67_accepted l : forallb checked l = true -> ((exists s, from_schema l = inl s) <-> distinct_names (declares l)).
Proof.
  intros C. unfold from_schema. destruct (run_acts l empty_schematic) as [s e] eqn:E.
  assert (F : Forall exact l) by (apply Forall_forall; intros a _; apply run_act_exact).
  pose proof (run_acts_exact l F C _ _ _ _ rep_empty E) as O. destruct e as [e|]; cbn in O.
  - destruct O as (pre & r & post & D & Di & Rp). split; [intros (s0 & [=])|]. intros X. exfalso. apply (repeats_not_distinct _ _ _ Rp). apply (distinct_front _ post). rewrite <- app_assoc. cbn. rewrite <- D. exact X.
  - split; [intros _; apply (r_names _ _ O)|intros _; exists s; reflexivity].
Qed.
(* Otherwise the error is the one for the first declaration that repeats a name *)
Theorem C67_rejected l e : forallb checked l = true -> from_schema l = inr e ->
  exists pre r post, declares l = pre ++ r :: post /\ distinct_names pre /\ repeats pre r e.
Proof.
  intros C. unfold from_schema. destruct (run_acts l empty_schematic) as [s o] eqn:E.
  assert (F : Forall exact l) by (apply Forall_forall; intros a _; apply run_act_exact).
  pose proof (run_acts_exact l F C _ _ _ _ rep_empty E) as O. destruct o as [e'|]; [|discriminate]. intros [= <-]. exact O.
Qed.
Theorem C67_answers l s : forallb checked l = true -> from_schema l = inl s -> answers s (declares l).
Proof.
  intros C. unfold from_schema. destruct (run_acts l empty_schematic) as [s1 o] eqn:E.
  assert (F : Forall exact l) by (apply Forall_forall; intros a _; apply run_act_exact).
  pose proof (run_acts_exact l F C _ _ _ _ rep_empty E) as O. destruct o as [e'|]; [discriminate|]. intros [= <-]. apply rep_answers. exact O.
Qed.
(* When every view type is registered once: each name leads to its own view, a
   collection's views are exactly those declared for it, in order, and its
   eagerly updated views exactly the eager and unique ones. *)
Theorem C67_views l s : forallb checked l = true -> from_schema l = inl s -> NoDup (map vi_type (vws (declares l))) ->
  (forall v, In v (vws (declares l)) -> view_by_name (vi_name v) s = Some v /\ view_of_type (vi_type v) s = Some v) /\
  (forall n v, view_by_name n s = Some v -> In v (vws (declares l)) /\ vi_name v = n) /\
  (forall t v, view_of_type t s = Some v -> In v (vws (declares l)) /\ vi_type v = t) /\
  (forall c, views_in_collection c s = filter (fun v => (vi_coll v =? c)%N) (vws (declares l))) /\
  (forall c, eager_views_in_collection c s = filter (fun v => ((vi_coll v =? c)%N && match vi_policy v with Lazy => false | _ => true end)) (vws (declares l))) /\
  all_views s = vws (declares l).
Proof.
  intros C E Nd. pose proof (C67_answers l s C E) as A. pose proof (proj1 (C67_accepted l C) (ex_intro _ s E)) as [N1 N2].
  assert (ML : forall f, map (fun v => latest (declares l) (vi_type v)) (filter f (vws (declares l))) = map Some (filter f (vws (declares l)))).
  { intros f. apply map_ext_in. intros v I. apply filter_In in I. apply latest_distinct; [exact Nd|apply I]. }
  assert (INJ : forall a b : list view_inst, map Some a = map Some b -> a = b).
  { induction a as [|x a IH]; intros [|y b] X; cbn in X; try congruence. injection X as -> X. rewrite (IH _ X). reflexivity. }
  repeat apply conj.
  - intros v I. rewrite (an_by_name _ _ A v I), (an_by_type _ _ A). split; apply latest_distinct; assumption.
  - intros n v E1. destruct (in_dec N.eq_dec n (map vi_name (vws (declares l)))) as [I|I]; [|rewrite (an_no_name _ _ A n I) in E1; discriminate].
    apply in_map_iff in I. destruct I as (w & <- & I). rewrite (an_by_name _ _ A w I), (latest_distinct _ _ Nd I) in E1. injection E1 as <-. split; [exact I|reflexivity].
  - intros t v E1. rewrite (an_by_type _ _ A) in E1. unfold latest in E1. apply find_some in E1. destruct E1 as [I T]. apply in_rev in I. apply N.eqb_eq in T. split; assumption.
  - intros c. apply INJ. rewrite (an_in_coll _ _ A), ML. reflexivity.
  - intros c. apply INJ. rewrite (an_eager _ _ A), ML. reflexivity.
  - apply (an_all _ _ A Nd).
Qed.
(* The summary sent to clients lists every collection once, with its key, and
   exactly its views. *)
Lemma fold_put_get (vs : list view_inst) m n : hget n (fold_left (fun m v => hput (vi_name v) (view_summary v) m) vs m) =
  match find (fun v => (vi_name v =? n)%N) (rev vs) with Some v => Some (view_summary v) | None => hget n m end.
Proof.
  revert m. induction vs as [|v vs IH]; intros m; cbn; [reflexivity|]. rewrite IH. assert (FA : forall (f : view_inst -> bool) a b, find f (a ++ b) = match find f a with Some x => Some x | None => find f b end) by (intros f a b; induction a as [|x a IHa]; cbn; [reflexivity|]; destruct (f x); [reflexivity|exact IHa]).
  rewrite FA. destruct (find _ (rev vs)); [reflexivity|]. cbn. rewrite hget_put, N.eqb_sym. destruct (vi_name v =? n)%N; reflexivity.
Qed.
Theorem C67_summary l s : forallb checked l = true -> from_schema l = inl s -> NoDup (map vi_type (vws (declares l))) ->
  map fst (summary s) = map ci_name (colls (declares l)) /\
  forall c, In c (colls (declares l)) -> exists vs, In (ci_name c, Some (ci_key c, vs)) (summary s) /\
    forall n x, hget n vs = Some x <-> exists v, In v (vws (declares l)) /\ vi_coll v = ci_name c /\ vi_name v = n /\ x = (vi_key v, vi_policy v, vi_version v).
Proof.
  intros C E Nd. pose proof (C67_answers l s C E) as A. destruct (C67_views l s C E Nd) as (_ & _ & _ & VC & _ & _). pose proof (proj1 (C67_accepted l C) (ex_intro _ s E)) as [N1 N2].
  split; [unfold summary; rewrite map_map; cbn; rewrite map_id; apply (an_collections _ _ A)|].
  intros c I. unfold summary. destruct (an_collection _ _ A c I) as (K & _ & _).
  eexists. split.
  - apply in_map_iff. exists (ci_name c). split; [|rewrite (an_collections _ _ A); apply in_map; exact I]. unfold collection_summary. rewrite K. reflexivity.
  - intros n x. rewrite fold_put_get. rewrite VC. destruct (find _ _) as [v|] eqn:Fi.
    + apply find_some in Fi. destruct Fi as [Iv Ev]. apply in_rev, filter_In in Iv. destruct Iv as [Iv Cv]. apply N.eqb_eq in Ev, Cv. split.
      * intros [= <-]. exists v. auto.
      * intros (w & Iw & Cw & Nw & ->). replace w with v; [reflexivity|]. rewrite <- Nw in Ev. clear - Iv Iw Ev N2. induction (vws (declares l)) as [|y k IH]; cbn in *; [tauto|]. inversion N2 as [|? ? Nx Nl]; subst.
        destruct Iv as [->|Iv], Iw as [->|Iw]; auto; exfalso; apply Nx; [rewrite Ev|rewrite <- Ev]; apply in_map; assumption.
    + cbn. split; [discriminate|]. intros (w & Iw & Cw & Nw & _). pose proof (find_none _ _ Fi w) as X. cbn in X. rewrite <- in_rev, filter_In in X. rewrite Nw, N.eqb_refl in X. discriminate X. split; [exact Iw|apply N.eqb_eq; exact Cw].
Qed.
(* Definitions that drop errors: whatever they do, what is registered is some
   of what they declare, with distinct names, and the answers are those of
   what is registered. *)
Theorem C67_errors_dropped l s : from_schema l = inl s -> exists rs, sublist rs (declares l) /\ distinct_names rs /\ answers s rs.
Proof.
  unfold from_schema. destruct (run_acts l empty_schematic) as [s1 o] eqn:E.
  assert (F : Forall okact l) by (apply Forall_forall; intros a _; apply run_act_some).
  destruct (run_acts_some l F _ _ _ _ rep_empty E) as (rs & S & R). cbn in R. destruct o; [discriminate|]. intros [= <-]. exists rs. split; [exact S|]. split; [apply (r_names _ _ R)|apply rep_answers; exact R].
Qed.
Definition ex_v (t n : N) (p : policy) (tag : N) : view_inst := View t n 1 7 p 0 tag.
Definition ex_schema : list act := [DefCollection (CollInfo 10 1 3 (Some 9%N)) [DefView (ex_v 20 30 Lazy 0) false; DefView (ex_v 21 31 Unique 0) false] false; DefCollection (CollInfo 11 2 4 None) [] false].
Example C67_example : forallb checked ex_schema = true /\ (exists s, from_schema ex_schema = inl s /\ map vi_name (views_in_collection 1 s) = [30; 31]%N /\ map vi_name (eager_views_in_collection 1 s) = [31]%N /\ encryption_key 1 s = Some 9%N /\ encryption_key 2 s = None) /\
  NoDup (map vi_type (vws (declares ex_schema))) /\
  from_schema (ex_schema ++ [DefCollection (CollInfo 12 1 3 None) [] false]) = inr CollectionAlreadyDefined.
Proof. split; [reflexivity|]. split; [eexists; repeat split; reflexivity|]. split; [|reflexivity]. cbn. repeat constructor; cbn; intuition discriminate. Qed.
(* One view type registered under two names: the schema is accepted, the first
   name answers with the second view, and the collection lists it twice. *)
Theorem C67_shared_type_refuted : exists l s, forallb checked l = true /\ from_schema l = inl s /\
  distinct_names (declares l) /\ In (ex_v 20 30 Unique 0) (vws (declares l)) /\
  view_by_name 30 s = Some (ex_v 20 31 Lazy 1) /\
  views_in_collection 1 s = [ex_v 20 31 Lazy 1; ex_v 20 31 Lazy 1] /\
  eager_views_in_collection 1 s = [ex_v 20 31 Lazy 1].
Proof.
  exists [DefCollection (CollInfo 10 1 3 None) [DefView (ex_v 20 30 Unique 0) false; DefView (ex_v 20 31 Lazy 1) false] false]. eexists.
  split; [reflexivity|]. split; [reflexivity|]. split; [split; cbn; repeat constructor; cbn; intuition discriminate|]. split; [cbn; tauto|]. repeat split; reflexivity.
Qed.
Print Assumptions C67_accepted.
Print Assumptions C67_rejected.
Print Assumptions C67_answers.
Print Assumptions C67_views.
Print Assumptions C67_summary.
Print Assumptions C67_errors_dropped.
Print Assumptions C67_shared_type_refuted.
