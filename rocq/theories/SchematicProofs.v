(* Specification and proofs for Schematic.v *)
From Coq Require Import List NArith Bool Lia.
From Verif Require Import Schematic.
Import ListNotations.

(* ---- specification: what the user's definitions declare, in order *)
Inductive reg := RColl (c : coll_info) | RView (v : view_inst).
Fixpoint declared (a : act) : list reg :=
  match a with
  | DefView v _ => [RView v]
  | DefCollection c body _ => RColl c :: (fix go l := match l with [] => [] | a :: r => declared a ++ go r end) body
  end.
Definition declares (l : list act) : list reg := flat_map declared l.
(* every result is returned with ? *)
Fixpoint checked (a : act) : bool :=
  match a with
  | DefView _ ig => negb ig
  | DefCollection _ body ig => negb ig && (fix go l := match l with [] => true | a :: r => checked a && go r end) body
  end.
Fixpoint colls (rs : list reg) : list coll_info := match rs with [] => [] | RColl c :: r => c :: colls r | RView _ :: r => colls r end.
Fixpoint vws (rs : list reg) : list view_inst := match rs with [] => [] | RView v :: r => v :: vws r | RColl _ :: r => vws r end.
Definition distinct_names (rs : list reg) : Prop := NoDup (map ci_name (colls rs)) /\ NoDup (map vi_name (vws rs)).
(* the declaration r repeats a name of rs, with the error reported for it *)
Definition repeats (rs : list reg) (r : reg) (e : serr) : Prop :=
  match r with
  | RColl c => In (ci_name c) (map ci_name (colls rs)) /\ e = CollectionAlreadyDefined
  | RView v => In (vi_name v) (map vi_name (vws rs)) /\ e = ViewAlreadyRegistered (vi_name v)
  end.
(* the view type's latest instance *)
Definition latest (rs : list reg) (t : N) : option view_inst := find (fun v => (vi_type v =? t)%N) (rev (vws rs)).
(* s answers every question as the declarations rs say *)
Record answers (s : schematic) (rs : list reg) : Prop := {
  an_collections : collections s = map ci_name (colls rs);
  an_collection : forall c, In c (colls rs) -> key_description (ci_name c) s = Some (ci_key c) /\ generator_for (ci_name c) s = Some (ci_type c) /\ encryption_key (ci_name c) s = ci_enc c;
  an_no_collection : forall n, ~ In n (map ci_name (colls rs)) -> key_description n s = None /\ generator_for n s = None /\ encryption_key n s = None;
  an_contains : forall t, contains_collection t s = true <-> In t (map ci_type (colls rs));
  an_by_name : forall v, In v (vws rs) -> view_by_name (vi_name v) s = latest rs (vi_type v);
  an_no_name : forall n, ~ In n (map vi_name (vws rs)) -> view_by_name n s = None;
  an_by_type : forall t, view_of_type t s = latest rs t;
  an_in_coll : forall c, map Some (views_in_collection c s) = map (fun v => latest rs (vi_type v)) (filter (fun v => (vi_coll v =? c)%N) (vws rs));
  an_eager : forall c, map Some (eager_views_in_collection c s) = map (fun v => latest rs (vi_type v)) (filter (fun v => ((vi_coll v =? c)%N && match vi_policy v with Lazy => false | _ => true end)) (vws rs));
  an_all : NoDup (map vi_type (vws rs)) -> all_views s = vws rs }.

(* ---- maps *)
Lemma hget_put {A} k k' (a : A) l : hget k' (hput k a l) = if (k' =? k)%N then Some a else hget k' l.
Proof.
  induction l as [|[q b] l IH]; cbn; [reflexivity|]. destruct (N.eqb_spec k q) as [->|Nq]; cbn.
  - destruct (N.eqb_spec k' q); reflexivity.
  - destruct (N.eqb_spec k' q) as [->|Nq']; [destruct (N.eqb_spec q k); congruence|exact IH].
Qed.
Lemma hget_none {A} k (l : list (N * A)) : hget k l = None <-> ~ In k (map fst l).
Proof.
  induction l as [|[q b] l IH]; cbn; [tauto|]. destruct (N.eqb_spec k q) as [->|Nq]; [split; [discriminate|tauto]|]. rewrite IH. split; [intros H [X|X]; [congruence|tauto]|tauto].
Qed.
Lemma hput_fresh {A} k (a : A) l : hget k l = None -> hput k a l = l ++ [(k, a)].
Proof. induction l as [|[q b] l IH]; cbn; [reflexivity|]. destruct (N.eqb_spec k q); [discriminate|]. intros H. rewrite (IH H). reflexivity. Qed.
Lemma hget_map {A} (f : A -> N) {B} (g : A -> B) l k a : NoDup (map f l) -> In a l -> f a = k -> hget k (map (fun x => (f x, g x)) l) = Some (g a).
Proof.
  induction l as [|x l IH]; cbn; [tauto|]. intros Nd [->|I] E.
  - subst k. rewrite N.eqb_refl. reflexivity.
  - inversion Nd as [|? ? Nx Nl]; subst. destruct (N.eqb_spec (f a) (f x)) as [X|X]; [exfalso; apply Nx; rewrite <- X; apply in_map; exact I|apply IH; auto].
Qed.
Lemma hget_map_none {A} (f : A -> N) {B} (g : A -> B) l k : ~ In k (map f l) -> hget k (map (fun x => (f x, g x)) l) = None.
Proof. intros H. apply hget_none. rewrite map_map. exact H. Qed.

(* ---- representation *)
Definition enc_list (l : list coll_info) : list (N * N) := flat_map (fun c => match ci_enc c with Some k => [(ci_name c, k)] | None => [] end) l.
Definition eagerb (v : view_inst) : bool := match vi_policy v with Lazy => false | _ => true end.
Definition typed (c : N) (l : list view_inst) : list N := map vi_type (filter (fun v => (vi_coll v =? c)%N) l).
Record rep (s : schematic) (rs : list reg) : Prop := {
  r_names : distinct_names rs;
  r_cont : contained s = map (fun c => (ci_name c, ci_key c)) (colls rs);
  r_gen : generators s = map (fun c => (ci_name c, ci_type c)) (colls rs);
  r_enc : enc_keys s = enc_list (colls rs);
  r_type : forall t, hget t (by_type s) <> None <-> In t (map ci_type (colls rs));
  r_vn : views_by_name s = map (fun v => (vi_name v, vi_type v)) (vws rs);
  r_views : forall t, hget t (views s) = latest rs t;
  r_all : NoDup (map vi_type (vws rs)) -> views s = map (fun v => (vi_type v, v)) (vws rs);
  r_vc : forall c, match hget c (views_by_coll s) with Some l => l | None => [] end = typed c (vws rs);
  r_ve : forall c, match hget c (eager_by_coll s) with Some l => l | None => [] end = typed c (filter eagerb (vws rs)) }.
Lemma colls_app a b : colls (a ++ b) = colls a ++ colls b.
Proof. induction a as [|[c|v] a IH]; cbn; rewrite ?IH; reflexivity. Qed.
Lemma vws_app a b : vws (a ++ b) = vws a ++ vws b.
Proof. induction a as [|[c|v] a IH]; cbn; rewrite ?IH; reflexivity. Qed.
Lemma rep_empty : rep empty_schematic [].
Proof. constructor; cbn; try reflexivity; try (split; constructor); try tauto. Qed.
Lemma NoDup_snoc {A} (l : list A) x : NoDup l -> ~ In x l -> NoDup (l ++ [x]).
Proof. induction l as [|y l IH]; cbn; intros Nd Nx; [repeat constructor; tauto|]. inversion Nd; subst. constructor; [rewrite in_app_iff; cbn; intuition congruence|apply IH; tauto]. Qed.
Lemma NoDup_front {A} (l r : list A) : NoDup (l ++ r) -> NoDup l.
Proof. induction l as [|y l IH]; cbn; intros Nd; [constructor|]. inversion Nd; subst. constructor; [rewrite in_app_iff in *; tauto|tauto]. Qed.
Lemma hpush_get k x c l : match hget c (hpush k x l) with Some v => v | None => [] end = match hget c l with Some v => v | None => [] end ++ (if (k =? c)%N then [x] else []).
Proof. unfold hpush. rewrite hget_put. destruct (N.eqb_spec c k) as [->|Nc]; [rewrite N.eqb_refl; reflexivity|]. destruct (N.eqb_spec k c); [congruence|]. rewrite app_nil_r. reflexivity. Qed.

Lemma rep_coll s rs c : rep s rs -> hget (ci_name c) (contained s) = None -> rep (insert_collection c s) (rs ++ [RColl c]).
Proof.
  intros R H. destruct R as [[N1 N2] Rc Rg Re Rt Rn Rv Ra Rvc Rve].
  assert (F : ~ In (ci_name c) (map ci_name (colls rs))) by (apply hget_none in H; rewrite Rc, map_map in H; exact H).
  assert (VW : vws (rs ++ [RColl c]) = vws rs) by (rewrite vws_app; cbn; apply app_nil_r).
  constructor; unfold latest; cbn [insert_collection contained by_type enc_keys generators views views_by_name views_by_coll eager_by_coll]; rewrite ?VW, ?colls_app; cbn [colls]; try assumption.
  - split; rewrite ?VW, ?colls_app; cbn [colls]; [|assumption]. rewrite map_app. cbn. apply NoDup_snoc; assumption.
  - rewrite hput_fresh by exact H. rewrite Rc, map_app. reflexivity.
  - rewrite hput_fresh by (apply hget_none; rewrite Rg, map_map; exact F). rewrite Rg, map_app. reflexivity.
  - unfold enc_list in *. rewrite flat_map_app. cbn [flat_map]. rewrite app_nil_r. destruct (ci_enc c) as [k|]; [|rewrite app_nil_r; exact Re].
    rewrite hput_fresh; [rewrite Re; reflexivity|]. apply hget_none. rewrite Re. intros X. apply F. apply in_map_iff in X. destruct X as ([n0 k0] & E & I). cbn in E. subst n0.
    apply in_flat_map in I. destruct I as (c0 & I0 & I1). destruct (ci_enc c0); cbn in I1; [|contradiction]. destruct I1 as [[= E1 E2]|[]]. rewrite <- E1. apply in_map. exact I0.
  - intros t. rewrite hget_put, map_app, in_app_iff. cbn [map In]. destruct (N.eqb_spec t (ci_type c)) as [->|Nt]; [split; [tauto|discriminate]|]. rewrite Rt. split; [tauto|intros [X|[X|[]]]; [exact X|congruence]].
Qed.
Lemma rep_view s rs v : rep s rs -> match define_view v s with
  | (s', None) => ~ In (vi_name v) (map vi_name (vws rs)) /\ rep s' (rs ++ [RView v])
  | (s', Some e) => s' = s /\ repeats rs (RView v) e end.
Proof.
  intros R. destruct R as [[N1 N2] Rc Rg Re Rt Rn Rv Ra Rvc Rve]. unfold define_view.
  destruct (hget (vi_name v) (views_by_name s)) as [t|] eqn:H.
  - split; [reflexivity|]. cbn. split; [|reflexivity].
    destruct (in_dec N.eq_dec (vi_name v) (map vi_name (vws rs))) as [I|I]; [exact I|exfalso]. rewrite Rn, hget_map_none in H by exact I. discriminate.
  - assert (F : ~ In (vi_name v) (map vi_name (vws rs))) by (apply hget_none in H; rewrite Rn, map_map in H; exact H).
    split; [exact F|].
    assert (CO : colls (rs ++ [RView v]) = colls rs) by (rewrite colls_app; cbn; apply app_nil_r).
    constructor; unfold latest; cbn [contained by_type enc_keys generators views views_by_name views_by_coll eager_by_coll]; rewrite ?CO, ?vws_app; cbn [vws]; try assumption.
    + split; rewrite ?CO, ?vws_app; cbn [vws]; [assumption|]. rewrite map_app. cbn. apply NoDup_snoc; assumption.
    + rewrite hput_fresh by exact H. rewrite Rn, map_app. reflexivity.
    + intros t. rewrite hget_put, rev_app_distr. cbn [rev app find]. rewrite N.eqb_sym. destruct (vi_type v =? t)%N; [reflexivity|apply Rv].
    + rewrite map_app. cbn [map]. intros Nd. pose proof (NoDup_front _ _ Nd) as Nd'. rewrite hput_fresh; [rewrite (Ra Nd'), map_app; reflexivity|].
      rewrite (Ra Nd'). apply hget_map_none. intros X. clear - Nd X. induction (vws rs) as [|y l IH]; cbn in *; [exact X|]. inversion Nd as [|? ? Ny Nl]; subst. destruct X as [X|X]; [apply Ny; rewrite in_app_iff, X; cbn; tauto|exact (IH Nl X)].
    + intros c. rewrite hpush_get, Rvc. unfold typed. rewrite filter_app, map_app. cbn [filter]. destruct (vi_coll v =? c)%N; reflexivity.
    + intros c. rewrite filter_app. cbn [filter]. unfold is_eager, eagerb in *. destruct (vi_policy v); cbn [filter]; [rewrite app_nil_r; apply Rve| |]; rewrite hpush_get, Rve; unfold typed; rewrite filter_app, map_app; cbn [filter]; destruct (vi_coll v =? c)%N; reflexivity.
Qed.

(* ---- from the representation to the answers *)
Lemma filter_map_some {A B} (f : A -> option B) l : (forall a, In a l -> f a <> None) -> map Some (filter_map f l) = map f l.
Proof. induction l as [|a l IH]; cbn; intros H; [reflexivity|]. destruct (f a) as [b|] eqn:E; [|exfalso; apply (H a); auto]. cbn. rewrite IH; auto. Qed.
Lemma latest_some rs v : In v (vws rs) -> latest rs (vi_type v) <> None.
Proof. intros I E. unfold latest in E. apply in_rev in I. pose proof (find_none _ _ E _ I) as X. cbn in X. rewrite N.eqb_refl in X. discriminate. Qed.
Lemma latest_distinct rs v : NoDup (map vi_type (vws rs)) -> In v (vws rs) -> latest rs (vi_type v) = Some v.
Proof.
  intros Nd I. destruct (latest rs (vi_type v)) as [w|] eqn:E; [|exfalso; eapply latest_some; eassumption]. unfold latest in E. apply find_some in E. destruct E as [Iw Ew]. apply in_rev in Iw. apply N.eqb_eq in Ew.
  f_equal. clear - Nd I Iw Ew. induction (vws rs) as [|x l IH]; cbn in *; [tauto|]. inversion Nd as [|? ? Nx Nl]; subst.
  destruct I as [->|I], Iw as [->|Iw]; auto; exfalso; apply Nx; [rewrite <- Ew|rewrite Ew]; apply in_map; assumption.
Qed.
Lemma enc_get c l : NoDup (map ci_name l) -> In c l -> hget (ci_name c) (enc_list l) = ci_enc c.
Proof.
  induction l as [|x l IH]; cbn; [tauto|]. intros Nd I. inversion Nd as [|? ? Nx Nl]; subst. destruct I as [->|I].
  - destruct (ci_enc c) as [k|] eqn:E; cbn; [rewrite N.eqb_refl; reflexivity|]. apply hget_none. intros X. apply Nx. apply in_map_iff in X. destruct X as ([n0 k0] & E' & I). cbn in E'. subst n0.
    apply in_flat_map in I. destruct I as (c0 & I0 & I1). destruct (ci_enc c0); cbn in I1; [|contradiction]. destruct I1 as [[= E1 E2]|[]]. rewrite <- E1. apply in_map. exact I0.
  - assert (Ne : ci_name c <> ci_name x) by (intros X; apply Nx; rewrite <- X; apply in_map; exact I). destruct (ci_enc x); cbn; [destruct (N.eqb_spec (ci_name c) (ci_name x)); [congruence|]|]; apply IH; assumption.
Qed.
Lemma enc_none n l : ~ In n (map ci_name l) -> hget n (enc_list l) = None.
Proof.
  intros F. apply hget_none. intros X. apply F. apply in_map_iff in X. destruct X as ([n0 k0] & E' & I). cbn in E'. subst n0.
  apply in_flat_map in I. destruct I as (c0 & I0 & I1). destruct (ci_enc c0); cbn in I1; [|contradiction]. destruct I1 as [[= E1 E2]|[]]. rewrite <- E1. apply in_map. exact I0.
Qed.
Lemma filter_filter {A} (f g : A -> bool) l : filter f (filter g l) = filter (fun x => f x && g x) l.
Proof. induction l as [|a l IH]; cbn; [reflexivity|]. destruct (g a); cbn; [destruct (f a); cbn; rewrite IH; reflexivity|rewrite andb_false_r; exact IH]. Qed.
Lemma rep_answers s rs : rep s rs -> answers s rs.
Proof.
  intros [[N1 N2] Rc Rg Re Rt Rn Rv Ra Rvc Rve].
  constructor.
  - unfold collections. rewrite Rc, map_map. reflexivity.
  - intros c I. unfold key_description, generator_for, encryption_key. rewrite Rc, Rg, Re. split; [|split; [|apply enc_get; assumption]].
    + exact (hget_map ci_name ci_key _ _ _ N1 I eq_refl).
    + exact (hget_map ci_name ci_type _ _ _ N1 I eq_refl).
  - intros n F. unfold key_description, generator_for, encryption_key. rewrite Rc, Rg, Re. repeat split; [apply hget_map_none|apply hget_map_none|apply enc_none]; exact F.
  - intros t. unfold contains_collection. rewrite <- Rt. destruct (hget t (by_type s)); split; congruence.
  - intros v I. unfold view_by_name. rewrite Rn. rewrite (hget_map vi_name vi_type _ _ _ N2 I eq_refl). apply Rv.
  - intros n F. unfold view_by_name. rewrite Rn, hget_map_none by exact F. reflexivity.
  - exact Rv.
  - intros c. unfold views_in_collection. specialize (Rvc c).
    replace (map Some match hget c (views_by_coll s) with Some l => filter_map (fun t => hget t (views s)) l | None => [] end) with (map Some (filter_map (fun t => hget t (views s)) (typed c (vws rs)))) by (rewrite <- Rvc; destruct (hget c (views_by_coll s)); reflexivity).
    rewrite filter_map_some.
    + unfold typed. rewrite map_map. apply map_ext. intros v. apply Rv.
    + intros t I. unfold typed in I. apply in_map_iff in I. destruct I as (v & <- & I). apply filter_In in I. rewrite Rv. apply latest_some, I.
  - intros c. unfold eager_views_in_collection. specialize (Rve c).
    replace (map Some match hget c (eager_by_coll s) with Some l => filter_map (fun t => hget t (views s)) l | None => [] end) with (map Some (filter_map (fun t => hget t (views s)) (typed c (filter eagerb (vws rs))))) by (rewrite <- Rve; destruct (hget c (eager_by_coll s)); reflexivity).
    unfold typed. rewrite filter_filter. rewrite filter_map_some.
    + rewrite map_map. apply map_ext. intros v. apply Rv.
    + intros t I. apply in_map_iff in I. destruct I as (v & <- & I). apply filter_In in I. rewrite Rv. apply latest_some, I.
  - intros Nd. unfold all_views. rewrite (Ra Nd), map_map. cbn. apply map_id.
Qed.

(* ---- running the definitions *)
Lemma act_ind' (P : act -> Prop) : (forall v ig, P (DefView v ig)) -> (forall c body ig, Forall P body -> P (DefCollection c body ig)) -> forall a, P a.
Proof.
  intros HV HC. fix IH 1. intros [v ig|c body ig]; [apply HV|]. apply HC. induction body as [|a r IHr]; constructor; [apply IH|exact IHr].
Qed.
Lemma run_act_coll c body ig s : run_act (DefCollection c body ig) s =
  let '(s', e) := match hget (ci_name c) (contained s) with Some _ => (s, Some CollectionAlreadyDefined) | None => run_acts body (insert_collection c s) end in (s', if ig then None else e).
Proof.
  cbn. destruct (hget (ci_name c) (contained s)); [reflexivity|]. match goal with |- (let '(_, _) := ?f ?b ?x in _) = _ => replace (f b x) with (run_acts b x); [reflexivity|] end.
  generalize (insert_collection c s). induction body as [|a r IH]; intros s0; cbn; [reflexivity|]. destruct (run_act a s0) as [s1 [e|]]; [reflexivity|apply IH].
Qed.
Lemma declared_coll c body ig : declared (DefCollection c body ig) = RColl c :: declares body.
Proof. reflexivity. Qed.
Lemma checked_coll c body ig : checked (DefCollection c body ig) = negb ig && forallb checked body.
Proof. reflexivity. Qed.

Inductive sublist {A} : list A -> list A -> Prop :=
  | sub_nil : sublist [] []
  | sub_skip x l m : sublist l m -> sublist l (x :: m)
  | sub_take x l m : sublist l m -> sublist (x :: l) (x :: m).
Lemma sublist_empty {A} (l : list A) : sublist [] l.
Proof. induction l; constructor; assumption. Qed.
Lemma sublist_app {A} (a b c d : list A) : sublist a b -> sublist c d -> sublist (a ++ c) (b ++ d).
Proof. intros S1 S2. induction S1; cbn; [exact S2| |]; constructor; assumption. Qed.

(* any program: what is registered is a selection of what is declared *)
Definition okact (a : act) : Prop := forall s rs s' e, rep s rs -> run_act a s = (s', e) -> exists new, sublist new (declared a) /\ rep s' (rs ++ new).
Lemma run_acts_some l : Forall okact l -> forall s rs s' e, rep s rs -> run_acts l s = (s', e) -> exists new, sublist new (declares l) /\ rep s' (rs ++ new).
Proof.
  intros F. induction F as [|a r Ha F IH]; intros s rs s' e R E; cbn in E.
  - injection E as <- <-. exists []. split; [constructor|]. rewrite app_nil_r. exact R.
  - destruct (run_act a s) as [s1 [e1|]] eqn:E1.
    + injection E as <- <-. destruct (Ha _ _ _ _ R E1) as (n1 & S1 & R1). exists n1. split; [|exact R1]. cbn. rewrite <- (app_nil_r n1). apply sublist_app; [exact S1|apply sublist_empty].
    + destruct (Ha _ _ _ _ R E1) as (n1 & S1 & R1). destruct (IH _ _ _ _ R1 E) as (n2 & S2 & R2). exists (n1 ++ n2). split; [apply sublist_app; assumption|]. rewrite app_assoc. exact R2.
Qed.
Lemma run_act_some a : okact a.
Proof.
  induction a as [v ig|c body ig F] using act_ind'; intros s rs s' e R E.
  - cbn in E. pose proof (rep_view s rs v R) as V. destruct (define_view v s) as [s1 [e1|]]; injection E as <- <-.
    + destruct V as [-> _]. exists []. split; [apply sublist_empty|]. rewrite app_nil_r. exact R.
    + exists [RView v]. split; [apply sub_take, sub_nil|apply V].
  - rewrite run_act_coll in E. rewrite declared_coll. destruct (hget (ci_name c) (contained s)) as [k|] eqn:H.
    + injection E as <- <-. exists []. split; [apply sublist_empty|]. rewrite app_nil_r. exact R.
    + destruct (run_acts body (insert_collection c s)) as [s1 e1] eqn:E1. injection E as <- <-.
      destruct (run_acts_some body F _ _ _ _ (rep_coll s rs c R H) E1) as (n & S1 & R1). exists (RColl c :: n). split; [apply sub_take, S1|]. rewrite <- app_assoc in R1. exact R1.
Qed.
(* programs that return every error *)
Definition outcome_of (rs l : list reg) (s' : schematic) (e : option serr) : Prop :=
  match e with
  | None => rep s' (rs ++ l)
  | Some e => exists pre r post, l = pre ++ r :: post /\ distinct_names (rs ++ pre) /\ repeats (rs ++ pre) r e
  end.
Definition exact (a : act) : Prop := checked a = true -> forall s rs s' e, rep s rs -> run_act a s = (s', e) -> outcome_of rs (declared a) s' e.
Lemma run_acts_exact l : Forall exact l -> forallb checked l = true -> forall s rs s' e, rep s rs -> run_acts l s = (s', e) -> outcome_of rs (declares l) s' e.
Proof.
  intros F. induction F as [|a r Ha F IH]; intros C s rs s' e R E; cbn in E.
  - injection E as <- <-. cbn. rewrite app_nil_r. exact R.
  - cbn in C. apply andb_prop in C. destruct C as [C1 C2]. destruct (run_act a s) as [s1 [e1|]] eqn:E1.
    + injection E as <- <-. destruct (Ha C1 _ _ _ _ R E1) as (pre & x & post & D & Di & Rp). exists pre, x, (post ++ declares r). split; [cbn; rewrite D, <- app_assoc; reflexivity|]. split; assumption.
    + pose proof (Ha C1 _ _ _ _ R E1) as R1. cbn in R1. specialize (IH C2 _ _ _ _ R1 E). cbn [declares flat_map]. destruct e as [e|]; cbn in *.
      * destruct IH as (pre & x & post & D & Di & Rp). exists (declared a ++ pre), x, post. rewrite app_assoc. split; [|split; assumption]. unfold declares in D. rewrite D, <- app_assoc. reflexivity.
      * rewrite app_assoc. exact IH.
Qed.
Lemma run_act_exact a : exact a.
Proof.
  induction a as [v ig|c body ig F] using act_ind'; intros C s rs s' e R E.
  - cbn in C. destruct ig; [discriminate|]. cbn in E. pose proof (rep_view s rs v R) as V. destruct (define_view v s) as [s1 [e1|]]; injection E as <- <-.
    + destruct V as [-> V]. exists [], (RView v), []. split; [reflexivity|]. rewrite app_nil_r. split; [apply (r_names _ _ R)|exact V].
    + apply V.
  - rewrite checked_coll in C. apply andb_prop in C. destruct C as [C1 C2]. destruct ig; [discriminate|]. rewrite run_act_coll in E. rewrite declared_coll. destruct (hget (ci_name c) (contained s)) as [k|] eqn:H.
    + injection E as <- <-. exists [], (RColl c), (declares body). split; [reflexivity|]. rewrite app_nil_r. split; [apply (r_names _ _ R)|]. split; [|reflexivity].
      destruct (in_dec N.eq_dec (ci_name c) (map ci_name (colls rs))) as [I|I]; [exact I|exfalso]. rewrite (r_cont _ _ R), hget_map_none in H by exact I. discriminate.
    + destruct (run_acts body (insert_collection c s)) as [s1 e1] eqn:E1. injection E as <- <-.
      pose proof (run_acts_exact body F C2 _ _ _ _ (rep_coll s rs c R H) E1) as O. destruct e1 as [e1|]; cbn in *.
      * destruct O as (pre & x & post & D & Di & Rp). exists (RColl c :: pre), x, post. rewrite <- app_assoc in Di, Rp. split; [rewrite D; reflexivity|]. split; assumption.
      * rewrite <- app_assoc in O. exact O.
Qed.
(* the first repetition decides *)
Lemma repeats_not_distinct rs r e : repeats rs r e -> ~ distinct_names (rs ++ [r]).
Proof.
  assert (X : forall l (x : N), In x l -> ~ NoDup (l ++ [x])).
  { induction l as [|y l IH]; cbn; [tauto|]. intros x [->|I] Nd; inversion Nd as [|? ? Ny Nl]; subst; [apply Ny; rewrite in_app_iff; cbn; tauto|exact (IH x I Nl)]. }
  destruct r as [c|v]; intros [I ->] [N1 N2]; [rewrite colls_app, map_app in N1; cbn in N1; exact (X _ _ I N1)|rewrite vws_app, map_app in N2; cbn in N2; exact (X _ _ I N2)].
Qed.
Lemma distinct_front a b : distinct_names (a ++ b) -> distinct_names a.
Proof. intros [H1 H2]. rewrite colls_app, map_app in H1. rewrite vws_app, map_app in H2. split; eapply NoDup_front; eassumption. Qed.
