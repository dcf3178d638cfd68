(* C53: a user's permissions are those of its groups and roles.
   C61: adding and removing a user's groups and roles. *)
From Verif Require Import Base Perms.
Local Open Scope N_scope.

(* ---------- specification ---------- *)
(* group [i] of [a] contains the statement *)
Definition group_grants (a : admin) (i : N) (s : stmt) : Prop :=
  exists g, In g (groups a) /\ g_id g = i /\ In s (g_statements g).
Definition role_grants (a : admin) (i : N) (s : stmt) : Prop :=
  exists r j, In r (roles a) /\ r_id r = i /\ In j (r_groups r) /\ group_grants a j s.

Lemma has_spec l i : has l i = true <-> In i l.
Proof.
  unfold has. rewrite existsb_exists. split.
  - intros (x & H & E). apply N.eqb_eq in E. congruence.
  - intro H. exists i. split; [exact H|apply N.eqb_refl].
Qed.
Lemma dedup_in l x : In x (dedup l) <-> In x l.
Proof.
  induction l as [|a l IH]; [reflexivity|]. cbn [dedup]. destruct l as [|b l].
  - reflexivity.
  - destruct (N.eqb_spec a b) as [->|E].
    + rewrite IH. cbn [In]. tauto.
    + cbn [In] in *. rewrite IH. tauto.
Qed.
Lemma unique_in l x : In x (unique l) <-> In x l.
Proof.
  induction l as [|a l IH]; [reflexivity|]. cbn [unique In]. rewrite filter_In, IH, negb_true_iff, N.eqb_neq.
  destruct (N.eq_dec a x); intuition congruence.
Qed.
Lemma get_groups_grants a ids s :
  In s (merged (map g_statements (get_groups a ids))) <-> exists i, In i ids /\ group_grants a i s.
Proof.
  unfold merged, get_groups, group_grants. rewrite in_concat. split.
  - intros (l & H & K). apply in_map_iff in H. destruct H as (g & <- & H). apply filter_In in H. destruct H as [H1 H2].
    apply has_spec in H2. exists (g_id g). split; [exact H2|]. exists g. auto.
  - intros (i & H & g & G & <- & S). exists (g_statements g). split; [|exact S]. apply in_map, filter_In.
    split; [exact G|]. apply has_spec, H.
Qed.
Lemma merged_app l k s : In s (merged (l ++ [k])) <-> In s (merged l) \/ In s k.
Proof. unfold merged. rewrite concat_app, in_app_iff. cbn [concat]. rewrite app_nil_r. tauto. Qed.

(* A role: exactly its groups' statements and the inherited ones. *)
Theorem C53_role : forall a r inherit s,
  In s (role_permissions a r inherit) <->
  In s inherit \/ exists i, In i (r_groups r) /\ group_grants a i s.
Proof. intros. unfold role_permissions. rewrite merged_app, get_groups_grants. tauto. Qed.

(* A user: what the code computes, exactly. The roles consulted are those whose
   id happens to be the id of one of the user's GROUPS, and only if the user has
   any role at all. *)
Theorem C53_user_actual : forall a u inherit s,
  In s (user_permissions a u inherit) <->
  In s inherit \/ (exists i, In i (u_groups u) /\ group_grants a i s) \/
  (u_roles u <> [] /\ exists i, In i (u_groups u) /\ role_grants a i s).
Proof.
  intros. unfold user_permissions. rewrite merged_app.
  set (rg := match u_roles u with [] => [] | _ => _ end).
  assert (R : forall j, In j rg <-> u_roles u <> [] /\ exists r, In r (roles a) /\ In (r_id r) (u_groups u) /\ In j (r_groups r)).
  { intro j. subst rg. destruct (u_roles u) as [|r0 rs]; [split; [intros []|intros [H _]; congruence]|].
    rewrite unique_in, in_flat_map. unfold get_roles. split.
    - intros (r & H & K). apply filter_In in H. destruct H as [H1 H2]. apply has_spec in H2. split; [discriminate|eauto].
    - intros (_ & r & H1 & H2 & H3). exists r. split; [|exact H3]. apply filter_In. split; [exact H1|]. apply has_spec, H2. }
  assert (E : In s (merged (map g_statements (match rg with [] => get_groups a (u_groups u) | _ :: _ => get_groups a (dedup (rg ++ u_groups u)) end)))
            <-> exists i, (In i rg \/ In i (u_groups u)) /\ group_grants a i s).
  { destruct rg as [|x rg'].
    - rewrite get_groups_grants. split; intros (i & H & K); exists i; split; auto. destruct H as [[]|H]; exact H.
    - rewrite get_groups_grants. split; intros (i & H & K); exists i; (split; [|exact K]).
      + apply dedup_in, in_app_iff in H. exact H.
      + apply dedup_in, in_app_iff. exact H. }
  rewrite E. unfold role_grants. split.
  - intros [(i & [H|H] & K)|H]; [|right; left; eauto|left; exact H].
    apply R in H. destruct H as (H1 & r & H2 & H3 & H4). right. right. split; [exact H1|].
    exists (r_id r). split; [exact H3|]. exists r, i. auto.
  - intros [H|[(i & H & K)|(H & i & H1 & r & j & H2 & H3 & H4 & H5)]]; [right; exact H|left; eauto|].
    left. exists j. split; [|exact H5]. left. apply R. split; [exact H|]. exists r. subst i. auto.
Qed.

(* The property as stated holds for users without roles ... *)
Theorem C53_user_without_roles : forall a u inherit s, u_roles u = [] ->
  (In s (user_permissions a u inherit) <->
   In s inherit \/ (exists i, In i (u_groups u) /\ group_grants a i s) \/
   (exists i, In i (u_roles u) /\ role_grants a i s)).
Proof.
  intros a u inherit s R. rewrite C53_user_actual, R. split.
  - intros [H|[H|[H _]]]; [left; exact H|right; left; exact H|congruence].
  - intros [H|[H|(i & [] & _)]]; [left; exact H|right; left; exact H].
Qed.
(* ... and every user at least has what its groups and the inherited permissions give. *)
Theorem C53_user_lower_bound : forall a u inherit s,
  In s inherit \/ (exists i, In i (u_groups u) /\ group_grants a i s) ->
  In s (user_permissions a u inherit).
Proof. intros a u inherit s H. apply C53_user_actual. tauto. Qed.

Definition ex_admin : admin :=
  mkadmin [mkgroup 1 [103] [10]; mkgroup 2 [104] [20]; mkgroup 3 [105] [30]]
          [mkrole 1 [114] [2]; mkrole 7 [115] [3]]
          [mkuser 0 [97] [1] []; mkuser 1 [98] [] [7]; mkuser 2 [99] [1] [7]].
Example C53_example :
  user_permissions ex_admin (mkuser 0 [97] [1; 3] []) [99] = [10; 30; 99] /\
  role_permissions ex_admin (mkrole 7 [115] [3; 2]) [99] = [20; 30; 99].
Proof. split; reflexivity. Qed.

(* The permissions of a role are not given to a user who only has the role. *)
Theorem C53_role_ignored_refuted :
  let u := mkuser 1 [98] [] [7] in
  role_grants ex_admin 7 30 /\ In 7 (u_roles u) /\ user_permissions ex_admin u [] = [].
Proof.
  cbv zeta. split; [|split; [left; reflexivity|reflexivity]].
  exists (mkrole 7 [115] [3]), 3. split; [right; left; reflexivity|]. split; [reflexivity|]. split; [left; reflexivity|].
  exists (mkgroup 3 [105] [30]). split; [right; right; left; reflexivity|]. split; [reflexivity|left; reflexivity].
Qed.
(* A user in group 1 with some role is given the permissions of ROLE 1, which it
   was never assigned. *)
Theorem C53_wrong_role_refuted :
  let u := mkuser 2 [99] [1] [7] in
  ~ In 1 (u_roles u) /\ In 20 (user_permissions ex_admin u []) /\
  ~ (exists i, In i (u_groups u) /\ group_grants ex_admin i 20) /\
  ~ (exists i, In i (u_roles u) /\ role_grants ex_admin i 20).
Proof.
  cbv zeta. split; [intros [H|[]]; discriminate|]. split; [right; left; reflexivity|]. split.
  - intros (i & [<-|[]] & g & G & E & S). cbn in G. destruct G as [<-|[<-|[<-|[]]]]; cbn in E, S; intuition discriminate.
  - intros (i & [<-|[]] & r & j & R & E & J & g & G & E2 & S). cbn in R, G.
    destruct R as [<-|[<-|[]]]; cbn in E, J; try discriminate. destruct J as [<-|[]].
    destruct G as [<-|[<-|[<-|[]]]]; cbn in E2, S; intuition discriminate.
Qed.

(* ================= C61 ================= *)
Definition wf (a : admin) : Prop :=
  NoDup (map u_id (users a)) /\ NoDup (map u_name (users a)) /\
  (forall u, In u (users a) -> NoDup (u_groups u) /\ NoDup (u_roles u)).

Lemma peq_spec a b : peq a b = true <-> a = b.
Proof. unfold peq. destruct list_eq_dec; split; congruence. Qed.

(* Which user a reference means. *)
Definition refers (a : admin) (r : ref) (u : user) : Prop :=
  In u (users a) /\ match r with ById i => u_id u = i | ByName n => u_name u = n end.

Lemma NoDup_map_inj {A B} (f : A -> B) l x y : NoDup (map f l) -> In x l -> In y l -> f x = f y -> x = y.
Proof.
  induction l as [|a l IH]; intros H Hx Hy E; [destruct Hx|]; destruct Hx as [Hx|Hx], Hy as [Hy|Hy]; cbn [map] in H; inversion H as [|? ? H1 H2]; subst; try reflexivity.
  - exfalso. apply H1. rewrite E. apply in_map. assumption.
  - exfalso. apply H1. rewrite <- E. apply in_map. assumption.
  - apply IH; assumption.
Qed.

Lemma load_user_spec a r : wf a -> forall u, load_user a r = Some u <-> refers a r u.
Proof.
  intros (W1 & W2 & _) u. unfold refers. destruct r as [n|i]; cbn [load_user]; split.
  - intro H. apply find_some in H. destruct H as [H1 H2]. apply peq_spec in H2. auto.
  - intros [H1 H2]. destruct (find _ (users a)) as [u'|] eqn:E.
    + apply find_some in E. destruct E as [E1 E2]. apply peq_spec in E2. f_equal.
      apply (NoDup_map_inj u_name (users a)); auto. congruence.
    + apply (find_none _ _ E) in H1. rewrite (proj2 (peq_spec _ _) H2) in H1. discriminate.
  - intro H. apply find_some in H. destruct H as [H1 H2]. apply N.eqb_eq in H2. auto.
  - intros [H1 H2]. destruct (find _ (users a)) as [u'|] eqn:E.
    + apply find_some in E. destruct E as [E1 E2]. apply N.eqb_eq in E2. f_equal.
      apply (NoDup_map_inj u_id (users a)); auto. congruence.
    + apply (find_none _ _ E) in H1. rewrite (proj2 (N.eqb_eq _ _) H2) in H1. discriminate.
Qed.

Lemma save_user_in a u x : In u (users a) -> NoDup (map u_id (users a)) -> forall u', u_id u' = u_id u ->
  (In x (users (save_user a u')) <-> x = u' \/ (In x (users a) /\ x <> u)).
Proof.
  intros H N u' E. unfold save_user. cbn [users]. rewrite in_map_iff. split.
  - intros (y & K & Y). destruct (N.eqb_spec (u_id y) (u_id u')) as [D|D]; [left; congruence|].
    right. subst x. split; [exact Y|]. intros ->. congruence.
  - intros [->|[Y D]].
    + exists u. rewrite (proj2 (N.eqb_eq _ _) (eq_sym E)). auto.
    + exists x. split; [|exact Y]. destruct (N.eqb_spec (u_id x) (u_id u')) as [F|F]; [|reflexivity].
      exfalso. apply D. apply (NoDup_map_inj u_id (users a)); auto. congruence.
Qed.

(* The four calls: what each changes. [edit] describes the new groups and roles. *)
Definition call_spec (a : admin) (allowed : N -> bool) (u : ref) (other : option N)
    (edit : user -> N -> user -> Prop) (res : admin * outcome unit perr) : Prop :=
  let '(a', r) := res in
  groups a' = groups a /\ roles a' = roles a /\
  match r with
  | Done _ => exists x o x', refers a u x /\ other = Some o /\ allowed (u_id x) = true /\
      u_id x' = u_id x /\ u_name x' = u_name x /\ edit x o x' /\
      forall y, In y (users a') <-> y = x' \/ (In y (users a) /\ y <> x)
  | Fail EUserNotFound => a' = a /\ ((forall x, ~ refers a u x) \/ other = None)
  | Fail EDenied => a' = a /\ exists x, refers a u x /\ allowed (u_id x) = false
  | _ => False
  end.

Lemma update_user_spec a allowed u other (f : user -> N -> user * bool) (edit : user -> N -> user -> Prop) : wf a ->
  (forall x o x' b, In x (users a) -> f x o = (x', b) -> u_id x' = u_id x /\ u_name x' = u_name x /\ edit x o (if b then x' else x)) ->
  call_spec a allowed u other edit (update_user a allowed u other f).
Proof.
  intros W F. unfold update_user, call_spec. pose proof (load_user_spec a u W) as L.
  destruct (load_user a u) as [x|].
  2: { split; [reflexivity|]. split; [reflexivity|]. split; [reflexivity|]. left. intros x K. apply L in K. discriminate. }
  destruct other as [o|]; [|split; [reflexivity|split; [reflexivity|split; [reflexivity|right; reflexivity]]]].
  pose proof (proj1 (L x) eq_refl) as R. destruct (allowed (u_id x)) eqn:A.
  2: { split; [reflexivity|]. split; [reflexivity|]. split; [reflexivity|]. exists x. auto. }
  destruct (f x o) as [x' b] eqn:E. destruct (F x o x' b (proj1 R) E) as (F1 & F2 & F3).
  destruct b.
  - split; [reflexivity|]. split; [reflexivity|]. exists x, o, x'.
    repeat (split; [assumption || reflexivity|]). intro y. apply save_user_in; [exact (proj1 R)|apply W|exact F1].
  - split; [reflexivity|]. split; [reflexivity|]. exists x, o, x.
    repeat (split; [assumption || reflexivity|]). intro y. split.
    + intro Y. destruct (N.eq_dec (u_id y) (u_id x)) as [D|D]; [left|right; split; [exact Y|congruence]].
      apply (NoDup_map_inj u_id (users a)); auto; [apply W|apply R].
    + intros [->|[Y _]]; [apply R|exact Y].
Qed.

Lemma filter_length_same (l : list N) (g : N) : length (filter (fun x => negb (x =? g)) l) = length l -> filter (fun x => negb (x =? g)) l = l.
Proof.
  induction l as [|x l IH]; [reflexivity|]. cbn [filter]. destruct (negb (x =? g)); cbn [length]; intro H.
  - f_equal. apply IH. congruence.
  - exfalso. assert (K : forall k : list N, (length (filter (fun x => negb (x =? g)%N) k) <= length k)%nat) by (induction k as [|y k IHk]; cbn [filter length]; [lia|destruct (negb (y =? g)); cbn [length]; lia]). specialize (K l). lia.
Qed.

Definition adds_group (x : user) (g : N) (x' : user) : Prop :=
  u_roles x' = u_roles x /\ (forall i, In i (u_groups x') <-> In i (u_groups x) \/ i = g).
Definition removes_group (x : user) (g : N) (x' : user) : Prop :=
  u_roles x' = u_roles x /\ (forall i, In i (u_groups x') <-> In i (u_groups x) /\ i <> g).
Definition adds_role (x : user) (g : N) (x' : user) : Prop :=
  u_groups x' = u_groups x /\ (forall i, In i (u_roles x') <-> In i (u_roles x) \/ i = g).
Definition removes_role (x : user) (g : N) (x' : user) : Prop :=
  u_groups x' = u_groups x /\ (forall i, In i (u_roles x') <-> In i (u_roles x) /\ i <> g).

(* What a name or id given for a group (role) denotes. *)
Definition denotes_group (a : admin) (r : ref) (o : option N) : Prop :=
  match r, o with
  | ById i, Some j => i = j
  | ByName n, Some j => exists g, In g (groups a) /\ g_name g = n /\ g_id g = j
  | ByName n, None => forall g, In g (groups a) -> g_name g <> n
  | ById _, None => False
  end.
Definition denotes_role (a : admin) (r : ref) (o : option N) : Prop :=
  match r, o with
  | ById i, Some j => i = j
  | ByName n, Some j => exists g, In g (roles a) /\ r_name g = n /\ r_id g = j
  | ByName n, None => forall g, In g (roles a) -> r_name g <> n
  | ById _, None => False
  end.
Lemma group_ref_spec a r : denotes_group a r (group_ref a r).
Proof.
  destruct r as [n|i]; cbn [group_ref denotes_group]; [|reflexivity].
  destruct (find _ (groups a)) as [g|] eqn:E; cbn [option_map].
  - apply find_some in E. destruct E as [E1 E2]. apply peq_spec in E2. eauto.
  - intros g G K. apply (find_none _ _ E) in G. rewrite (proj2 (peq_spec _ _) K) in G. discriminate.
Qed.
Lemma role_ref_spec a r : denotes_role a r (role_ref a r).
Proof.
  destruct r as [n|i]; cbn [role_ref denotes_role]; [|reflexivity].
  destruct (find _ (roles a)) as [g|] eqn:E; cbn [option_map].
  - apply find_some in E. destruct E as [E1 E2]. apply peq_spec in E2. eauto.
  - intros g G K. apply (find_none _ _ E) in G. rewrite (proj2 (peq_spec _ _) K) in G. discriminate.
Qed.

Lemma add_group_edit a x o x' b : In x (users a) -> add_group_inner x o = (x', b) ->
  u_id x' = u_id x /\ u_name x' = u_name x /\ adds_group x o (if b then x' else x).
Proof.
  intros _ E. unfold add_group_inner in E. destruct (has (u_groups x) o) eqn:H; injection E as <- <-.
  - apply has_spec in H. repeat split; auto. intros [? | ->]; assumption.
  - repeat split; cbn [u_groups]; intros; rewrite in_app_iff in *; cbn [In] in *; intuition.
Qed.
Lemma add_role_edit a x o x' b : In x (users a) -> add_role_inner x o = (x', b) ->
  u_id x' = u_id x /\ u_name x' = u_name x /\ adds_role x o (if b then x' else x).
Proof.
  intros _ E. unfold add_role_inner in E. destruct (has (u_roles x) o) eqn:H; injection E as <- <-.
  - apply has_spec in H. repeat split; auto. intros [? | ->]; assumption.
  - repeat split; cbn [u_roles]; intros; rewrite in_app_iff in *; cbn [In] in *; intuition.
Qed.
Lemma filter_neq_in (l : list N) (g i : N) : In i (filter (fun x => negb (x =? g)) l) <-> In i l /\ i <> g.
Proof. rewrite filter_In, negb_true_iff, N.eqb_neq. reflexivity. Qed.
Lemma remove_group_edit a x o x' b : In x (users a) -> remove_group_inner x o = (x', b) ->
  u_id x' = u_id x /\ u_name x' = u_name x /\ removes_group x o (if b then x' else x).
Proof.
  intros _ E. unfold remove_group_inner in E. injection E as <- <-.
  split; [reflexivity|]. split; [reflexivity|]. destruct (Nat.eqb_spec (length (u_groups x)) (length (filter (fun y => negb (y =? o)) (u_groups x)))) as [D|D]; cbn [negb].
  - split; [reflexivity|]. intro i. symmetry in D. apply filter_length_same in D. rewrite <- filter_neq_in, D. reflexivity.
  - split; [reflexivity|]. intro i. cbn [u_groups]. apply filter_neq_in.
Qed.
Lemma remove_role_edit a x o x' b : In x (users a) -> remove_role_inner x o = (x', b) ->
  u_id x' = u_id x /\ u_name x' = u_name x /\ removes_role x o (if b then x' else x).
Proof.
  intros _ E. unfold remove_role_inner in E. injection E as <- <-.
  split; [reflexivity|]. split; [reflexivity|]. destruct (Nat.eqb_spec (length (u_roles x)) (length (filter (fun y => negb (y =? o)) (u_roles x)))) as [D|D]; cbn [negb].
  - split; [reflexivity|]. intro i. symmetry in D. apply filter_length_same in D. rewrite <- filter_neq_in, D. reflexivity.
  - split; [reflexivity|]. intro i. cbn [u_roles]. apply filter_neq_in.
Qed.

(* ---------- histories keep the admin database well-formed ---------- *)
Lemma edit_wf a u x' : wf a -> In u (users a) -> u_id x' = u_id u -> u_name x' = u_name u ->
  NoDup (u_groups x') -> NoDup (u_roles x') -> wf (save_user a x').
Proof.
  intros (W1 & W2 & W3) H E1 E2 N1 N2. unfold wf, save_user. cbn [users].
  assert (ID : forall y, u_id (if u_id y =? u_id x' then x' else y) = u_id y).
  { intro y. destruct (N.eqb_spec (u_id y) (u_id x')); congruence. }
  split; [rewrite map_map, (map_ext _ u_id) by exact ID; exact W1|]. split.
  - rewrite map_map, (map_ext_in _ u_name); [exact W2|]. intros y Y.
    destruct (N.eqb_spec (u_id y) (u_id x')) as [D|D]; [|reflexivity].
    rewrite E2. f_equal. apply (NoDup_map_inj u_id (users a)); auto. congruence.
  - intros y Y. apply in_map_iff in Y. destruct Y as (z & <- & Z). destruct (u_id z =? u_id x'); [auto|apply W3, Z].
Qed.
Lemma NoDup_app_one (l : list N) x : NoDup l -> ~ In x l -> NoDup (l ++ [x]).
Proof.
  induction l as [|y l IH]; intros H K; cbn [app].
  - constructor; [intros []|constructor].
  - inversion H as [|? ? H1 H2]; subst. constructor.
    + rewrite in_app_iff. intros [L|[L|[]]]; [contradiction|]. subst. apply K. left. reflexivity.
    + apply IH; [exact H2|]. intro L. apply K. right. exact L.
Qed.
Lemma update_user_wf a allowed u other (f : user -> N -> user * bool) : wf a ->
  (forall x o, In x (users a) -> let x' := fst (f x o) in u_id x' = u_id x /\ u_name x' = u_name x /\ NoDup (u_groups x') /\ NoDup (u_roles x')) ->
  wf (fst (update_user a allowed u other f)).
Proof.
  intros W F. unfold update_user. pose proof (load_user_spec a u W) as L. destruct (load_user a u) as [x|]; [|exact W].
  destruct other as [o|]; [|exact W]. destruct (allowed (u_id x)); [|exact W].
  pose proof (proj1 (L x) eq_refl) as [R _]. specialize (F x o R). destruct (f x o) as [x' []]; [|exact W].
  cbn [fst] in *. destruct F as (F1 & F2 & F3 & F4). eapply edit_wf; eauto.
Qed.
Lemma NoDup_filterN (l : list N) P : NoDup l -> NoDup (filter P l).
Proof. apply NoDup_filter. Qed.
Lemma has_false l i : has l i = false -> ~ In i l.
Proof. intros H K. apply has_spec in K. congruence. Qed.

Lemma step_wf a o : wf a -> wf (step a o).
Proof.
  intro W. destruct o as [al u g|al u g|al u r|al u r|al n|al u]; cbn [step].
  1-4: apply update_user_wf; [exact W|]; intros x o X; destruct W as (_ & _ & W3); destruct (W3 x X) as [G R].
  - unfold add_group_inner. destruct (has (u_groups x) o) eqn:H; cbn; [auto|]. apply has_false in H. repeat split; auto. apply NoDup_app_one; assumption.
  - cbn. repeat split; auto. apply NoDup_filterN, G.
  - unfold add_role_inner. destruct (has (u_roles x) o) eqn:H; cbn; [auto|]. apply has_false in H. repeat split; auto. apply NoDup_app_one; assumption.
  - cbn. repeat split; auto. apply NoDup_filterN, R.
  - unfold create_user. destruct al; cbn [negb fst]; [|exact W]. destruct (existsb _ (users a)) eqn:E; [exact W|].
    destruct W as (W1 & W2 & W3). unfold wf. cbn [fst users]. rewrite !map_app. cbn [map u_id u_name].
    split; [|split].
    + apply NoDup_app_one; [exact W1|]. intro K.
      assert (B : forall y, In y (users a) -> u_id y < fresh_user a).
      { unfold fresh_user. clear. induction (users a) as [|z l IH]; intros y []; cbn [fold_right]; [subst; lia|specialize (IH _ H); lia]. }
      apply in_map_iff in K. destruct K as (y & K & Y). specialize (B y Y). lia.
    + assert (K : ~ In n (map u_name (users a))).
      { intro K. apply in_map_iff in K. destruct K as (y & K & Y).
        assert (T : existsb (fun u => peq (u_name u) n) (users a) = true) by (apply existsb_exists; exists y; split; [exact Y|apply peq_spec, K]). congruence. }
      clear - W2 K. induction (map u_name (users a)) as [|z l IH]; cbn [app].
      * constructor; [intros []|constructor].
      * inversion W2 as [|? ? A B]; subst. constructor.
        -- rewrite in_app_iff. intros [L|[L|[]]]; [contradiction|]. subst. apply K. left. reflexivity.
        -- apply IH; [exact B|]. intro L. apply K. right. exact L.
    + intros y Y. apply in_app_iff in Y. destruct Y as [Y|[<-|[]]]; [apply W3, Y|]. cbn. split; constructor.
  - unfold delete_user. destruct (load_user a u) as [x|]; [|exact W]. destruct (al (u_id x)); [|exact W].
    destruct W as (W1 & W2 & W3). unfold wf. cbn [fst users].
    assert (S : forall (B : Type) (f : user -> B) P, NoDup (map f (users a)) -> NoDup (map f (filter P (users a)))).
    { intros B f P. clear. induction (users a) as [|z l IH]; intro H; [constructor|]. cbn [map filter] in *. inversion H as [|? ? A C]; subst.
      destruct (P z); [|apply IH, C]. cbn [map]. constructor; [|apply IH, C]. intro K. apply A. apply in_map_iff in K.
      destruct K as (y & E & K). apply filter_In in K. rewrite <- E. apply in_map, K. }
    split; [apply S, W1|]. split; [apply S, W2|]. intros y Y. apply filter_In in Y. apply W3, Y.
Qed.
Lemma run_wf l : forall a, wf a -> wf (run a l).
Proof. induction l as [|o l IH]; intros a W; [exact W|]. apply (IH (step a o)), step_wf, W. Qed.

(* After any history of user-management calls, each further call has exactly
   the stated effect: the permission check is on the user named, nothing changes
   when it fails, and on success exactly that user's groups (roles) gain or lose
   exactly the id denoted; no other user and no group or role document changes. *)
Theorem C61_add_group : forall a0 h allowed u g, wf a0 -> let a := run a0 h in
  exists o, denotes_group a g o /\
  call_spec a allowed u o adds_group (add_permission_group_to_user a allowed u g).
Proof.
  intros. exists (group_ref a g). split; [apply group_ref_spec|]. apply update_user_spec; [apply run_wf; assumption|].
  intros; eapply add_group_edit; eassumption.
Qed.
Theorem C61_remove_group : forall a0 h allowed u g, wf a0 -> let a := run a0 h in
  exists o, denotes_group a g o /\
  call_spec a allowed u o removes_group (remove_permission_group_from_user a allowed u g).
Proof.
  intros. exists (group_ref a g). split; [apply group_ref_spec|]. apply update_user_spec; [apply run_wf; assumption|].
  intros; eapply remove_group_edit; eassumption.
Qed.
Theorem C61_remove_role : forall a0 h allowed u r, wf a0 -> let a := run a0 h in
  exists o, denotes_role a r o /\
  call_spec a allowed u o removes_role (remove_role_from_user a allowed u r).
Proof.
  intros. exists (role_ref a r). split; [apply role_ref_spec|]. apply update_user_spec; [apply run_wf; assumption|].
  intros; eapply remove_role_edit; eassumption.
Qed.
(* The full statement for add_role would say: exists o, denotes_role a r o /\
   call_spec a allowed u o adds_role (add_role_to_user a allowed u r). It holds
   when the role is given by its id; by name see the refutation below. *)
Theorem C61_add_role_by_id : forall a0 h allowed u i, wf a0 -> let a := run a0 h in
  call_spec a allowed u (Some i) adds_role (add_role_to_user a allowed u (ById i)).
Proof.
  intros. apply update_user_spec; [apply run_wf; assumption|]. intros; eapply add_role_edit; eassumption.
Qed.
Theorem C61_add_role_by_name_refuted :
  (* the role named "s" exists but is not found *)
  snd (add_role_to_user ex_admin (fun _ => true) (ByName [97]) (ByName [115])) = Fail EUserNotFound /\
  (* and a group's name adds the role with the group's id *)
  let a' := fst (add_role_to_user ex_admin (fun _ => true) (ByName [97]) (ByName [103])) in
  (forall r, In r (roles ex_admin) -> r_name r <> [103]) /\
  load_user a' (ById 0) = Some (mkuser 0 [97] [1] [1]).
Proof.
  split; [reflexivity|]. split; [|reflexivity]. intros r [<-|[<-|[]]]; discriminate.
Qed.

(* Users: created with a fresh id, a unique name and no groups or roles;
   deleting removes exactly the named user. *)
Theorem C61_create_user : forall a0 h allowed n, wf a0 -> let a := run a0 h in
  let '(a', r) := create_user a allowed n in
  match r with
  | Done i => allowed = true /\ (forall u, In u (users a) -> u_id u <> i /\ u_name u <> n) /\
              users a' = users a ++ [mkuser i n [] []]
  | Fail EDenied => allowed = false /\ a' = a
  | Fail EUnique => a' = a /\ exists u, In u (users a) /\ u_name u = n
  | _ => False
  end.
Proof.
  intros a0 h allowed n W a. unfold create_user. destruct allowed; cbn [negb]; [|split; reflexivity].
  destruct (existsb _ (users a)) eqn:E.
  - split; [reflexivity|]. apply existsb_exists in E. destruct E as (u & H & E). apply peq_spec in E. eauto.
  - split; [reflexivity|]. split; [|reflexivity]. intros u H. split.
    + assert (B : u_id u < fresh_user a).
      { revert u H. unfold fresh_user. clear. induction (users a) as [|z l IH]; intros y []; cbn [fold_right]; [subst; lia|specialize (IH _ H); lia]. }
      lia.
    + intro K. assert (T : existsb (fun u => peq (u_name u) n) (users a) = true) by (apply existsb_exists; exists u; split; [exact H|apply peq_spec, K]). congruence.
Qed.
Theorem C61_delete_user : forall a0 h allowed r, wf a0 -> let a := run a0 h in
  let '(a', res) := delete_user a allowed r in
  groups a' = groups a /\ roles a' = roles a /\
  match res with
  | Done _ => exists x, refers a r x /\ allowed (u_id x) = true /\ forall y, In y (users a') <-> In y (users a) /\ y <> x
  | Fail EUserNotFound => a' = a /\ forall x, ~ refers a r x
  | Fail EDenied => a' = a /\ exists x, refers a r x /\ allowed (u_id x) = false
  | _ => False
  end.
Proof.
  intros a0 h allowed r W0 a. assert (W : wf a) by (apply run_wf; exact W0).
  unfold delete_user. pose proof (load_user_spec a r W) as L. destruct (load_user a r) as [x|].
  - pose proof (proj1 (L x) eq_refl) as R. destruct (allowed (u_id x)) eqn:A.
    + split; [reflexivity|]. split; [reflexivity|]. exists x. split; [exact R|]. split; [exact A|]. intro y. cbn [users].
      rewrite filter_In, negb_true_iff, N.eqb_neq. split; intros [H K]; (split; [exact H|]); [congruence|].
      intro E. apply K. apply (NoDup_map_inj u_id (users a)); auto; [apply W|apply R].
    + split; [reflexivity|]. split; [reflexivity|]. split; [reflexivity|]. eauto.
  - split; [reflexivity|]. split; [reflexivity|]. split; [reflexivity|]. intros x K. apply L in K. discriminate.
Qed.
(* Names and ids stay unique, and no group or role is listed twice for a user. *)
Theorem C61_wellformed : forall a0 h, wf a0 -> wf (run a0 h).
Proof. intros. apply run_wf. assumption. Qed.

Example C61_example :
  wf ex_admin /\
  let h := [OAddGroup (fun _ => true) (ByName [97]) (ByName [104]); OAddGroup (fun _ => true) (ById 0) (ById 2);
            ORemoveGroup (fun _ => true) (ById 0) (ById 1); OAddGroup (fun i => i =? 7) (ById 2) (ById 3);
            OAddRole (fun _ => true) (ById 0) (ById 7); OCreateUser true [100]; ODeleteUser (fun _ => true) (ByName [98])] in
  users (run ex_admin h) = [mkuser 0 [97] [2] [7]; mkuser 2 [99] [1] [7]; mkuser 3 [100] [] []].
Proof.
  split; [|reflexivity]. unfold wf, ex_admin; cbn. repeat split.
  - repeat constructor; cbn; intuition discriminate.
  - repeat constructor; cbn; intuition discriminate.
  - destruct H as [<-|[<-|[<-|[]]]]; repeat constructor; cbn; tauto.
  - destruct H as [<-|[<-|[<-|[]]]]; repeat constructor; cbn; tauto.
Qed.

Print Assumptions C53_role.
Print Assumptions C53_user_actual.
Print Assumptions C53_user_without_roles.
Print Assumptions C53_user_lower_bound.
Print Assumptions C53_role_ignored_refuted.
Print Assumptions C53_wrong_role_refuted.
Print Assumptions C61_add_group.
Print Assumptions C61_remove_group.
Print Assumptions C61_remove_role.
Print Assumptions C61_add_role_by_id.
Print Assumptions C61_add_role_by_name_refuted.
Print Assumptions C61_create_user.
Print Assumptions C61_delete_user.
Print Assumptions C61_wellformed.
